(** The diagram weight is the signed product of the line weights, in exact arithmetic *)
From Coq Require Import ZArith List Bool Arith Lia ZifyBool Permutation Reals Lra.
From Coquelicot Require Import Complex.
From Verif Require Import Base Num NumR RNG Momentum Complex Lattice Bundle IndexMap Weights Diagram Markov DiagramIO History
  P_Momentum P_RNG P_Bundle P_Lattice P_IndexMap P_Complex P_WP P_Inv P_Rel P_Sem1 P_Sem2 P_Sem3 P_Pres1 P_Pres2 P_Pres3 P_Pres4
  P_Hop P_Fix P_IO P_History P_IOProm P_Loop.
Import ListNotations.
Open Scope Z_scope.

(** product of the weights [f] over a list of slots *)
Definition pr (f : nat -> cR) (l : list nat) : C := fold_right (fun x a => Cmult (toC (f x)) a) (RtoC 1) l.
Lemma pr_app f l l' : pr f (l ++ l') = Cmult (pr f l) (pr f l').
Proof. unfold pr. induction l as [|x l IH]; cbn [app fold_right]; [now rewrite Cmult_1_l|]. rewrite IH. ring. Qed.
Lemma pr_perm f l l' : Permutation l l' -> pr f l = pr f l'.
Proof.
  unfold pr. induction 1 as [|x l l' _ IH|x y l|l1 l2 l3 _ IH1 _ IH2]; cbn [fold_right]; auto.
  - now rewrite IH.
  - ring.
  - congruence.
Qed.
Lemma pr_ext f f' l : (forall x, In x l -> f' x = f x) -> pr f' l = pr f l.
Proof.
  unfold pr. induction l as [|x l IH]; intros H; auto. cbn [fold_right]. rewrite IH by (intros; apply H; now right).
  now rewrite (H x) by now left.
Qed.
Lemma Cmult_integral a b : Cmult a b = RtoC 0 -> a = RtoC 0 \/ b = RtoC 0.
Proof.
  intros H. destruct (Ceq_dec a (RtoC 0)) as [->|Na]; [now left|]. right.
  rewrite <- (Cmult_1_l b), <- (Cinv_l a) by auto. rewrite <- Cmult_assoc, H. ring.
Qed.
Lemma Cmult_nz a b : a <> RtoC 0 -> b <> RtoC 0 -> Cmult a b <> RtoC 0.
Proof. intros Ha Hb H. apply Cmult_integral in H. tauto. Qed.
Lemma pr_nz f l : pr f l <> RtoC 0 <-> forall x, In x l -> toC (f x) <> RtoC 0.
Proof.
  induction l as [|x l IH].
  - split; [intros _ x []|]. intros _ E. apply (f_equal fst) in E. cbn in E. lra.
  - change (pr f (x :: l)) with (Cmult (toC (f x)) (pr f l)). split.
    + intros H y [<-|Hy] E; [apply H; rewrite E; ring|]. assert (N : pr f l <> RtoC 0) by (intros E'; apply H; rewrite E'; ring).
      exact (proj1 IH N y Hy E).
    + intros H. apply Cmult_nz; [apply H; now left|]. apply IH. intros y Hy. apply H. now right.
Qed.

Definition rest (k l : list nat) : list nat := filter (fun x => negb (mem x k)) l.
Lemma split_perm k l : NoDup l -> NoDup k -> incl k l -> Permutation l (k ++ rest k l).
Proof.
  intros Nl Nk I. apply NoDup_Permutation; auto.
  - rewrite <- (rev_involutive k) at 1.
    assert (G : forall a, NoDup a -> (forall x, In x a -> In x k) -> NoDup (a ++ rest k l)).
    { induction a as [|x a IH]; intros Na Ha; [apply NoDup_filter, Nl|]. inversion Na as [|y a' Nx Na']; subst. cbn [app]. constructor.
      - rewrite in_app_iff. intros [Q|Q]; auto. apply filter_In in Q as [_ Q]. apply negb_true_iff in Q.
        assert (X : mem x k = true) by (apply mem_In, Ha; now left). congruence.
      - apply IH; auto. intros y Hy. apply Ha. now right. }
    rewrite rev_involutive. apply G; auto.
  - intros x. rewrite in_app_iff. unfold rest. rewrite filter_In, negb_true_iff. split.
    + intros Hx. destruct (mem x k) eqn:E; [left; now apply mem_In|right; auto].
    + intros [Q|[Q _]]; auto.
Qed.
Lemma rest_in k l x : In x (rest k l) -> In x l /\ ~ In x k.
Proof. unfold rest. rewrite filter_In, negb_true_iff. intros [A B]. split; auto. intros C. apply mem_In in C. congruence. Qed.

(** ** Sign and order *)
Definition sgo (o : Z) : R := if Z.even o then 1%R else (-1)%R.
Lemma sgo_1 o : sgo (o + 1) = (- sgo o)%R.
Proof. unfold sgo. rewrite Z.even_add. destruct (Z.even o); cbn; lra. Qed.
Lemma sgo_m1 o : sgo (o - 1) = (- sgo o)%R.
Proof. unfold sgo. rewrite Z.even_sub. destruct (Z.even o); cbn; lra. Qed.

Section W.
Notation D := (@diagram NumR).
Notation cfgR := (@cfg NumR).

Definition sg (d : D) : R := (sfl d * sgo (order d))%R.
(** the signed product of all line weights *)
Definition sprod (d : D) : C := Cmult (RtoC (sg d)) (Cmult (pr (g_W d) (liveL (gB d))) (pr (w_W d) (liveL (wB d)))).
Record WInv (c : cfgR) (d : D) : Prop := {
  wi_g : forall g, live (gB d) g -> toC (g_W d g) <> RtoC 0;
  wi_w : forall w, live (wB d) w -> toC (w_W d w) <> RtoC 0;
  wi_p : toC (dweight d) = if order d =? 0 then RtoC (normF (c_tab c)) else sprod d;
  wi_ph : dphase d = phase (dweight d);
  wi_n : order d = 0 -> normF (c_tab c) <> 0%R }.

(** the bookkeeping formula alone: it holds of every proposed diagram, accepted or not *)
Definition dwp (c : cfgR) (d : D) : Prop := toC (dweight d) = if order d =? 0 then RtoC (normF (c_tab c)) else sprod d.

Lemma RtoC_nz x : x <> 0%R -> RtoC x <> RtoC 0.
Proof. intros H E. apply H. exact (RtoC_inj _ _ E). Qed.
Lemma sign_pm (d : D) : LoopSign d -> sfl d = 1%R \/ sfl d = (-1)%R.
Proof. intros (s & _ & E). rewrite E. destruct s; cbn; auto. Qed.
Lemma sg_nz (d : D) : LoopSign d -> sg d <> 0%R.
Proof. intros L. unfold sg, sgo. destruct (sign_pm d L) as [-> | ->], (Z.even (order d)); cbn; lra. Qed.
Lemma dw_nz c (d : D) : Inv c d -> LoopSign d -> WInv c d -> toC (dweight d) <> RtoC 0.
Proof.
  intros HI L [H1 H2 H3 _ H5]. rewrite H3. destruct (Z.eqb_spec (order d) 0); [now apply RtoC_nz, H5|].
  apply Cmult_nz; [now apply RtoC_nz, sg_nz|]. apply Cmult_nz; apply pr_nz; intros x Hx; apply liveL_in in Hx; auto; apply HI.
Qed.
Lemma phase_mul (a b : cR) : toC a <> RtoC 0 -> toC b <> RtoC 0 -> cmul (phase a) (phase b) = phase (cmul a b).
Proof.
  intros Ha Hb. apply toC_inj. rewrite toC_cmul. rewrite !phase_nz; auto; [|rewrite toC_cmul; now apply Cmult_nz].
  rewrite toC_cmul, Cmod_mult. rewrite RtoC_mult. field.
  split; apply RtoC_nz; intros E; apply Cmod_eq_0 in E; auto.
Qed.

(** the common shape of an accepted update *)
Lemma w_step {A : Prop} c (d d' : D) kG kG' rG kW kW' rW (s : R) wr :
  Inv c d -> Inv c d' -> LoopSign d -> WInv c d ->
  order d <> 0 -> order d' <> 0 ->
  Permutation (liveL (gB d)) (kG ++ rG) -> Permutation (liveL (gB d')) (kG' ++ rG) -> (forall x, In x rG -> g_W d' x = g_W d x) ->
  Permutation (liveL (wB d)) (kW ++ rW) -> Permutation (liveL (wB d')) (kW' ++ rW) -> (forall x, In x rW -> w_W d' x = w_W d x) ->
  sg d' = (sg d * s)%R ->
  dweight d' = cmul (dweight d) wr -> dphase d' = cmul (dphase d) (phase wr) ->
  (A -> toC wr <> RtoC 0) ->
  Cmult (toC wr) (Cmult (pr (g_W d) kG) (pr (w_W d) kW)) = Cmult (RtoC s) (Cmult (pr (g_W d') kG') (pr (w_W d') kW')) ->
  dwp c d' /\ (A -> WInv c d').
Proof.
  intros HI HI' LS HW O O' PG PG' EG PW PW' EW ES EDW EDP Nwr EQ.
  pose proof (dw_nz c d HI LS HW) as NZ. destruct HW as [H1 H2 H3 H4 H5].
  assert (N1 : pr (g_W d) kG <> RtoC 0).
  { apply pr_nz. intros x Hx. apply H1. apply liveL_in; [apply HI|]. apply (Permutation_in _ (Permutation_sym PG)), in_or_app. now left. }
  assert (N2 : pr (w_W d) kW <> RtoC 0).
  { apply pr_nz. intros x Hx. apply H2. apply liveL_in; [apply HI|]. apply (Permutation_in _ (Permutation_sym PW)), in_or_app. now left. }
  assert (SP : sprod d' = Cmult (sprod d) (toC wr)).
  { unfold sprod. rewrite (pr_perm _ _ _ PG), (pr_perm _ _ _ PG'), (pr_perm _ _ _ PW), (pr_perm _ _ _ PW'), !pr_app.
    rewrite (pr_ext (g_W d) (g_W d') rG EG), (pr_ext (w_W d) (w_W d') rW EW), ES, RtoC_mult.
    transitivity (Cmult (RtoC (sg d)) (Cmult (Cmult (RtoC s) (Cmult (pr (g_W d') kG') (pr (w_W d') kW'))) (Cmult (pr (g_W d) rG) (pr (w_W d) rW)))); [ring|].
    rewrite <- EQ. ring. }
  assert (DP : dwp c d').
  { unfold dwp. destruct (Z.eqb_spec (order d') 0) as [E|_]; [contradiction|].
    destruct (Z.eqb_spec (order d) 0) as [E|_]; [contradiction|]. rewrite EDW, toC_cmul, H3, SP. reflexivity. }
  split; [exact DP|]. intros HA. specialize (Nwr HA).
  assert (N3 : Cmult (RtoC s) (Cmult (pr (g_W d') kG') (pr (w_W d') kW')) <> RtoC 0).
  { rewrite <- EQ. apply Cmult_nz; auto. now apply Cmult_nz. }
  assert (N4 : pr (g_W d') kG' <> RtoC 0) by (intros E; apply N3; rewrite E; ring).
  assert (N5 : pr (w_W d') kW' <> RtoC 0) by (intros E; apply N3; rewrite E; ring).
  constructor.
  - intros g L. apply (liveL_in _ _ (i_bg _ _ HI')) in L. apply (Permutation_in _ PG'), in_app_or in L as [L|L].
    + now apply (proj1 (pr_nz _ _) N4).
    + rewrite EG by auto. apply H1. apply liveL_in; [apply HI|]. apply (Permutation_in _ (Permutation_sym PG)), in_or_app. now right.
  - intros g L. apply (liveL_in _ _ (i_bw _ _ HI')) in L. apply (Permutation_in _ PW'), in_app_or in L as [L|L].
    + now apply (proj1 (pr_nz _ _) N5).
    + rewrite EW by auto. apply H2. apply liveL_in; [apply HI|]. apply (Permutation_in _ (Permutation_sym PW)), in_or_app. now right.
  - exact DP.
  - rewrite EDP, EDW, H4. now apply phase_mul.
  - intros E. contradiction.
Qed.
(** same set of lines *)
Lemma w_step0 {A : Prop} c (d d' : D) kG kW (s : R) wr :
  Inv c d -> Inv c d' -> LoopSign d -> WInv c d ->
  order d <> 0 -> order d' <> 0 -> gB d' = gB d -> wB d' = wB d ->
  NoDup kG -> (forall x, In x kG -> live (gB d) x) -> (forall x, ~ In x kG -> live (gB d) x -> g_W d' x = g_W d x) ->
  NoDup kW -> (forall x, In x kW -> live (wB d) x) -> (forall x, ~ In x kW -> live (wB d) x -> w_W d' x = w_W d x) ->
  sg d' = (sg d * s)%R ->
  dweight d' = cmul (dweight d) wr -> dphase d' = cmul (dphase d) (phase wr) ->
  (A -> toC wr <> RtoC 0) ->
  Cmult (toC wr) (Cmult (pr (g_W d) kG) (pr (w_W d) kW)) = Cmult (RtoC s) (Cmult (pr (g_W d') kG) (pr (w_W d') kW)) ->
  dwp c d' /\ (A -> WInv c d').
Proof.
  intros HI HI' LS HW O O' BG BW NG LG EG NW LW EW ES EDW EDP Nwr EQ.
  pose proof (i_bg _ _ HI) as Bg. pose proof (i_bw _ _ HI) as Bw.
  eapply (w_step c d d' kG kG (rest kG (liveL (gB d))) kW kW (rest kW (liveL (wB d))) s wr); auto.
  - apply split_perm; auto; [now apply liveL_nodup|]. intros x Hx. apply liveL_in; auto.
  - rewrite BG. apply split_perm; auto; [now apply liveL_nodup|]. intros x Hx. apply liveL_in; auto.
  - intros x Hx. apply rest_in in Hx as [Q1 Q2]. apply EG; auto. now apply liveL_in in Q1.
  - apply split_perm; auto; [now apply liveL_nodup|]. intros x Hx. apply liveL_in; auto.
  - rewrite BW. apply split_perm; auto; [now apply liveL_nodup|]. intros x Hx. apply liveL_in; auto.
  - intros x Hx. apply rest_in in Hx as [Q1 Q2]. apply EW; auto. now apply liveL_in in Q1.
Qed.

(** ** Acceptance means a positive threshold *)
Lemma acc_pos (p : R) : @accepts NumR p -> (0 < p)%R.
Proof.
  intros [H|(x & Hx & H)].
  - change (Rleb 1 p = true) in H. apply Rleb_spec in H. lra.
  - change (Rltb (@urn_of NumR x) p = true) in H. apply Rltb_spec in H. pose proof (urn_R_range x). lra.
Qed.
Lemma acc_nz (wr : cR) (p : R) : @accepts NumR p -> (@cmod NumR wr = 0%R -> p = 0%R) -> toC wr <> RtoC 0.
Proof.
  intros A E H. apply acc_pos in A. rewrite cmod_Cmod, H, Cmod_0 in E. specialize (E eq_refl). lra.
Qed.
Lemma rmul0 (a b : R) : a = 0%R -> @rmul NumR a b = 0%R.
Proof. intros ->. cbn. ring. Qed.
Lemma rdiv0 (a b : R) : a = 0%R -> @rdiv NumR a b = 0%R.
Proof. intros ->. cbn. unfold Rdiv. ring. Qed.
Lemma toC_div a b : toC b <> RtoC 0 -> Cmult (toC (cdiv a b)) (toC b) = toC a.
Proof. intros H. rewrite toC_cdiv by auto. field. exact H. Qed.
Lemma toC_neg a : toC (@rmul_c NumR (-1)%R a) = Cmult (RtoC (-1)) (toC a).
Proof. now rewrite rmul_c_eq, toC_cmul, toC_cofr. Qed.
Lemma pr1 f x : pr f [x] = toC (f x).
Proof. unfold pr. cbn [fold_right]. ring. Qed.
Lemma pr2 f x y : pr f [x; y] = Cmult (toC (f x)) (toC (f y)).
Proof. unfold pr. cbn [fold_right]. ring. Qed.
Lemma pr0 f : pr f [] = RtoC 1.
Proof. reflexivity. Qed.

Lemma Cmult_eq_reg_r r r1 r2 : r <> RtoC 0 -> Cmult r1 r = Cmult r2 r -> r1 = r2.
Proof. intros H E. rewrite <- (Cmult_1_r r1), <- (Cmult_1_r r2), <- (Cinv_r r) by auto. rewrite !Cmult_assoc. now rewrite E. Qed.

Section Step.
Context (c : cfgR) (C : cfg_ok c).

Ltac accnz := intros A; match goal with A : accepts _ |- _ => refine (acc_nz _ _ A _); intros CM; repeat first [exact CM | apply rmul0 | apply rdiv0] end.
Ltac sg1 := match goal with |- sg ?d' = (sg ?d * 1)%R => change (sg d' = (sg d * 1)%R) with (sg d = (sg d * 1)%R); ring end.

Lemma create_w d p d' r : Inv c d -> LoopSign d -> WInv c d -> create_rel c d p d' r -> dwp c d' /\ (accepts p -> WInv c d').
Proof.
  intros HI LS HW H. pose proof (create_pres c d p d' r C HI H) as HI'. destruct H as [w vi vo kM kW ds wW Ho Hex Lw].
  pose proof (wi_w _ _ HW w Lw) as N1.
  apply (w_step0 c d _ [] [w] 1%R (cdiv wW (w_W d w)) HI HI' LS HW Ho Ho eq_refl eq_refl); try reflexivity.
  - constructor.
  - intros x [].
  - repeat constructor; auto.
  - intros x [<-|[]]; auto.
  - intros x Hx _. change (upd (w_W d) w wW x = w_W d x). apply upd_other. intros ->. apply Hx. now left.
  - sg1.
  - accnz.
  - rewrite !pr0, !pr1. change (w_W (create_post w vi vo ds kM kW wW d)) with (upd (w_W d) w wW). rewrite upd_same.
    rewrite !Cmult_1_l. now apply toC_div.
Qed.

Lemma delete_w d p d' r : Inv c d -> LoopSign d -> WInv c d -> delete_rel c d p d' r -> dwp c d' /\ (accepts p -> WInv c d').
Proof.
  intros HI LS HW H. pose proof (delete_pres c d p d' r C HI H) as HI'. destruct H as [w k wW Ho Hex Ew].
  assert (Lw : live (wB d) w) by (rewrite Ew; eauto with inv).
  pose proof (wi_w _ _ HW w Lw) as N1.
  apply (w_step0 c d _ [] [w] 1%R (cdiv wW (w_W d w)) HI HI' LS HW Ho Ho eq_refl eq_refl); try reflexivity.
  - constructor.
  - intros x [].
  - repeat constructor; auto.
  - intros x [<-|[]]; auto.
  - intros x Hx _. change (upd (w_W d) w wW x = w_W d x). apply upd_other. intros ->. apply Hx. now left.
  - sg1.
  - accnz.
  - rewrite !pr0, !pr1. change (w_W (delete_post w k wW d)) with (upd (w_W d) w wW). rewrite upd_same.
    rewrite !Cmult_1_l. now apply toC_div.
Qed.
Lemma moveW_w d p d' r : Inv c d -> LoopSign d -> WInv c d -> moveW_rel c d p d' r -> dwp c d' /\ (accepts p -> WInv c d').
Proof.
  intros HI LS HW H. pose proof (moveW_pres c d p d' r C HI H) as HI'. destruct H as [v1 w v2 k wW Ho Hex E1 Ew].
  assert (Lw : live (wB d) w) by (rewrite Ew, E1; eauto with inv).
  pose proof (wi_w _ _ HW w Lw) as N1.
  apply (w_step0 c d _ [] [w] 1%R (cdiv wW (w_W d w)) HI HI' LS HW Ho Ho eq_refl eq_refl); try reflexivity.
  - constructor.
  - intros x [].
  - repeat constructor; auto.
  - intros x [<-|[]]; auto.
  - intros x Hx _. change (upd (w_W d) w wW x = w_W d x). apply upd_other. intros ->. apply Hx. now left.
  - sg1.
  - accnz.
  - rewrite !pr0, !pr1. change (w_W (moveW_post w v2 k wW d)) with (upd (w_W d) w wW). rewrite upd_same.
    rewrite !Cmult_1_l. now apply toC_div.
Qed.
Lemma toWW_w d p d' r : Inv c d -> LoopSign d -> WInv c d -> toWW_rel c d p d' r -> dwp c d' /\ (accepts p -> WInv c d').
Proof.
  intros HI LS HW H. pose proof (toWW_pres c d p d' r C HI H) as HI'. destruct H as [w t rr ext wt Ho Hex Hga Hg3 Lw].
  pose proof (wi_w _ _ HW w Lw) as N1. destruct HI' as [HI' _].
  apply (w_step0 c d _ [] [w] 1%R (cdiv wt (w_W d w)) HI HI' LS HW Ho Ho eq_refl eq_refl); try reflexivity.
  - constructor.
  - intros x [].
  - repeat constructor; auto.
  - intros x [<-|[]]; auto.
  - intros x Hx _. change (upd (w_W d) w wt x = w_W d x). apply upd_other. intros ->. apply Hx. now left.
  - sg1.
  - accnz.
  - rewrite !pr0, !pr1. change (w_W (toWW_post w ext wt d)) with (upd (w_W d) w wt). rewrite upd_same.
    rewrite !Cmult_1_l. now apply toC_div.
Qed.
Lemma fromWW_w d p d' r : Inv c d -> LoopSign d -> WInv c d -> fromWW_rel c d p d' r -> dwp c d' /\ (accepts p -> WInv c d').
Proof.
  intros HI LS HW H. pose proof (fromWW_pres c d p d' r C HI H) as HI'. destruct H as [w wt Ho Hex Hga Lw].
  pose proof (wi_w _ _ HW w Lw) as N1.
  apply (w_step0 c d _ [] [w] 1%R (cdiv wt (w_W d w)) HI HI' LS HW Ho Ho eq_refl eq_refl); try reflexivity.
  - constructor.
  - intros x [].
  - repeat constructor; auto.
  - intros x [<-|[]]; auto.
  - intros x Hx _. change (upd (w_W d) w wt x = w_W d x). apply upd_other. intros ->. apply Hx. now left.
  - sg1.
  - accnz.
  - rewrite !pr0, !pr1. change (w_W (fromWW_post w wt d)) with (upd (w_W d) w wt). rewrite upd_same.
    rewrite !Cmult_1_l. now apply toC_div.
Qed.
Lemma toGG_w d p d' r : Inv c d -> LoopSign d -> WInv c d -> toGG_rel c d p d' r -> dwp c d' /\ (accepts p -> WInv c d').
Proof.
  intros HI LS HW H. pose proof (toGG_pres c d p d' r C HI H) as HI'. destruct H as [g t ext wt Ho Hex Hga Hg3 Lg].
  pose proof (wi_g _ _ HW g Lg) as N1. destruct HI' as [HI' _].
  apply (w_step0 c d _ [g] [] 1%R (cdiv wt (g_W d g)) HI HI' LS HW Ho Ho eq_refl eq_refl); try reflexivity.
  - repeat constructor; auto.
  - intros x [<-|[]]; auto.
  - intros x Hx _. change (upd (g_W d) g wt x = g_W d x). apply upd_other. intros ->. apply Hx. now left.
  - constructor.
  - intros x [].
  - sg1.
  - accnz.
  - rewrite !pr0, !pr1. change (g_W (toGG_post g ext wt d)) with (upd (g_W d) g wt). rewrite upd_same.
    rewrite Cmult_1_l, !Cmult_1_r. now apply toC_div.
Qed.
Lemma fromGG_w d p d' r : Inv c d -> LoopSign d -> WInv c d -> fromGG_rel c d p d' r -> dwp c d' /\ (accepts p -> WInv c d').
Proof.
  intros HI LS HW H. pose proof (fromGG_pres c d p d' r C HI H) as HI'. destruct H as [g wt Ho Hex Hga Lg].
  pose proof (wi_g _ _ HW g Lg) as N1.
  apply (w_step0 c d _ [g] [] 1%R (cdiv wt (g_W d g)) HI HI' LS HW Ho Ho eq_refl eq_refl); try reflexivity.
  - repeat constructor; auto.
  - intros x [<-|[]]; auto.
  - intros x Hx _. change (upd (g_W d) g wt x = g_W d x). apply upd_other. intros ->. apply Hx. now left.
  - constructor.
  - intros x [].
  - sg1.
  - accnz.
  - rewrite !pr0, !pr1. change (g_W (fromGG_post g wt d)) with (upd (g_W d) g wt). rewrite upd_same.
    rewrite Cmult_1_l, !Cmult_1_r. now apply toC_div.
Qed.

Lemma moveG_w d p d' r : Inv c d -> LoopSign d -> WInv c d -> moveG_rel c d p d' r -> dwp c d' /\ (accepts p -> WInv c d').
Proof.
  intros HI LS HW H. pose proof (moveG_pres c d p d' r C HI H) as HI'.
  destruct H as [dr g v1 v2 k w1 vW1 w2 vW2 iw1 s1 s2 w1W w2W gW Ho Hex Ev1 Eg Ev2 N21 N2m Hcan Ek Hk
                 Ew1 EvW1 Ew2 EvW2 Eiw Es1 Es2 Hw1 Hw2 HgW].
  destruct (f_wo HI Hex) as (Li & Lm & Nim & Dm & _ & Hds & RK & Hwo).
  rewrite <- Ev1 in *.
  assert (Lg : live (gB d) g) by (subst g; eauto with inv).
  assert (Lv2 : live (vB d) v2) by (subst v2; eauto with inv).
  destruct (f_two c d HI v1 w1 vW1 Li Ew1 EvW1) as (Lw1 & LvW1 & NW1 & WW1 & DW1 & Hends1 & Wv1 & WvW1).
  destruct (f_two c d HI v2 w2 vW2 Lv2 Ew2 EvW2) as (Lw2 & LvW2 & NW2 & WW2 & DW2 & Hends2 & Wv2 & WvW2).
  pose proof (wi_w _ _ HW w1 Lw1) as N1. pose proof (wi_w _ _ HW w2 Lw2) as N2. pose proof (wi_g _ _ HW g Lg) as Ng.
  set (wr := cdiv (cmul (cmul w1W w2W) gW) (cmul (cmul (g_W d g) (w_W d w1)) (w_W d w2))) in *.
  match goal with |- _ /\ (?A -> _) => assert (Nwr : A -> toC wr <> RtoC 0) by (unfold wr; accnz) end.
  assert (ND : toC (cmul (cmul (g_W d g) (w_W d w1)) (w_W d w2)) <> RtoC 0) by (rewrite !toC_cmul; repeat apply Cmult_nz; auto).
  assert (EW : Cmult (toC wr) (Cmult (Cmult (toC (g_W d g)) (toC (w_W d w1))) (toC (w_W d w2))) = Cmult (Cmult (toC w1W) (toC w2W)) (toC gW)).
  { rewrite <- !toC_cmul. unfold wr. now rewrite toC_cmul, toC_div. }
  destruct (Nat.eq_dec w1 w2) as [Ew|Nw].
  - assert (Q1 : w1W = w_W d w1 /\ w2W = w_W d w1).
    { assert (E1 : vW1 = v2) by (destruct (Hends1 v2 Lv2) as [Q|Q]; congruence).
      assert (E2 : vW2 = v1) by (destruct (Hends2 v1 Li) as [Q|Q]; congruence).
      assert (T1 : iw1 = true) by (rewrite Eiw, E1, Nat.eqb_refl; reflexivity).
      assert (T2 : w_worm d w1 = true) by (apply Hwo; auto).
      pose proof (i_sW _ _ HI w1 Lw1) as SW.
      rewrite WWeightDir_eq in Hw1 by eauto with inv. rewrite WWeightDir_eq in Hw2 by eauto with inv.
      rewrite T1 in Hw1. rewrite T2 in SW. rewrite <- Ew in *. unfold WWeight in *.
      rewrite E1, E2 in *.
      destruct (v_D d v1) eqn:D1; cbn [inv] in *; rewrite DW1 in Hw2; cbn [inv] in *.
      - rewrite Wv1, WvW1 in SW. split; congruence.
      - rewrite Wv1, WvW1 in SW. split; congruence. }
    destruct Q1 as [-> ->].
    apply (w_step0 c d _ [g] [w1] 1%R wr HI HI' LS HW Ho Ho eq_refl eq_refl); try reflexivity.
    + repeat constructor; auto.
    + intros x [<-|[]]; auto.
    + intros x Hx _. change (upd (g_W d) g gW x = g_W d x). apply upd_other. intros ->. apply Hx. now left.
    + repeat constructor; auto.
    + intros x [<-|[]]; auto.
    + intros x Hx _. change (upd (upd (w_W d) w1 (w_W d w1)) w2 (w_W d w1) x = w_W d x). rewrite !upd_other; auto; intros ->; apply Hx; now left.
    + sg1.
    + exact Nwr.
    + rewrite !pr1. match goal with |- context[g_W (moveG_post ?a1 ?a2 ?a3 ?a4 ?a5 ?a6 ?a7 ?a8 ?a9 ?b1 ?b2 ?b3 d)] =>
        change (g_W (moveG_post a1 a2 a3 a4 a5 a6 a7 a8 a9 b1 b2 b3 d)) with (upd (g_W d) g gW);
        change (w_W (moveG_post a1 a2 a3 a4 a5 a6 a7 a8 a9 b1 b2 b3 d)) with (upd (upd (w_W d) w1 (w_W d w1)) w2 (w_W d w1)) end.
      rewrite <- Ew in *. rewrite !upd_same.
      apply (Cmult_eq_reg_r (toC (w_W d w1)) _ _ N1).
      transitivity (toC wr * (toC (g_W d g) * toC (w_W d w1) * toC (w_W d w1)))%C; [ring|]. rewrite EW. ring.
  - apply (w_step0 c d _ [g] [w1; w2] 1%R wr HI HI' LS HW Ho Ho eq_refl eq_refl); try reflexivity.
    + repeat constructor; auto.
    + intros x [<-|[]]; auto.
    + intros x Hx _. change (upd (g_W d) g gW x = g_W d x). apply upd_other. intros ->. apply Hx. now left.
    + constructor; [|repeat constructor; auto]. intros [E|[]]; auto.
    + intros x [<-|[<-|[]]]; auto.
    + intros x Hx _. change (upd (upd (w_W d) w1 w1W) w2 w2W x = w_W d x). rewrite !upd_other; auto; intros ->; apply Hx; [now left|right; now left].
    + sg1.
    + exact Nwr.
    + rewrite !pr1, !pr2. match goal with |- context[g_W (moveG_post ?a1 ?a2 ?a3 ?a4 ?a5 ?a6 ?a7 ?a8 ?a9 ?b1 ?b2 ?b3 d)] =>
        change (g_W (moveG_post a1 a2 a3 a4 a5 a6 a7 a8 a9 b1 b2 b3 d)) with (upd (g_W d) g gW);
        change (w_W (moveG_post a1 a2 a3 a4 a5 a6 a7 a8 a9 b1 b2 b3 d)) with (upd (upd (w_W d) w1 w1W) w2 w2W) end.
      rewrite !upd_same, upd_other, upd_same by auto.
      transitivity (toC wr * (toC (g_W d g) * toC (w_W d w1) * toC (w_W d w2)))%C; [ring|]. rewrite EW. ring.
Qed.

Lemma upd2v {A} (f : nat -> A) a b x y : a <> b -> upd (upd f a x) b y a = x /\ upd (upd f a x) b y b = y.
Proof. intros H. now rewrite upd_same, upd_other, upd_same by auto. Qed.
Lemma reconnect_w d p d' r : Inv c d -> LoopSign d -> WInv c d -> reconnect_rel c d p d' r -> dwp c d' /\ (accepts p -> WInv c d').
Proof.
  intros HI LS HW H. pose proof (reconnect_pres c d p d' r C HI H) as HI'.
  destruct H as [I Ma dr GIA GMB k vA vB' gi gm Ho Hex EI EMa ER EGIA EGMB ES Ek EvA EvB Hgi Hgm].
  destruct (f_wo HI Hex) as (Li & Lm & Nim & _). rewrite <- EI, <- EMa in *.
  assert (NG : GIA <> GMB) by (intros E; apply Nim; apply (f_vg_inj HI I Ma dr); auto; congruence).
  assert (L1 : live (gB d) GIA) by (subst GIA; eauto with inv). assert (L2 : live (gB d) GMB) by (subst GMB; eauto with inv).
  pose proof (wi_g _ _ HW _ L1) as N1. pose proof (wi_g _ _ HW _ L2) as N2.
  set (wr := cdiv (cmul (rmul_c (rofZ (-1)) gi) gm) (cmul (g_W d GIA) (g_W d GMB))) in *.
  apply (w_step0 c d _ [GIA; GMB] [] (-1)%R wr HI HI' LS HW Ho Ho eq_refl eq_refl); try reflexivity.
  - constructor; [|repeat constructor; auto]. intros [E|[]]; auto.
  - intros x [<-|[<-|[]]]; auto.
  - intros x Hx _. change (upd (upd (g_W d) GIA gi) GMB gm x = g_W d x). rewrite !upd_other; auto; intros ->; apply Hx; [now left|right; now left].
  - constructor.
  - intros x [].
  - change (sfl d * (-1) * sgo (order d) = sfl d * sgo (order d) * (-1))%R. ring.
  - unfold wr in *. accnz.
  - rewrite !pr0, !pr2. change (g_W (reconnect_post I Ma dr GIA GMB k gi gm d)) with (upd (upd (g_W d) GIA gi) GMB gm).
    destruct (upd2v (g_W d) GIA GMB gi gm NG) as [-> ->]. rewrite !Cmult_1_r, <- toC_cmul. unfold wr.
    rewrite toC_div by (rewrite toC_cmul; now apply Cmult_nz). rewrite !toC_cmul. change (@rofZ NumR (-1)) with (-1)%R. rewrite toC_neg. ring.
Qed.
Ltac wring wr := let E := fresh in
  match goal with wr := cdiv ?n ?m |- _ => assert (E : Cmult (toC wr) (toC m) = toC n) by (unfold wr; apply toC_div; rewrite ?toC_cmul; repeat apply Cmult_nz; auto) end;
  change (@rofZ NumR (-1)) with (-1)%R in E; rewrite ?toC_cmul, ?toC_neg in E; match type of E with ?l = ?r => transitivity l; [ring|rewrite E; ring] end.
Lemma tau_w d p d' r : Inv c d -> LoopSign d -> WInv c d -> tau_rel c d p d' r -> dwp c d' /\ (accepts p -> WInv c d').
Proof.
  intros HI LS HW H. pose proof (tau_pres c d p d' r C HI H) as HI'.
  destruct H as [v w gi go vi vo vW t giW goW wW Ho Hex Lv Ew Hde Ht Egi Ego NG].
  assert (L1 : live (gB d) gi) by (subst gi; eauto with inv). assert (L2 : live (gB d) go) by (subst go; eauto with inv).
  assert (Lw : live (wB d) w) by (subst w; eauto with inv).
  pose proof (wi_g _ _ HW _ L1) as N1. pose proof (wi_g _ _ HW _ L2) as N2. pose proof (wi_w _ _ HW _ Lw) as N3.
  set (wr := cdiv (cmul (cmul giW goW) wW) (cmul (cmul (g_W d gi) (g_W d go)) (w_W d w))) in *.
  apply (w_step0 c d _ [gi; go] [w] 1%R wr HI HI' LS HW Ho Ho eq_refl eq_refl); try reflexivity.
  - constructor; [|repeat constructor; auto]. intros [E|[]]; auto.
  - intros x [<-|[<-|[]]]; auto.
  - intros x Hx _. change (upd (upd (g_W d) gi giW) go goW x = g_W d x). rewrite !upd_other; auto; intros ->; apply Hx; [now left|right; now left].
  - repeat constructor; auto.
  - intros x [<-|[]]; auto.
  - intros x Hx _. change (upd (w_W d) w wW x = w_W d x). rewrite !upd_other; auto; intros ->; apply Hx; now left.
  - sg1.
  - unfold wr in *. accnz.
  - rewrite !pr1, !pr2. change (g_W (tau_post v gi go w t giW goW wW d)) with (upd (upd (g_W d) gi giW) go goW).
    change (w_W (tau_post v gi go w t giW goW wW d)) with (upd (w_W d) w wW).
    destruct (upd2v (g_W d) gi go giW goW NG) as [-> ->]. rewrite upd_same. wring wr.
Qed.
Lemma delta_w td d p d' r : Inv c d -> LoopSign d -> WInv c d -> delta_rel td c d p d' r -> dwp c d' /\ (accepts p -> WInv c d').
Proof.
  intros HI LS HW H. pose proof (delta_pres td c d p d' r C HI H) as HI'.
  destruct H as [w vi vo G1 G2 v1 v2 t wW W1 W2 Ho2 Hex Lw Hde Hme Hww Evi Evo EG1 EG2 NG].
  assert (Ho : order d <> 0) by lia.
  assert (Lv : live (vB d) vo) by (subst vo; eauto with inv).
  assert (L1 : live (gB d) G1) by (subst G1; eauto with inv). assert (L2 : live (gB d) G2) by (subst G2; eauto with inv).
  pose proof (wi_g _ _ HW _ L1) as N1. pose proof (wi_g _ _ HW _ L2) as N2. pose proof (wi_w _ _ HW _ Lw) as N3.
  set (wr := cdiv (cmul (cmul W1 W2) wW) (cmul (cmul (g_W d G1) (g_W d G2)) (w_W d w))) in *.
  apply (w_step0 c d _ [G1; G2] [w] 1%R wr HI HI' LS HW Ho Ho eq_refl eq_refl); try reflexivity.
  - constructor; [|repeat constructor; auto]. intros [E|[]]; auto.
  - intros x [<-|[<-|[]]]; auto.
  - intros x Hx _. change (upd (upd (g_W d) G1 W1) G2 W2 x = g_W d x). rewrite !upd_other; auto; intros ->; apply Hx; [now left|right; now left].
  - repeat constructor; auto.
  - intros x [<-|[]]; auto.
  - intros x Hx _. change (upd (w_W d) w wW x = w_W d x). rewrite !upd_other; auto; intros ->; apply Hx; now left.
  - sg1.
  - unfold wr in *. accnz.
  - rewrite !pr1, !pr2. change (g_W (delta_post td vo w G1 G2 t wW W1 W2 d)) with (upd (upd (g_W d) G1 W1) G2 W2).
    change (w_W (delta_post td vo w G1 G2 t wW W1 W2 d)) with (upd (w_W d) w wW).
    destruct (upd2v (g_W d) G1 G2 W1 W2 NG) as [-> ->]. rewrite upd_same. wring wr.
Qed.
Lemma g2w_w d p d' r : Inv c d -> LoopSign d -> WInv c d -> g2w_rel c d p d' r -> dwp c d' /\ (accepts p -> WInv c d').
Proof.
  intros HI LS HW H. pose proof (g2w_pres c d p d' r C HI H) as HI'.
  destruct H as [g w gW wW Ho Hex HmG Hga Lw Hde Eg].
  assert (Lg : live (gB d) g) by (subst g; now apply (f_measG c d HI)).
  pose proof (wi_g _ _ HW _ Lg) as N1. pose proof (wi_w _ _ HW _ Lw) as N3.
  set (wr := cdiv (cmul gW wW) (cmul (g_W d g) (w_W d w))) in *.
  apply (w_step0 c d _ [g] [w] 1%R wr HI HI' LS HW Ho Ho eq_refl eq_refl); try reflexivity.
  - repeat constructor; auto.
  - intros x [<-|[]]; auto.
  - intros x Hx _. change (upd (g_W d) g gW x = g_W d x). rewrite !upd_other; auto; intros ->; apply Hx; now left.
  - repeat constructor; auto.
  - intros x [<-|[]]; auto.
  - intros x Hx _. change (upd (w_W d) w wW x = w_W d x). rewrite !upd_other; auto; intros ->; apply Hx; now left.
  - sg1.
  - unfold wr in *. accnz.
  - rewrite !pr1. change (g_W (g2w_post g w gW wW d)) with (upd (g_W d) g gW).
    change (w_W (g2w_post g w gW wW d)) with (upd (w_W d) w wW).
    rewrite !upd_same. wring wr.
Qed.
Lemma w2g_w d p d' r : Inv c d -> LoopSign d -> WInv c d -> w2g_rel c d p d' r -> dwp c d' /\ (accepts p -> WInv c d').
Proof.
  intros HI LS HW H. pose proof (w2g_pres c d p d' r C HI H) as HI'.
  destruct H as [g w gW wW Ho Hex HmG Hga Lg Hde Ew].
  assert (Lw : live (wB d) w) by (subst w; now apply (f_measW c d HI)).
  pose proof (wi_g _ _ HW _ Lg) as N1. pose proof (wi_w _ _ HW _ Lw) as N3.
  set (wr := cdiv (cmul gW wW) (cmul (g_W d g) (w_W d w))) in *.
  apply (w_step0 c d _ [g] [w] 1%R wr HI HI' LS HW Ho Ho eq_refl eq_refl); try reflexivity.
  - repeat constructor; auto.
  - intros x [<-|[]]; auto.
  - intros x Hx _. change (upd (g_W d) g gW x = g_W d x). rewrite !upd_other; auto; intros ->; apply Hx; now left.
  - repeat constructor; auto.
  - intros x [<-|[]]; auto.
  - intros x Hx _. change (upd (w_W d) w wW x = w_W d x). rewrite !upd_other; auto; intros ->; apply Hx; now left.
  - sg1.
  - unfold wr in *. accnz.
  - rewrite !pr1. change (g_W (w2g_post g w gW wW d)) with (upd (g_W d) g gW).
    change (w_W (w2g_post g w gW wW d)) with (upd (w_W d) w wW).
    rewrite !upd_same. wring wr.
Qed.

Lemma perm_add2 b b' a1 a2 : BInv b -> BInv b' -> a1 <> a2 -> ~ live b a1 -> ~ live b a2 ->
  (forall x, live b' x <-> live b x \/ x = a1 \/ x = a2) -> Permutation (liveL b') (a1 :: a2 :: liveL b).
Proof.
  intros B B' N N1 N2 H. apply NoDup_Permutation; [now apply liveL_nodup| |].
  - constructor; [|constructor; [|now apply liveL_nodup]]; rewrite <- ?liveL_in by auto; cbn [In]; rewrite ?liveL_in by auto; intuition.
  - intros x. cbn [In]. rewrite !liveL_in by auto. rewrite H. intuition.
Qed.
Lemma add_w de d p d' r : Inv c d -> LoopSign d -> WInv c d -> add_rel de c d p d' r -> dwp c d' /\ (accepts p -> WInv c d').
Proof.
  intros HI LS HW H. pose proof (add_pres de c d p d' r C HI H) as HI'.
  destruct H as [I Ma dr dw GIC GMD kW kIA kMB kM vC vD tA tB sA sB wW gIA gMB gAC gBD o1 o0
    vA vB' GIA GMB WAB bv1 bv bg1 bg bw Hex Ho Hoc EI EMa RkW NkW HkW EGIC EGMD EkIA EkMB EkM HkIA HkMB NkAB
    HtA HtB Htd EsA EsB EvC EvD HwW HgIA HgMB HgAC HgBD _ _ Bv1 Bv Bg1 Bg Bw].
  destruct (f_wo HI Hex) as (Li & Lm & Nim & _).
  destruct (f_cnt c d HI Ho) as (Ao & Ag & Av & Hoo). pose proof (co_order c C) as Hco.
  destruct (badd2_spec _ _ _ _ _ (i_bg _ _ HI) ltac:(lia) Bg1 Bg) as (BG & AG & NgAB & NgA & NgB & LG).
  destruct (badd1_spec _ _ _ (i_bw _ _ HI) ltac:(lia) Bw) as (BW & AW & NwA & LW).
  rewrite <- EI, <- EMa in *.
  assert (LGIC : live (gB d) GIC) by (subst GIC; eauto with inv).
  assert (LGMD : live (gB d) GMD) by (subst GMD; eauto with inv).
  assert (NGCD : GIC <> GMD) by (intros E; apply Nim; apply (f_vg_inj HI I Ma dr); auto; congruence).
  assert (Ngx : forall x, live (gB d) x -> x <> GIA /\ x <> GMB) by (intros x Lx; split; intros ->; auto).
  destruct (Ngx _ LGIC) as [X1 X2]. destruct (Ngx _ LGMD) as [X3 X4].
  pose proof (wi_g _ _ HW _ LGIC) as N1. pose proof (wi_g _ _ HW _ LGMD) as N2.
  set (wr := cdiv (cmul (cmul (cmul (cmul (rmul_c (rofZ (-1)) gIA) gMB) wW) gAC) gBD) (cmul (g_W d GIC) (g_W d GMD))) in *.
  match goal with |- _ /\ (?A -> _) => assert (Nwr : A -> toC wr <> RtoC 0) by (unfold wr in *; destruct de; accnz) end.
  match goal with |- dwp c ?X /\ _ => set (d' := X) in * end.
  assert (EG : g_W d' = upd (upd (upd (upd (g_W d) GIA gIA) GMB gMB) GIC gAC) GMD gBD) by reflexivity.
  assert (EW : w_W d' = upd (w_W d) WAB wW) by reflexivity.
  assert (P0 : Permutation (liveL (gB d)) ([GIC; GMD] ++ rest [GIC; GMD] (liveL (gB d)))).
  { apply split_perm; [apply liveL_nodup, HI| |].
    - constructor; [|repeat constructor; auto]. intros [E|[]]; auto.
    - intros x Hx. apply liveL_in; [apply HI|]. destruct Hx as [<-|[<-|[]]]; auto. }
  apply (w_step c d d' [GIC; GMD] [GIA; GMB; GIC; GMD] (rest [GIC; GMD] (liveL (gB d))) [] [WAB] (liveL (wB d)) (-1)%R wr HI HI' LS HW Ho); auto.
  - change (order d + 1 <> 0). lia.
  - change (liveL (gB d')) with (liveL bg). rewrite (perm_add2 (gB d) bg GIA GMB (i_bg _ _ HI) BG NgAB NgA NgB LG).
    cbn [app]. do 2 apply perm_skip. exact P0.
  - intros x Hx. apply rest_in in Hx as [Q1 Q2]. rewrite liveL_in in Q1 by apply HI. rewrite EG.
    destruct (Ngx x Q1) as [Y1 Y2]. rewrite !upd_other; auto; intros ->; apply Q2; [now left|right; now left].
  - apply (liveL_perm_add (wB d) bw WAB (i_bw _ _ HI) BW LW NwA).
  - intros x Hx. rewrite liveL_in in Hx by apply HI. rewrite EW, upd_other; auto. intros ->. auto.
  - change (sfl d * sgo (order d + 1) = sfl d * sgo (order d) * -1)%R. rewrite sgo_1. ring.
  - rewrite EG, EW. rewrite pr1, upd_same, pr2, pr0.
    unfold pr. cbn [fold_right]. repeat (rewrite upd_same || rewrite upd_other by auto). wring wr.
Qed.
Lemma del_w de d p d' r : Inv c d -> LoopSign d -> WInv c d -> del_rel de c d p d' r -> dwp c d' /\ (accepts p -> WInv c d').
Proof.
  intros HI LS HW H. pose proof (del_pres de c d p d' r C HI H) as HI'.
  destruct H as [I Ma dr GIA GMB vA vB' wAB GAC GBD vC vD kM gIC gMD om o0 bv1 bv bg1 bg bw Hex Ho EI EMa EGIA EGMB
    MA GA MB GB EvA EvB SvA SvB EwA EwB Hme Hwo Hde Hww EGAC EGBD EvC EvD EkM HgIC HgMD _ _ Bv1 Bv Bg1 Bg Bw].
  destruct (f_wo HI Hex) as (Li & Lm & Nim & Dm & Ho0 & Hds & RK & HWo).
  rewrite <- EI, <- EMa in *.
  assert (LGIA : live (gB d) GIA) by (subst GIA; eauto with inv).
  assert (LGMB : live (gB d) GMB) by (subst GMB; eauto with inv).
  assert (LvA : live (vB d) vA) by (subst vA; eauto with inv).
  assert (LvB : live (vB d) vB') by (subst vB'; eauto with inv).
  assert (LGAC : live (gB d) GAC) by (subst GAC; eauto with inv).
  assert (LGBD : live (gB d) GBD) by (subst GBD; eauto with inv).
  assert (LwAB : live (wB d) wAB) by (rewrite EwA; eauto with inv).
  assert (NIw : v_W d I <> wAB /\ v_W d Ma <> wAB).
  { split; intros E; rewrite (proj2 (HWo wAB LwAB)) in Hwo; auto; discriminate. }
  destruct NIw as [NIw NMw].
  assert (NIA : I <> vA) by congruence. assert (NIB : I <> vB') by congruence.
  assert (NMA : Ma <> vA) by congruence. assert (NMB : Ma <> vB') by congruence.
  assert (NGAB : GIA <> GMB). { intros E. apply Nim. apply (f_vg_inj HI I Ma dr); auto. congruence. }
  assert (NvAB : vA <> vB'). { intros E. apply NGAB. apply (f_gv_inj HI GIA GMB dr); auto. congruence. }
  assert (NCD : GAC <> GBD). { intros E. apply NvAB. apply (f_vg_inj HI vA vB' dr); auto. congruence. }
  assert (X1 : GAC <> GIA). { intros E. apply NIA. symmetry. apply (f_vg_inj HI vA I dr); auto. congruence. }
  assert (X2 : GAC <> GMB). { intros E. apply NMA. symmetry. apply (f_vg_inj HI vA Ma dr); auto. congruence. }
  assert (X3 : GBD <> GIA). { intros E. apply NIB. symmetry. apply (f_vg_inj HI vB' I dr); auto. congruence. }
  assert (X4 : GBD <> GMB). { intros E. apply NMB. symmetry. apply (f_vg_inj HI vB' Ma dr); auto. congruence. }
  destruct (bremove2_spec _ _ _ _ _ (i_bg _ _ HI) LGIA LGMB NGAB Bg1 Bg) as (BG & AG & LG).
  destruct (bremove1_spec _ _ _ (i_bw _ _ HI) LwAB Bw) as (BW & AW & LW).
  pose proof (wi_g _ _ HW _ LGIA) as N1. pose proof (wi_g _ _ HW _ LGMB) as N2.
  pose proof (wi_g _ _ HW _ LGAC) as N3. pose proof (wi_g _ _ HW _ LGBD) as N4. pose proof (wi_w _ _ HW _ LwAB) as N5.
  set (wr := cdiv (cmul (rmul_c (rofZ (-1)) gIC) gMD)
             (cmul (cmul (cmul (cmul (g_W d GIA) (g_W d GMB)) (g_W d GAC)) (g_W d GBD)) (w_W d wAB))) in *.
  match goal with |- _ /\ (?A -> _) => assert (Nwr : A -> toC wr <> RtoC 0) by (unfold wr in *; destruct de; accnz) end.
  match goal with |- dwp c ?X /\ _ => set (d' := X) in * end.
  assert (EG : g_W d' = upd (upd (g_W d) GAC gIC) GBD gMD) by reflexivity.
  assert (EW : w_W d' = w_W d) by reflexivity.
  assert (P0 : Permutation (liveL bg) ([GAC; GBD] ++ rest [GAC; GBD] (liveL bg))).
  { apply split_perm; [now apply liveL_nodup| |].
    - constructor; [|repeat constructor; auto]. intros [E|[]]; auto.
    - intros x Hx. apply liveL_in; auto. apply LG. destruct Hx as [<-|[<-|[]]]; auto. }
  apply (w_step c d d' [GIA; GMB; GAC; GBD] [GAC; GBD] (rest [GAC; GBD] (liveL bg)) [wAB] [] (liveL bw) (-1)%R wr HI HI' LS HW); auto.
  - change (order d - 1 <> 0). lia.
  - rewrite (perm_add2 bg (gB d) GIA GMB BG (i_bg _ _ HI) NGAB).
    + cbn [app]. do 2 apply perm_skip. exact P0.
    + rewrite LG. tauto.
    + rewrite LG. tauto.
    + intros x. rewrite LG. destruct (Nat.eq_dec x GIA), (Nat.eq_dec x GMB); subst; tauto.
  - intros x Hx. apply rest_in in Hx as [Q1 Q2]. rewrite EG. rewrite !upd_other; auto; intros ->; apply Q2; [now left|right; now left].
  - apply (liveL_perm (wB d) bw wAB (i_bw _ _ HI) BW LW LwAB).
  - change (sfl d * sgo (order d - 1) = sfl d * sgo (order d) * -1)%R. rewrite sgo_m1. ring.
  - rewrite EG, EW. rewrite pr1, pr2, pr0.
    unfold pr. cbn [fold_right]. repeat (rewrite upd_same || rewrite upd_other by auto). wring wr.
Qed.
Lemma to0_w d p d' r : Inv c d -> LoopSign d -> WInv c d -> to0_rel c d p d' r -> dwp c d' /\ (accepts p -> WInv c d').
Proof.
  intros HI LS HW H. pose proof (dw_nz c d HI LS HW) as NZ. destruct H as [o0 o1 Ho Hex Hga E0 E1]. destruct HW as [H1 H2 H3 H4 H5].
  split; [exact (toC_cofr _)|]. intros HA.
  assert (HN : normF (c_tab c) <> 0%R).
  { intros E. assert (Q : toC (cdiv (cofr (normF (c_tab c))) (dweight d)) <> RtoC 0) by (revert HA; accnz).
    apply Q. rewrite toC_cdiv, toC_cofr, E by auto. unfold Cdiv. ring. }
  constructor; [exact H1|exact H2| | |intros _; exact HN].
  - change (toC (cofr (normF (c_tab c))) = RtoC (normF (c_tab c))). apply toC_cofr.
  - change (cmul (dphase d) (phase (cdiv (cofr (normF (c_tab c))) (dweight d))) = phase (cofr (normF (c_tab c)))).
    rewrite H4.
    assert (NC : toC (cofr (normF (c_tab c))) <> RtoC 0) by (rewrite toC_cofr; now apply RtoC_nz).
    assert (ND : toC (cdiv (cofr (normF (c_tab c))) (dweight d)) <> RtoC 0).
    { intros E. apply NC. rewrite <- (toC_div _ _ NZ), E. ring. }
    rewrite phase_mul by auto. f_equal. apply toC_inj. rewrite toC_cmul, Cmult_comm. now apply toC_div.
Qed.

(** a worm-free diagram with two vertices has one loop *)
Lemma to1_w d p d' r : Inv c d -> LoopSign d -> WInv c d -> to1_rel c d p d' r -> dwp c d' /\ (accepts p -> WInv c d').
Proof.
  intros HI LS HW H. pose proof (to1_pres c d p d' r C HI H) as HI'. pose proof (dw_nz c d HI LS HW) as NZ.
  destruct H as [V1 V2 G1 G2 W1 R t1 t2 a b g1 g2 wW o0 o1 Ho Hex Hga HR Ht1 Ht2 EV1 EV2 EG1 EG2 EW1 Hg1 Hg2 HwW E0 E1].
  destruct (i_cnt _ _ HI) as (AA & B & B' & D0 & D'). rewrite Ho in AA.
  assert (Aw : avail (wB d) = 1%nat) by lia. assert (Av : avail (vB d) = 2%nat) by lia.
  pose proof (i_bv _ _ HI) as BV. pose proof (i_bw _ _ HI) as BW. pose proof (i_bg _ _ HI) as BG.
  destruct (bat_spec (vB d) 0 BV) as [_ L1]; [lia|]. destruct (bat_spec (vB d) 1 BV) as [_ L2]; [lia|].
  rewrite <- EV1 in L1. rewrite <- EV2 in L2.
  assert (N12 : V1 <> V2). { intros X. rewrite EV1, EV2 in X. apply names_inj in X; auto; lia. }
  assert (Hv : forall x, live (vB d) x -> x = V1 \/ x = V2).
  { intros x [Hx Hn]. destruct (bi_nm _ BV x Hx) as [H1 H2]. rewrite Av in Hn.
    assert (nm (vB d) x = 0%nat \/ nm (vB d) x = 1%nat) as [E|E] by lia; rewrite E in H2; subst; auto. }
  assert (LW1 : live (wB d) W1) by (subst W1; eauto with inv).
  assert (Hw : forall x, live (wB d) x -> x = W1).
  { intros x [Hx Hn]. destruct LW1 as [Hx' Hn']. apply (nm_inj (wB d)); auto. lia. }
  assert (LG1 : live (gB d) G1) by (subst G1; eauto with inv).
  assert (LG2 : live (gB d) G2) by (subst G2; eauto with inv).
  assert (NT : forall x, live (vB d) x -> v_G d x IN <> v_G d x OUT).
  { intros x Lx. apply (f_notad HI); auto. rewrite Hex. discriminate. }
  assert (G1i : g_ver d G1 IN = V1) by (rewrite EG1; apply (f_vgv HI V1 OUT); auto).
  assert (G2i : g_ver d G2 IN = V2) by (rewrite EG2; apply (f_vgv HI V2 OUT); auto).
  assert (G1o : g_ver d G1 OUT = V2).
  { destruct (Hv (g_ver d G1 OUT)) as [E|E]; eauto with inv. exfalso. apply (NT V1 L1).
    rewrite <- EG1, <- E. apply (f_gvg HI G1 OUT); auto. }
  assert (G2o : g_ver d G2 OUT = V1).
  { destruct (Hv (g_ver d G2 OUT)) as [E|E]; eauto with inv. exfalso. apply (NT V2 L2).
    rewrite <- EG2, <- E. apply (f_gvg HI G2 OUT); auto. }
  assert (NG : G1 <> G2) by (intros X; rewrite X in G1i; congruence).
  assert (Hg : forall x, live (gB d) x -> x = G1 \/ x = G2).
  { intros x Lx. destruct (Hv (g_ver d x IN)) as [E|E]; eauto with inv.
    - left. rewrite EG1, <- E. symmetry. apply (f_gvg HI x IN); auto.
    - right. rewrite EG2, <- E. symmetry. apply (f_gvg HI x IN); auto. }
  assert (S1 : sfl d = 1%R).
  { destruct LS as (s & P & ->). replace s with true; [reflexivity|]. symmetry.
    apply (P_Perm.par_fun (f := nx d OUT)); auto.
    apply (P_Perm.par_two (a := V1) (b := V2)); auto; [apply L1|apply L2|]. intros x Hx.
    destruct (Nat.eq_dec x V1) as [->|Q1]; [|destruct (Nat.eq_dec x V2) as [->|Q2]].
    - rewrite P_Perm.swapn_l, nx_live by auto. congruence.
    - rewrite P_Perm.swapn_r, nx_live by auto. congruence.
    - rewrite P_Perm.swapn_o by auto. apply nx_dead. intros L. destruct (Hv x L); auto. }
  set (wr := cdiv (cmul (cmul (rmul_c (rofZ (-1)) g1) g2) wW) (dweight d)) in *.
  match goal with |- _ /\ (?A -> _) => assert (Nwr : A -> toC wr <> RtoC 0) by (unfold wr in *; accnz) end.
  assert (PG : Permutation (liveL (gB d)) [G1; G2]).
  { apply NoDup_Permutation; [now apply liveL_nodup| |].
    - constructor; [|repeat constructor; auto]. intros [E|[]]; auto.
    - intros x. rewrite liveL_in by auto. cbn [In]. split; [intros L; destruct (Hg x L); auto|]. intros [<-|[<-|[]]]; auto. }
  assert (PW : Permutation (liveL (wB d)) [W1]).
  { apply NoDup_Permutation; [now apply liveL_nodup|repeat constructor; auto|].
    intros x. rewrite liveL_in by auto. cbn [In]. split; [intros L; left; symmetry; auto|]. intros [<-|[]]; auto. }
  match goal with |- dwp c ?X /\ _ => set (d' := X) in * end.
  assert (EG : g_W d' = upd (upd (g_W d) G1 g1) G2 g2) by reflexivity.
  assert (EW : w_W d' = upd (w_W d) W1 wW) by reflexivity.
  assert (EM : Cmult (toC wr) (toC (dweight d)) = Cmult (Cmult (Cmult (RtoC (-1)) (toC g1)) (toC g2)) (toC wW)).
  { unfold wr. rewrite toC_div by auto. rewrite !toC_cmul. change (@rofZ NumR (-1)) with (-1)%R. now rewrite toC_neg. }
  assert (DP : dwp c d').
  { unfold dwp. change (order d' =? 0) with false. cbn [andb]. change (dweight d') with (cmul (dweight d) wr).
    rewrite toC_cmul, Cmult_comm, EM. unfold sprod. change (liveL (gB d')) with (liveL (gB d)). change (liveL (wB d')) with (liveL (wB d)).
    rewrite (pr_perm _ _ _ PG), (pr_perm _ _ _ PW), EG, EW, pr1, pr2.
    destruct (upd2v (g_W d) G1 G2 g1 g2 NG) as [-> ->]. rewrite upd_same.
    replace (sg d') with (-1)%R; [ring|]. change (-1 = sfl d * -1)%R. rewrite S1. ring. }
  split; [exact DP|]. intros HA. specialize (Nwr HA).
  assert (NP : Cmult (Cmult (Cmult (RtoC (-1)) (toC g1)) (toC g2)) (toC wW) <> RtoC 0) by (rewrite <- EM; now apply Cmult_nz).
  destruct HW as [H1 H2 H3 H4 H5]. constructor.
  - intros x Lx. destruct (upd2v (g_W d) G1 G2 g1 g2 NG) as [U1 U2].
    rewrite EG. destruct (Hg x Lx) as [-> | ->]; [rewrite U1|rewrite U2]; intros E; apply NP; rewrite E; ring.
  - intros x Lx. rewrite EW, (Hw x Lx), upd_same. intros E; apply NP; rewrite E; ring.
  - exact DP.
  - change (cmul (dphase d) (phase wr) = phase (cmul (dweight d) wr)). rewrite H4. now apply phase_mul.
  - change (1 = 0 -> normF (c_tab c) <> 0%R). lia.
Qed.

Lemma pr_map_ext {A} (f : nat -> cR) (L : list A) k v : (forall e, In e L -> f (k e) = v e) ->
  pr f (map k L) = fold_right (fun e a => Cmult (toC (v e)) a) (RtoC 1) L.
Proof.
  intros H. unfold pr. induction L as [|e L IH]; auto. cbn [map fold_right]. rewrite IH by (intros; apply H; now right).
  now rewrite H by now left.
Qed.
Lemma loop_new_pr L : forall a, toC (loop_new a L) = Cmult (toC a) (Cmult (fold_right (fun e x => Cmult (toC (e_gw e)) x) (RtoC 1) L)
   (fold_right (fun e x => Cmult (toC (e_ww e)) x) (RtoC 1) (filter e_cnt L))).
Proof.
  induction L as [|e L IH]; intros a; cbn [loop_new filter fold_right]; [ring|].
  rewrite IH. destruct (e_cnt e); cbn [fold_right]; rewrite ?toC_cmul; ring.
Qed.
Lemma loop_old_pr (d : D) L : forall a, toC (loop_old d a L) = Cmult (toC a) (Cmult (pr (g_W d) (map e_g L)) (pr (w_W d) (cw L))).
Proof.
  unfold cw. induction L as [|e L IH]; intros a; cbn [loop_old filter map].
  - unfold pr. cbn. ring.
  - rewrite IH. destruct (e_cnt e); unfold pr; cbn [map fold_right]; rewrite ?toC_cmul; ring.
Qed.
Lemma loop_w d p d' r : Inv c d -> LoopSign d -> WInv c d -> loop_rel c d p d' r -> dwp c d' /\ (accepts p -> WInv c d').
Proof.
  intros HI LS HW H. pose proof (loop_pres c d p d' r C HI H) as HI'.
  destruct H as [v0 vs R L wr Ho Hex Hv0 ND Lvs Cl HR HL HF NW Hcw Ewr].
  assert (EL : forall e, In e L -> In (e_v e) vs /\ live (vB d) (e_v e) /\ entry_ok c d R vs e) by (intros e; exact (entry_live c d vs R L Lvs HL HF e)).
  assert (VG : forall e, In e L -> e_g e = v_G d (e_v e) OUT) by (intros e He; apply EL; auto).
  assert (NDv : NoDup (map e_v L)) by (rewrite HL; auto).
  assert (NDg : NoDup (map e_g L)).
  { clear - VG NDv EL HI. induction L as [|e L IH]; [constructor|]. cbn [map] in *. inversion NDv as [|x l N1 N2]; subst. constructor.
    - intros Hin. apply in_map_iff in Hin as (e' & E & He'). apply N1. apply in_map_iff. exists e'. split; auto.
      apply (f_vg_inj HI _ _ OUT); [apply EL; now right|apply EL; now left|]. rewrite <- !VG; auto; [now left|now right].
    - apply IH; auto; intros; [apply EL|apply VG]; now right. }
  assert (Lg : forall x, In x (map e_g L) -> live (gB d) x).
  { intros x Hx. apply in_map_iff in Hx as (e & <- & He). rewrite (VG e He). destruct (EL e He) as (_ & Q & _). eauto with inv. }
  assert (Lw : forall x, In x (cw L) -> live (wB d) x).
  { intros x Hx. unfold cw in Hx. apply in_map_iff in Hx as (e & <- & He). apply filter_In in He as [He _].
    pose proof (entry_w c d HI vs R L Lvs HL HF e He) as (Q & _). exact Q. }
  assert (N1 : toC (loop_old d (mkC r1 r0) L) <> RtoC 0).
  { rewrite loop_old_pr. apply Cmult_nz; [|apply Cmult_nz; apply pr_nz; intros x Hx].
    - intros E. apply (f_equal fst) in E. cbn in E. lra.
    - apply (wi_g _ _ HW); auto.
    - apply (wi_w _ _ HW); auto. }
  match goal with |- _ /\ (?A -> _) => assert (Nwr : A -> toC wr <> RtoC 0) by accnz end.
  set (gw' := fold_left (fun f e => upd f (e_g e) (e_gw e)) L (g_W d)).
  set (ww' := fold_left (fun f e => upd f (e_w e) (e_ww e)) L (w_W d)).
  assert (EG : forall e, In e L -> gw' (e_g e) = e_gw e).
  { intros e He. apply (fold_upd_in e_g e_gw); [eauto|]. intros e' He' E. f_equal.
    clear - He He' E NDg. induction L as [|a L IH]; [contradiction|]. cbn [map] in NDg. inversion NDg as [|x l Q1 Q2]; subst.
    destruct He as [->|He], He' as [->|He']; auto.
    - exfalso. apply Q1. rewrite <- E. now apply in_map.
    - exfalso. apply Q1. rewrite E. now apply in_map. }
  assert (EW : forall e, In e L -> ww' (e_w e) = e_ww e).
  { intros e He. apply (fold_upd_in e_w e_ww); [eauto|]. intros e' He' E.
    pose proof (entry_w c d HI vs R L Lvs HL HF e He) as (_ & _ & Q). pose proof (entry_w c d HI vs R L Lvs HL HF e' He') as (_ & _ & Q').
    rewrite E in Q'. congruence. }
  apply (w_step0 c d _ (map e_g L) (cw L) 1%R wr HI HI' LS HW Ho Ho eq_refl eq_refl); auto.
  - intros x Hx _. change (gw' x = g_W d x). apply (fold_upd_out e_g e_gw). intros e He <-. apply Hx. now apply in_map.
  - intros x Hx _. change (ww' x = w_W d x). apply (fold_upd_out e_w e_ww). intros e He E. apply Hx. rewrite <- E.
    destruct (EL e He) as (Q1 & _ & (_ & Q2 & _)). rewrite Q2. now apply Hcw.
  - change (sg d = (sg d * 1)%R). ring.
  - change (g_W (loop_post R L wr d)) with gw'. change (w_W (loop_post R L wr d)) with ww'.
    rewrite (pr_map_ext gw' L e_g e_gw EG). unfold cw at 2. rewrite (pr_map_ext ww' (filter e_cnt L) e_w e_ww) by (intros e He; apply EW; now apply filter_In in He).
    assert (T1 : toC (mkC r1 r0) = RtoC 1) by reflexivity.
    pose proof (toC_div (loop_new (mkC r1 r0) L) _ N1) as Q. rewrite <- Ewr, loop_old_pr, loop_new_pr, T1, !Cmult_1_l in Q. rewrite Q. ring.
Qed.

Lemma prop_w2 d op p d' r : Inv c d -> LoopSign d -> WInv c d -> prop_rel c d op p d' r -> dwp c d' /\ (accepts p -> WInv c d').
Proof.
  intros HI LS HW H. destruct H as [? ? ? H|? ? ? H|? ? ? H|? ? ? H|? ? ? H|? ? ? H|? ? ? H|? ? ? H|? ? ? H|? ? ? H|? ? ? H|? ? ? H|? ? ? H|? ? ? H|? ? ? H|? ? ? H|? ? ? H|? ? ? G3 H|? ? ? G3 H|? ? ? G3 H|? ? ? G3 H].
  - exact (create_w d _ _ _ HI LS HW H).
  - exact (delete_w d _ _ _ HI LS HW H).
  - exact (moveG_w d _ _ _ HI LS HW H).
  - exact (moveW_w d _ _ _ HI LS HW H).
  - exact (reconnect_w d _ _ _ HI LS HW H).
  - exact (add_w false d _ _ _ HI LS HW H).
  - exact (del_w false d _ _ _ HI LS HW H).
  - exact (add_w true d _ _ _ HI LS HW H).
  - exact (del_w true d _ _ _ HI LS HW H).
  - exact (tau_w d _ _ _ HI LS HW H).
  - exact (loop_w d _ _ _ HI LS HW H).
  - exact (g2w_w d _ _ _ HI LS HW H).
  - exact (w2g_w d _ _ _ HI LS HW H).
  - exact (delta_w false d _ _ _ HI LS HW H).
  - exact (delta_w true d _ _ _ HI LS HW H).
  - exact (to0_w d _ _ _ HI LS HW H).
  - exact (to1_w d _ _ _ HI LS HW H).
  - exact (toGG_w d _ _ _ HI LS HW H).
  - exact (fromGG_w d _ _ _ HI LS HW H).
  - exact (toWW_w d _ _ _ HI LS HW H).
  - exact (fromWW_w d _ _ _ HI LS HW H).
Qed.
Lemma prop_w d op p d' r : Inv c d -> LoopSign d -> WInv c d -> prop_rel c d op p d' r -> accepts p -> WInv c d'.
Proof. intros HI LS HW H. exact (proj2 (prop_w2 d op p d' r HI LS HW H)). Qed.
Lemma rej_w d op p d' r : WInv c d -> prop_rel c d op p d' r -> WInv c r.
Proof.
  intros HW H. assert (X : r = d \/ exists e, r = s_uext d e) by (destruct H as [? ? ? H|? ? ? H|? ? ? H|? ? ? H|? ? ? H|? ? ? H|? ? ? H|? ? ? H|? ? ? H|? ? ? H|? ? ? H|? ? ? H|? ? ? H|? ? ? H|? ? ? H|? ? ? H|? ? ? H|? ? ? G3 H|? ? ? G3 H|? ? ? G3 H|? ? ? G3 H]; destruct H; eauto).
  destruct X as [->|(e & ->)]; [exact HW|]. destruct HW as [H1 H2 H3 H4 H5]. constructor; assumption.
Qed.
Lemma hstep_w d d' : Inv c d -> LoopSign d -> WInv c d -> hstep c d d' -> WInv c d'.
Proof.
  intros HI LS HW H. destruct H as [|op p d' r H _|op p d' r H A]; [exact HW| |].
  - exact (rej_w d op p d' r HW H).
  - exact (prop_w d op p d' r HI LS HW H A).
Qed.
Lemma sign_lawR : @sign_law NumR.
Proof. split; cbn; lra. Qed.
Lemma hsteps_w n d d' : hsteps c n d d' -> Inv c d -> LoopSign d -> WInv c d -> WInv c d'.
Proof.
  induction 1 as [|n d d1 d2 H Hs IH]; intros HI LS HW; auto.
  apply IH; [exact (hstep_pres c d d1 C HI H)|exact (hstep_sign c d d1 sign_lawR C HI H LS)|exact (hstep_w d d1 HI LS HW H)].
Qed.
End Step.

(** ** Start values *)
Lemma Zeven_rem' n : 0 <= n -> Z.even n = (Z.rem n 2 =? 0).
Proof. intros H. rewrite Zeven_mod, Z.rem_mod_nonneg by lia. unfold Zeq_bool. destruct (Z.eqb_spec (n mod 2) 0) as [->|N]; auto. destruct (n mod 2); auto; congruence. Qed.
Lemma nonzero_toC (z : cR) : nonzero z -> toC z <> RtoC 0.
Proof. intros H E. apply H. unfold toC in E. injection E as E1 E2. split; assumption. Qed.

Lemma prodn_pr b (f : nat -> cR) a : forall k, toC (prodn b f a k) = Cmult (toC a) (pr f (map (names b) (seq 0 k))).
Proof.
  induction k as [|k IH]; [cbn; unfold pr; cbn; unfold prodn; cbn; ring|].
  rewrite prodn_S, toC_cmul, IH, seq_S, map_app, pr_app. cbn [map]. rewrite pr1. cbn [Nat.add]. ring.
Qed.
Lemma fixed_w c d1 d' : Inv c d' -> fixed d1 d' ->
  (forall g, live (gB d') g -> toC (g_W d' g) <> RtoC 0) -> (forall w, live (wB d') w -> toC (w_W d' w) <> RtoC 0) -> WInv c d'.
Proof.
  intros HI F H1 H2.
  destruct F as (F1 & F2 & F3 & F4 & _ & _ & _ & _ & _ & _ & _ & _ & _ & _ & _ & _ & _ & _ & _ & _ & _ & _ & _ & _ & _ & F5 & F6).
  assert (O : order d' <> 0). { destruct (i_cnt _ _ HI) as (_ & _ & _ & Q & _). rewrite F4 in Q. rewrite F1. lia. }
  constructor; [exact H1|exact H2| |exact F6|intros; contradiction].
  destruct (Z.eqb_spec (order d') 0) as [E|_]; [contradiction|]. rewrite F5.
  assert (E : forall z (x : R), toC (@cmul_assign_r NumR z x) = Cmult (RtoC x) (toC z)).
  { intros [a b] x. unfold toC, cmul_assign_r, Cmult, RtoC. cbn. f_equal; ring. }
  rewrite E, !prodn_pr. unfold sprod, sg, liveL. rewrite F2, F3, F4, F1.
  replace (toC (mkC r1 r0)) with (RtoC 1) by reflexivity.
  replace (fix_sign d1) with (sfl d1 * sgo (Z.of_nat (avail (wB d1))))%R; [ring|].
  unfold fix_sign, sgo. rewrite Zeven_rem' by lia. destruct (Z.rem _ 2 =? 0); reflexivity.
Qed.
Section Hist.
Context {E : Type} (next : E -> Z * E).
Lemma regular_w c s : cfg_ok c -> new_ok (c_lat c) -> regular_history next c s -> history next c s /\ WInv c (md s).
Proof.
  intros C LK H. induction H as [s d0 K B G W|s s1 d0 F H [IH IHW] Ga T K L|s s' c' n H [IH IHW] R HH].
  - split; [exact (hi_new next c s d0 K B)|].
    destruct (BuildNew_inv c d0 C (proj1 LK) (proj2 LK) K) as (co & d1 & d' & _ & B' & Y & F & HI & _). rewrite B in B'. injection B' as E'.
    rewrite E' in *. apply (fixed_w c d1 d' HI F); intros x Lx; apply nonzero_toC; [apply G|apply W]; now apply live_exist.
  - split; [exact (hi_load next c s s1 d0 F IH T K L)|].
    pose proof (history_inv next c s1 C LK IH) as HI. pose proof (Inv_Pre c _ HI) as P. rewrite (ToDict_spec c _ P) in T. injection T as <-.
    destruct (load_inv c (md s1) d0 C P K) as (d1 & d' & B' & Y & F & HI' & Ga'). rewrite L in B'. injection B' as E'. rewrite E' in *.
    destruct (copy_same c _ _ _ HI Y F HI') as (SD & _ & SW). destruct (SW Ga ltac:(tauto)) as [SG SW'].
    destruct (sd_g _ _ _ _ _ SD) as (_ & _ & OG). destruct (sd_w _ _ _ _ _ SD) as (_ & _ & OW).
    apply (fixed_w c d1 d' HI' F); intros x Lx; apply live_exist in Lx.
    + destruct (OG x Lx) as (y & Ly & <-). rewrite SG by auto. apply (wi_g _ _ IHW). now apply live_exist.
    + destruct (OW x Lx) as (y & Ly & <-). rewrite SW' by auto. apply (wi_w _ _ IHW). now apply live_exist.
  - split; [exact (hi_hop next c s s' c' n IH R HH)|].
    pose proof (history_inv next c s C LK IH) as HI. pose proof (history_sign next c s sign_lawR C LK IH) as LS.
    apply (retuned_Inv c c' _ R) in HI. pose proof (retuned_ok c c' C R) as C'.
    destruct (Hop_ok next c' n s C' HI) as (s2 & B & S & _). rewrite HH in B. injection B as <-.
    assert (ET : c_tab c' = c_tab c) by apply R.
    assert (Q : WInv c' (md s)) by (destruct IHW as [H1 H2 H3 H4 H5]; constructor; rewrite ?ET; auto).
    pose proof (hsteps_w c' C' _ _ _ S HI LS Q) as [H1 H2 H3 H4 H5]. rewrite ET in *. constructor; auto.
Qed.
End Hist.

End W.
