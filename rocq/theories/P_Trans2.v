(** Slot numbers do not matter; what has been reached can be reached from everywhere *)
From Coq Require Import ZArith List Bool Arith Lia ZifyBool Reals Lra.
From Verif Require Import Base Num NumR RNG Momentum Complex Lattice Bundle IndexMap Weights Diagram Markov DiagramIO History
  P_Momentum P_RNG P_Bundle P_Lattice P_IndexMap P_WP P_Inv P_Rel P_Sem1 P_Sem2 P_Sem3 P_Pres1 P_Pres2 P_Pres3 P_Pres4
  P_Hop P_Fix P_IO P_History P_IOProm P_Loop P_Weight P_Step Target P_MH Alike P_Alike P_Reach P_Undo P_Can P_Reverse P_Trans.
Import ListNotations.
Open Scope Z_scope.

(** *** [alike] is reflexive up to the external point, and transitive *)
Section AL.
Context {N : Num}.
Notation D := (@diagram N).
Lemma alike_0 fv fg fw (d e : D) : alike fv fg fw d e -> alike0 fv fg fw d e.
Proof.
  intros A. destruct A. constructor; auto; try (now apply lbij_bijection); try (intros ? ?; setoid_rewrite live_exist; auto);
  try (intros; match goal with H : live _ _ |- _ => apply live_exist in H end; auto).
  - intros X. destruct (al_worm X) as (? & ? & ? & ? & ?). auto.
  - intros X. now apply al_ext.
Qed.
Lemma bijection_trans b b' b'' f g : bijection b b' f -> bijection b' b'' g -> bijection b b'' (fun x => g (f x)).
Proof.
  intros (A1 & A2 & A3) (B1 & B2 & B3). split; [|split].
  - intros x Hx. apply B1, A1, Hx.
  - intros x y Hx Hy E. apply A2; auto.
  - intros z Hz. destruct (B3 z Hz) as (y & Hy & <-). destruct (A3 y Hy) as (x & Hx & <-). eauto.
Qed.
Lemma rename_comp fg fw fg' fw' s : rename_slot fg' fw' (rename_slot fg fw s) = rename_slot (fun x => fg' (fg x)) (fun x => fw' (fw x)) s.
Proof. destruct s; reflexivity. Qed.
Lemma alike_trans fv fg fw fv' fg' fw' (d1 d2 d3 : D) :
  (forall g e, bexist (gB d1) g = true -> bexist (vB d1) (g_ver d1 g e) = true) ->
  (forall w e, bexist (wB d1) w = true -> bexist (vB d1) (w_ver d1 w e) = true) ->
  alike fv fg fw d1 d2 -> alike fv' fg' fw' d2 d3 ->
  alike (fun x => fv' (fv x)) (fun x => fg' (fg x)) (fun x => fw' (fw x)) d1 d3.
Proof.
  intros HG HW A B. destruct A, B.
  assert (tv : forall v, bexist (vB d1) v = true -> bexist (vB d2) (fv v) = true) by apply al_v.
  assert (tg : forall v, bexist (gB d1) v = true -> bexist (gB d2) (fg v) = true) by apply al_g.
  assert (tw : forall v, bexist (wB d1) v = true -> bexist (wB d2) (fw v) = true) by apply al_w.
  constructor; try (eapply bijection_trans; eassumption).
  all: try congruence.
  all: try (intros; match goal with H : forall x, _ -> ?f ?d (_ x) = _ |- ?f _ _ = _ => idtac end).
  all: try solve [intros; rewrite ?al_gv0, ?al_wv0, ?al_vG0, ?al_vW0, ?al_vD0, ?al_gK0, ?al_gm0, ?al_gg0, ?al_wK0, ?al_wm0, ?al_wd0, ?al_ww0, ?al_wo0,
     ?al_gv, ?al_wv, ?al_vG, ?al_vW, ?al_vD, ?al_gK, ?al_gm, ?al_gg, ?al_wK, ?al_wm, ?al_wd, ?al_ww, ?al_wo by auto; auto].
  all: try solve [intros; rewrite ?al_gh0, ?al_wh0 by auto; auto].
  all: try solve [intros O; assert (order d2 <> 0) by congruence; intros; rewrite ?al_R0, ?al_T0, ?al_S0, ?al_gW0, ?al_wW0 by auto; auto].
  - intros X. assert (X2 : wm_ex d2 = true) by congruence.
    destruct (al_worm X) as (E1 & E2 & E3 & E4 & E5), (al_worm0 X2) as (F1 & F2 & F3 & F4 & F5). repeat split; congruence.
  - rewrite al_mG in al_meas0. destruct (measG d1); congruence.
  - intros X. assert (X2 : gamma d2 <> 0) by congruence. destruct (al_ext X) as (E1 & E2 & E3), (al_ext0 X2) as (F1 & F2 & F3).
    rewrite F1, F2, F3, E1, E2, E3. repeat split; apply rename_comp.
Qed.
End AL.

(** *** ChangeRLoop on a renamed diagram *)
Section LoopTrans.
Context (c : @cfg NumR) (fv fg fw : nat -> nat) (d e : @diagram NumR) (HI : Inv c d) (HE : Inv c e) (A : alike0 fv fg fw d e).
Lemma t_nxt v : live (vB d) v -> g_ver e (v_G e (fv v) OUT) OUT = fv (g_ver d (v_G d v OUT) OUT).
Proof. intros Lv. rewrite (t_vG c fv fg fw d e HI HE A) by auto. apply (a0_gv _ _ _ _ _ A). eauto with inv. Qed.
Lemma t_iter n v : live (vB d) v -> live (vB d) (Nat.iter n (fun x => g_ver d (v_G d x OUT) OUT) v) /\
  Nat.iter n (fun x => g_ver e (v_G e x OUT) OUT) (fv v) = fv (Nat.iter n (fun x => g_ver d (v_G d x OUT) OUT) v).
Proof.
  intros Lv. induction n as [|n [IH1 IH2]]; [auto|]. split.
  - change (live (vB d) (g_ver d (v_G d (Nat.iter n (fun x => g_ver d (v_G d x OUT) OUT) v) OUT) OUT)). eauto with inv.
  - cbn [Nat.iter nat_rect]. change (nat_rect _ (fv v) _ n) with (Nat.iter n (fun x => g_ver e (v_G e x OUT) OUT) (fv v)). rewrite IH2. now apply t_nxt.
Qed.
Lemma loop_trans p d' r : loop_rel c d p d' r ->
  exists v0 R, order e <> 0 /\ wm_ex e = false /\ live (vB e) v0 /\ site_ok (c_lat c) R /\
    forall p' e', loop_at c e v0 R p' e' -> alike0 fv fg fw d' e'.
Proof.
  intros H. destruct H as [v0 vs R L wr Ho Hx I0 ND Lvs Cl HR EL EO NW Cov Ewr OL].
  exists (fv v0), R.
  split; [rewrite (a0_order _ _ _ _ _ A); exact Ho|]. split; [rewrite (a0_ex _ _ _ _ _ A); exact Hx|].
  split; [exact (proj1 (a0_v _ _ _ _ _ A) _ (Lvs _ I0))|]. split; [exact HR|].
  intros p' e' H. destruct H as [vs' L' wr' Ho' Hx' I0' ND' Lvs' Cl' HR' EL' EO' NW' Cov' Ewr' OL'].
  assert (S1 : forall v, live (vB d) v -> In v vs <-> In (fv v) vs').
  { intros v Lv. split; intros Hv.
    - destruct (OL v Hv) as [n ->]. rewrite <- (proj2 (t_iter n v0 (Lvs _ I0))). apply iter_closed; auto.
    - destruct (OL' (fv v) Hv) as [n E]. rewrite (proj2 (t_iter n v0 (Lvs _ I0))) in E.
      apply (proj1 (proj2 (a0_v _ _ _ _ _ A))) in E; [|auto|exact (proj1 (t_iter n v0 (Lvs _ I0)))]. rewrite E. apply iter_closed; auto. }
  destruct A. constructor; auto.
  intros _ x Lx. change (live (vB d) x) in Lx.
  change (fold_left (fun f e => upd f (e_v e) R) L' (v_R e) (fv x) = fold_left (fun f e => upd f (e_v e) R) L (v_R d) x).
  destruct (in_dec Nat.eq_dec x vs) as [Hi|Hi].
  - assert (Hj : In (fv x) vs') by (now apply S1).
    rewrite <- EL' in Hj. apply in_map_iff in Hj as [en' [He1 He2]]. rewrite (fold_upd_in e_v (fun _ => R) L' R (fv x)) by eauto.
    rewrite <- EL in Hi. apply in_map_iff in Hi as [en [Hf1 Hf2]]. symmetry. apply (fold_upd_in e_v (fun _ => R)); eauto.
  - rewrite (fold_upd_out e_v (fun _ => R)).
    + rewrite (fold_upd_out e_v (fun _ => R)); [now apply a0_R|]. intros en He Ee. apply Hi. rewrite <- EL, <- Ee. now apply in_map.
    + intros en He Ee. apply Hi, (S1 x Lx). rewrite <- EL', <- Ee. now apply in_map.
Qed.
End LoopTrans.

(** *** one proposal of a diagram is a proposal of any diagram like it *)
Section TransStep.
Context (c : @cfg NumR) (C : cfg_ok c) (PS : positive c).
Notation D := (@diagram NumR).

Lemma density_inv d op p d' r : Inv c d' -> prop_rel c d op p d' r -> (0 < density c (inverse op) d')%R.
Proof.
  intros HI H. pose proof (nu_pos c) as NU; pose proof nK_pos as NK; pose proof (cnt_pos c _ HI) as (NW & NG & NV & NO);
  destruct PS as (PO & Pw & Pp & Pg1 & Pg2 & Pb & Psi). change (@real NumR) with R in *.
  unfold density. apply Rmult_lt_0_compat; [now apply Rinv_0_lt_compat|].
  assert (NG' : (0 < nG d')%R) by lra. assert (NV' : (0 < nV d')%R) by lra.
  apply Rinv_0_lt_compat in NG', NV', NW, Psi, Pb, NK.
  destruct H as [? ? ? H|? ? ? H|? ? ? H|? ? ? H|? ? ? H|? ? ? H|? ? ? H|? ? ? H|? ? ? H|? ? ? H|? ? ? H|? ? ? H|? ? ? H|? ? ? H|? ? ? H|? ? ? H|? ? ? H|? ? ? G3 H|? ? ? G3 H|? ? ? G3 H|? ? ? G3 H];
  match goal with |- (0 < nth ?n _ _)%R => let m := eval vm_compute in n in change n with m end; unfold draws; cbn [nth]; repeat apply Rmult_lt_0_compat; auto; lra.
Qed.
Lemma fin2 fv fg fw d e op p d' r p2 e' r2 fv' fg' fw' : good c d -> good c e -> alike fv fg fw d e ->
  prop_rel c d op p d' r -> accepts p -> prop_rel c e op p2 e' r2 -> alike0 fv' fg' fw' d' e' ->
  (0 < (p2 : R))%R /\ back d' e' /\ good c e'.
Proof.
  intros G GE A P AC P2 A2. pose proof (good_prop c C d op p d' r G P AC) as G'.
  destruct G as [HI LS HW W1], GE as [HIe LSe HWe W1e], G' as [HI' LS' HW' W1'].
  pose proof (proj1 (prop_pres c _ _ _ _ _ C HIe P2)) as HIe'.
  destruct (prop_w2 c C _ _ _ _ _ HIe LSe HWe P2) as [DW WA].
  assert (ED : dweight e' = dweight d') by (apply (alike_dw c fv' fg' fw'); auto; exact (wi_p _ _ HW')).
  pose proof (prop_bal c PS _ _ _ _ _ HIe LSe HWe W1e P2) as B. unfold balance in B.
  rewrite (same_density c fv' fg' fw' d' e' _ HI' HIe' A2), (same_target c fv' fg' fw' d' e' HI' HIe' A2 ED) in B.
  pose proof (target_pos c C PS d' HI' LS' HW') as T1. pose proof (target_pos c C PS e HIe LSe HWe) as T3.
  pose proof (density_pos c PS _ _ _ _ _ HIe P2) as T4.
  assert (T2 : (0 < density c (inverse op) d')%R).
  { exact (density_inv d op p d' r HI' P). }
  change (@real NumR) with R in *.
  assert (Hp : (0 < p2)%R).
  { pose proof (Rmult_lt_0_compat _ _ T1 T2) as X. pose proof (Rmult_lt_0_compat _ _ T3 T4) as Y. rewrite <- B in X.
    clear - X Y. apply Rnot_le_lt. intros Z.
    assert (p2 * (target c e * density c op e) <= 0)%R; [|lra].
    replace 0%R with (0 * (target c e * density c op e))%R by ring. apply Rmult_le_compat_r; [lra|exact Z]. }
  split; [exact Hp|]. pose proof (good_prop c C e op p2 e' r2 (Build_good c e HIe LSe HWe W1e) P2 (pos_accepts p2 Hp)) as G2.
  split; [|exact G2]. exists fv', fg', fw'. apply (alike_build c); auto.
  - exact (wi_ph _ _ HW').
  - exact (wi_ph _ _ (gd_W _ _ G2)).
  - exact (gd_1 _ _ G2).
Qed.

Lemma trans_prop fv fg fw d e op p d' r : good c d -> good c e -> alike fv fg fw d e -> prop_rel c d op p d' r -> accepts p ->
  exists k, (k < Z.to_nat (nupd c))%nat /\ can_op c k e (fun e' => back d' e' /\ good c e').
Proof.
  intros G GE A P AC. exists (Z.to_nat op). pose proof (gd_I _ _ G) as HI. pose proof (gd_I _ _ GE) as HE. pose proof P as P0.
  pose proof (alike_0 _ _ _ _ _ A) as A0.
  assert (N : (19 <= Z.to_nat (nupd c))%nat) by (unfold nupd; destruct (c_gamma3 c); cbn; lia).
  assert (N3 : c_gamma3 c = true -> (23 <= Z.to_nat (nupd c))%nat) by (unfold nupd; intros ->; cbn; lia).
  destruct P as [? ? ? H|? ? ? H|? ? ? H|? ? ? H|? ? ? H|? ? ? H|? ? ? H|? ? ? H|? ? ? H|? ? ? H|? ? ? H|? ? ? H|? ? ? H|? ? ? H|? ? ? H|? ? ? H|? ? ? H|? ? ? G3 H|? ? ? G3 H|? ? ? G3 H|? ? ? G3 H].
  all: split; [try apply N3 in G3; match goal with |- (Z.to_nat ?x < _)%nat => let m := eval vm_compute in (Z.to_nat x) in change (Z.to_nat x) with m end; lia|].
  all: match goal with |- can_op _ ?x _ _ => let m := eval vm_compute in x in change x with m end.
  - destruct (create_move c fv fg fw d e HI HE A0 _ _ _ H) as (p2 & e' & r2 & H' & f1 & f2 & f3 & AL). destruct (fin2 _ _ _ _ _ _ _ _ _ _ _ _ _ _ _ G GE A P0 AC (pr_create c _ _ _ _ H') AL) as (Hp & B).
    eapply can_op_can; [exact (create_can c C _ _ _ _ HE H' Hp)|intros E next; rewrite nth_mc by lia; reflexivity|exact B].
  - destruct (delete_move c fv fg fw d e HI HE A0 _ _ _ H) as (p2 & e' & r2 & H' & f1 & f2 & f3 & AL). destruct (fin2 _ _ _ _ _ _ _ _ _ _ _ _ _ _ _ G GE A P0 AC (pr_delete c _ _ _ _ H') AL) as (Hp & B).
    eapply can_op_can; [exact (delete_can c C _ _ _ _ HE H' Hp)|intros E next; rewrite nth_mc by lia; reflexivity|exact B].
  - destruct (moveG_move c fv fg fw d e HI HE A0 _ _ _ H) as (p2 & e' & r2 & H' & f1 & f2 & f3 & AL). destruct (fin2 _ _ _ _ _ _ _ _ _ _ _ _ _ _ _ G GE A P0 AC (pr_moveG c _ _ _ _ H') AL) as (Hp & B).
    eapply can_op_can; [exact (moveG_can c C _ _ _ _ HE H' Hp)|intros E next; rewrite nth_mc by lia; reflexivity|exact B].
  - destruct (moveW_move c fv fg fw d e HI HE A0 _ _ _ H) as (p2 & e' & r2 & H' & f1 & f2 & f3 & AL). destruct (fin2 _ _ _ _ _ _ _ _ _ _ _ _ _ _ _ G GE A P0 AC (pr_moveW c _ _ _ _ H') AL) as (Hp & B).
    eapply can_op_can; [exact (moveW_can c C _ _ _ _ HE H' Hp)|intros E next; rewrite nth_mc by lia; reflexivity|exact B].
  - destruct (reconnect_move c fv fg fw d e HI HE A0 _ _ _ H) as (p2 & e' & r2 & H' & f1 & f2 & f3 & AL). destruct (fin2 _ _ _ _ _ _ _ _ _ _ _ _ _ _ _ G GE A P0 AC (pr_reconnect c _ _ _ _ H') AL) as (Hp & B).
    eapply can_op_can; [exact (reconnect_can c C _ _ _ _ HE H' Hp)|intros E next; rewrite nth_mc by lia; reflexivity|exact B].
  - destruct (add_move c C fv fg fw d e HI HE A0 _ _ _ _ H) as (p2 & e' & r2 & H' & f1 & f2 & f3 & AL). destruct (fin2 _ _ _ _ _ _ _ _ _ _ _ _ _ _ _ G GE A P0 AC (pr_add c _ _ _ _ H') AL) as (Hp & B).
    eapply can_op_can; [exact (add_can c C false _ _ _ _ HE H' Hp)|intros E next; rewrite nth_mc by lia; reflexivity|exact B].
  - destruct (del_move c fv fg fw d e HI HE A0 _ _ _ _ H) as (p2 & e' & r2 & H' & f1 & f2 & f3 & AL). destruct (fin2 _ _ _ _ _ _ _ _ _ _ _ _ _ _ _ G GE A P0 AC (pr_del c _ _ _ _ H') AL) as (Hp & B).
    eapply can_op_can; [exact (del_can c C false _ _ _ _ HE H' Hp)|intros E next; rewrite nth_mc by lia; reflexivity|exact B].
  - destruct (add_move c C fv fg fw d e HI HE A0 _ _ _ _ H) as (p2 & e' & r2 & H' & f1 & f2 & f3 & AL). destruct (fin2 _ _ _ _ _ _ _ _ _ _ _ _ _ _ _ G GE A P0 AC (pr_add_d c _ _ _ _ H') AL) as (Hp & B).
    eapply can_op_can; [exact (add_can c C true _ _ _ _ HE H' Hp)|intros E next; rewrite nth_mc by lia; reflexivity|exact B].
  - destruct (del_move c fv fg fw d e HI HE A0 _ _ _ _ H) as (p2 & e' & r2 & H' & f1 & f2 & f3 & AL). destruct (fin2 _ _ _ _ _ _ _ _ _ _ _ _ _ _ _ G GE A P0 AC (pr_del_d c _ _ _ _ H') AL) as (Hp & B).
    eapply can_op_can; [exact (del_can c C true _ _ _ _ HE H' Hp)|intros E next; rewrite nth_mc by lia; reflexivity|exact B].
  - destruct (tau_move c fv fg fw d e HI HE A0 _ _ _ H) as (p2 & e' & r2 & H' & f1 & f2 & f3 & AL). destruct (fin2 _ _ _ _ _ _ _ _ _ _ _ _ _ _ _ G GE A P0 AC (pr_tau c _ _ _ _ H') AL) as (Hp & B).
    eapply can_op_can; [exact (tau_can c C _ _ _ _ HE H' Hp)|intros E next; rewrite nth_mc by lia; reflexivity|exact B].
  - destruct (loop_trans c fv fg fw d e HI HE A0 _ _ _ H) as (v0 & R0 & O1 & X1 & L1 & S1 & U1).
    destruct (loop_can c C e v0 R0 (fun e' => back d' e' /\ good c e') HE O1 X1 L1 S1) as (ws & W1 & W2).
    { intros p' d'' LA. exact (fin2 _ _ _ _ _ _ _ _ _ _ _ _ _ _ _ G GE A P0 AC (pr_loop c _ _ _ _ (loop_at_rel c _ _ _ _ _ LA)) (U1 _ _ LA)). }
    exists ws. split; [exact W1|]. intros E next s Ed Em. rewrite nth_mc by lia. exact (W2 E next s Ed Em).
  - destruct (g2w_move c fv fg fw d e HI HE A0 _ _ _ H) as (p2 & e' & r2 & H' & f1 & f2 & f3 & AL). destruct (fin2 _ _ _ _ _ _ _ _ _ _ _ _ _ _ _ G GE A P0 AC (pr_g2w c _ _ _ _ H') AL) as (Hp & B).
    eapply can_op_can; [exact (g2w_can c C _ _ _ _ HE H' Hp)|intros E next; rewrite nth_mc by lia; reflexivity|exact B].
  - destruct (w2g_move c fv fg fw d e HI HE A0 _ _ _ H) as (p2 & e' & r2 & H' & f1 & f2 & f3 & AL). destruct (fin2 _ _ _ _ _ _ _ _ _ _ _ _ _ _ _ G GE A P0 AC (pr_w2g c _ _ _ _ H') AL) as (Hp & B).
    eapply can_op_can; [exact (w2g_can c C _ _ _ _ HE H' Hp)|intros E next; rewrite nth_mc by lia; reflexivity|exact B].
  - destruct (delta_move c fv fg fw d e HI HE A0 _ _ _ _ H) as (p2 & e' & r2 & H' & f1 & f2 & f3 & AL). destruct (fin2 _ _ _ _ _ _ _ _ _ _ _ _ _ _ _ G GE A P0 AC (pr_d2c c _ _ _ _ H') AL) as (Hp & B).
    eapply can_op_can; [exact (delta_can c C false _ _ _ _ HE H' Hp)|intros E next; rewrite nth_mc by lia; reflexivity|exact B].
  - destruct (delta_move c fv fg fw d e HI HE A0 _ _ _ _ H) as (p2 & e' & r2 & H' & f1 & f2 & f3 & AL). destruct (fin2 _ _ _ _ _ _ _ _ _ _ _ _ _ _ _ G GE A P0 AC (pr_c2d c _ _ _ _ H') AL) as (Hp & B).
    eapply can_op_can; [exact (delta_can c C true _ _ _ _ HE H' Hp)|intros E next; rewrite nth_mc by lia; reflexivity|exact B].
  - destruct (to0_move c fv fg fw d e A0 _ _ _ H) as (p2 & e' & r2 & H' & f1 & f2 & f3 & AL). destruct (fin2 _ _ _ _ _ _ _ _ _ _ _ _ _ _ _ G GE A P0 AC (pr_to0 c _ _ _ _ H') AL) as (Hp & B).
    eapply can_op_can; [exact (to0_can c C _ _ _ _ HE H' Hp)|intros E next; rewrite nth_mc by lia; reflexivity|exact B].
  - destruct (to1_move c C fv fg fw d e HI HE A0 _ _ _ H) as (p2 & e' & r2 & H' & f1 & f2 & f3 & AL). destruct (fin2 _ _ _ _ _ _ _ _ _ _ _ _ _ _ _ G GE A P0 AC (pr_to1 c _ _ _ _ H') AL) as (Hp & B).
    eapply can_op_can; [exact (to1_can c C _ _ _ _ HE H' Hp)|intros E next; rewrite nth_mc by lia; reflexivity|exact B].
  - destruct (toGG_move c fv fg fw d e HI A0 _ _ _ H) as (p2 & e' & r2 & H' & f1 & f2 & f3 & AL). destruct (fin2 _ _ _ _ _ _ _ _ _ _ _ _ _ _ _ G GE A P0 AC (pr_toGG c _ _ _ _ G3 H') AL) as (Hp & B).
    eapply can_op_can; [exact (toGG_can c C _ _ _ _ HE H' Hp)|intros E next; unfold ops; rewrite G3; reflexivity|exact B].
  - destruct (fromGG_move c fv fg fw d e HI A0 _ _ _ H) as (p2 & e' & r2 & H' & f1 & f2 & f3 & AL). destruct (fin2 _ _ _ _ _ _ _ _ _ _ _ _ _ _ _ G GE A P0 AC (pr_fromGG c _ _ _ _ G3 H') AL) as (Hp & B).
    eapply can_op_can; [exact (fromGG_can c C _ _ _ _ HE H' Hp)|intros E next; unfold ops; rewrite G3; reflexivity|exact B].
  - destruct (toWW_move c fv fg fw d e HI A0 _ _ _ H) as (p2 & e' & r2 & H' & f1 & f2 & f3 & AL). destruct (fin2 _ _ _ _ _ _ _ _ _ _ _ _ _ _ _ G GE A P0 AC (pr_toWW c _ _ _ _ G3 H') AL) as (Hp & B).
    eapply can_op_can; [exact (toWW_can c C _ _ _ _ HE H' Hp)|intros E next; unfold ops; rewrite G3; reflexivity|exact B].
  - destruct (fromWW_move c fv fg fw d e HI A0 _ _ _ H) as (p2 & e' & r2 & H' & f1 & f2 & f3 & AL). destruct (fin2 _ _ _ _ _ _ _ _ _ _ _ _ _ _ _ G GE A P0 AC (pr_fromWW c _ _ _ _ G3 H') AL) as (Hp & B).
    eapply can_op_can; [exact (fromWW_can c C _ _ _ _ HE H' Hp)|intros E next; unfold ops; rewrite G3; reflexivity|exact B].
Qed.

Lemma good_hop {E} (next : E -> Z * E) (s s' : @mstate NumR E) : good c (md s) -> Hop next c 1 s = Ok (tt, s') -> good c (md s').
Proof.
  intros [HI LS HW W1] Q. destruct (Hop_ok next c 1 s C HI) as (s2 & B & S & HI' & _). rewrite Q in B. injection B as <-.
  constructor; auto.
  - exact (hsteps_sign c _ _ _ sign_lawR C S HI LS).
  - exact (hsteps_w c C _ _ _ S HI LS HW).
  - clear - S W1. induction S as [|n0 d d1 d2 H Hs IHs]; auto. apply IHs. destruct H as [|op p d' r H _|op p d' r H A];
      [exact W1|exact (proj2 (worm1_prop c _ _ _ _ _ H W1))|exact (proj1 (worm1_prop c _ _ _ _ _ H W1))].
Qed.
Lemma back_trans d1 d2 d3 : Inv c d1 -> back d1 d2 -> back d2 d3 -> back d1 d3.
Proof.
  intros HI (fv & fg & fw & A) (fv' & fg' & fw' & B). exists (fun x => fv' (fv x)), (fun x => fg' (fg x)), (fun x => fw' (fw x)).
  apply (alike_trans fv fg fw fv' fg' fw' d1 d2 d3); auto; intros x y Lx; apply live_exist in Lx; apply live_exist; eauto with inv.
Qed.
Lemma back_uext d e x : gamma d = 0 -> back d e -> back (s_uext d x) e.
Proof.
  intros G (fv & fg & fw & A). exists fv, fg, fw. destruct A. constructor; auto. intros X. destruct (X G).
Qed.

(** a step of one engine from [d] is a possible step from any [e] like [d] *)
Lemma trans_hop {E} (next : E -> Z * E) (s s' : @mstate NumR E) e : good c (md s) -> good c e -> back (md s) e -> Hop next c 1 s = Ok (tt, s') ->
  exists ws, Forall w32 ws /\ forall E' (next' : E' -> Z * E') (t : @mstate NumR E'), md t = e -> emits next' (mrng t) ws ->
    exists t', Hop next' c 1 t = Ok (tt, t') /\ back (md s') (md t') /\ good c (md t').
Proof.
  intros G GE B Q. pose proof (gd_I _ _ G) as HI.
  pose proof (hop1_step next c s C HI) as W. apply wp_ok in W as ([] & s2 & E2 & W). apply Hop1 in Q. rewrite Q in E2. injection E2 as <-.
  assert (N : (10 < Z.to_nat (nupd c))%nat) by (unfold nupd; destruct (c_gamma3 c); cbn; lia).
  destruct W as (_ & [(W & _)|(op & p & d' & r & s1 & P & _ & _ & Em & e0 & b & D1 & D2 & _)]).
  - rewrite W. apply (can_hop c 10 e (fun e' => back (md s) e' /\ good c e') N). apply nop_op. auto.
  - cbn [md s_mcount] in D2. rewrite D2. destruct b.
    + pose proof B as (fv & fg & fw & A).
      destruct (trans_prop fv fg fw (md s) e op p d' r G GE A P) as (k & Hk & Ck).
      { destruct (rleb (rofZ 1) p) eqn:L1; [now left|right]. destruct D1 as [D1 _].
        exists (u32 (fst (next e0))). split; [unfold u32; apply Z.mod_pos_bound; lia|]. symmetry. exact D1. }
      exact (can_hop c k e _ Hk Ck).
    + apply (can_hop c 10 e (fun e' => back r e' /\ good c e') N). apply nop_op. split; [|exact GE].
      destruct (rej_same c _ _ _ _ _ P) as [->|(Ga & x & ->)]; [exact B|]. now apply back_uext.
Qed.
End TransStep.

(** *** [alike] is symmetric *)
Definition finv (b : bundle) (f : nat -> nat) (y : nat) : nat :=
  match find (fun x => bexist b x && (f x =? y)%nat) (seq 0 MAX_BUNDLE) with Some x => x | None => O end.
Lemma finv_f b b' f x : bijection b b' f -> bexist b x = true -> finv b f (f x) = x.
Proof.
  intros (B1 & B2 & B3) Hx. unfold finv. destruct (find _ _) as [z|] eqn:E.
  - apply find_some in E as [_ E]. apply andb_prop in E as [E1 E2]. apply Nat.eqb_eq in E2. auto.
  - assert (X := find_none _ _ E x). cbv beta in X. rewrite Hx, Nat.eqb_refl in X. cbn [andb] in X.
    assert (I : In x (seq 0 MAX_BUNDLE)). { apply in_seq. unfold bexist in Hx. apply andb_prop in Hx as [Hx _]. apply Nat.ltb_lt in Hx. lia. }
    discriminate (X I).
Qed.
Lemma finv_bij b b' f : bijection b b' f -> bijection b' b (finv b f).
Proof.
  intros B. pose proof B as (B1 & B2 & B3). split; [|split].
  - intros y Hy. destruct (B3 y Hy) as (x & Hx & <-). now rewrite (finv_f b b').
  - intros y y' Hy Hy' E. destruct (B3 y Hy) as (x & Hx & <-), (B3 y' Hy') as (x' & Hx' & <-). rewrite !(finv_f b b') in E by auto. now rewrite E.
  - intros x Hx. exists (f x). split; auto. now apply (finv_f b b').
Qed.
Section Sym.
Context {N : Num} (c : @cfg N).
Lemma alike_sym fv fg fw (d e : @diagram N) : Inv c d -> alike fv fg fw d e ->
  alike (finv (vB d) fv) (finv (gB d) fg) (finv (wB d) fw) e d.
Proof.
  intros HI A. destruct A.
  assert (Fv : forall x, bexist (vB d) x = true -> finv (vB d) fv (fv x) = x) by (intros; eapply finv_f; eauto).
  assert (Fg : forall x, bexist (gB d) x = true -> finv (gB d) fg (fg x) = x) by (intros; eapply finv_f; eauto).
  assert (Fw : forall x, bexist (wB d) x = true -> finv (wB d) fw (fw x) = x) by (intros; eapply finv_f; eauto).
  assert (Lgv : forall g x, bexist (gB d) g = true -> bexist (vB d) (g_ver d g x) = true) by (intros g x L; apply live_exist in L; apply live_exist; eauto with inv).
  assert (Lwv : forall g x, bexist (wB d) g = true -> bexist (vB d) (w_ver d g x) = true) by (intros g x L; apply live_exist in L; apply live_exist; eauto with inv).
  assert (LvG : forall g x, bexist (vB d) g = true -> bexist (gB d) (v_G d g x) = true) by (intros g x L; apply live_exist in L; apply live_exist; eauto with inv).
  assert (LvW : forall g, bexist (vB d) g = true -> bexist (wB d) (v_W d g) = true) by (intros g L; apply live_exist in L; apply live_exist; eauto with inv).
  pose proof (proj2 (proj2 al_v)) as Sv. pose proof (proj2 (proj2 al_g)) as Sg. pose proof (proj2 (proj2 al_w)) as Sw.
  constructor; try (now apply finv_bij); try congruence.
  all: try (intros g x Hg; destruct (Sg g Hg) as (g0 & L0 & <-); rewrite Fg, al_gv, Fv by auto; reflexivity).
  all: try (intros g x Hg; destruct (Sw g Hg) as (g0 & L0 & <-); rewrite Fw, al_wv, Fv by auto; reflexivity).
  all: try (intros g x Hg; destruct (Sv g Hg) as (g0 & L0 & <-); rewrite Fv, al_vG, Fg by auto; reflexivity).
  all: try (intros g Hg; destruct (Sv g Hg) as (g0 & L0 & <-); rewrite Fv, al_vW, Fw by auto; reflexivity).
  all: try (intros g Hg; destruct (Sv g Hg) as (g0 & L0 & <-); rewrite Fv by auto; symmetry; auto; fail).
  all: try (intros g Hg; destruct (Sg g Hg) as (g0 & L0 & <-); rewrite Fg by auto; symmetry; auto; fail).
  all: try (intros g Hg; destruct (Sw g Hg) as (g0 & L0 & <-); rewrite Fw by auto; symmetry; auto; fail).
  all: try (intros k Hk; symmetry; auto; fail).
  all: try (intros O; assert (order d <> 0) by congruence; intros g Hg; destruct (Sv g Hg) as (g0 & L0 & <-); rewrite Fv by auto; symmetry; auto; fail).
  all: try (intros O; assert (order d <> 0) by congruence; intros g x Hg; destruct (Sv g Hg) as (g0 & L0 & <-); rewrite Fv by auto; symmetry; auto; fail).
  all: try (intros O; assert (order d <> 0) by congruence; intros g Hg; destruct (Sg g Hg) as (g0 & L0 & <-); rewrite Fg by auto; symmetry; auto; fail).
  all: try (intros O; assert (order d <> 0) by congruence; intros g Hg; destruct (Sw g Hg) as (g0 & L0 & <-); rewrite Fw by auto; symmetry; auto; fail).
  - intros X. assert (X2 : wm_ex d = true) by congruence. destruct (al_worm X2) as (-> & -> & -> & -> & ->).
    pose proof (i_worm _ _ HI) as WM. unfold Worm in WM. rewrite X2 in WM. destruct WM as (L1 & L2 & _). rewrite !Fv by (now apply live_exist). auto.
  - rewrite al_mG. pose proof (i_meas _ _ HI) as ME. unfold Meas in ME. destruct (measG d); rewrite al_meas; symmetry; [apply Fg|apply Fw]; apply live_exist; apply ME.
  - intros X. assert (X2 : gamma d <> 0) by congruence. destruct (al_ext X2) as (E1 & E2 & E3). rewrite E1, E2, E3.
    destruct (i_gam _ _ HI) as [(G0 & _)|[(_ & _ & _ & g & Lg & _ & V1 & V2 & _)|(_ & _ & _ & w & Lw & _ & _ & V1 & V2 & _)]]; [congruence| |];
      rewrite V1, V2; cbn [rename_slot]; apply live_exist in Lg || apply live_exist in Lw; rewrite ?Fg, ?Fw by auto; auto.
Qed.
End Sym.
