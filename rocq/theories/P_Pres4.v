(** The invariant is preserved by ChangeRLoop *)
From Coq Require Import ZArith List Bool Arith Lia ZifyBool.
From Verif Require Import Base Num RNG Momentum Complex Lattice Bundle IndexMap Weights Diagram Markov
  P_Momentum P_RNG P_Bundle P_Lattice P_IndexMap P_WP P_Inv P_Rel P_Sem1 P_Sem2 P_Sem3 P_Pres1 P_Pres2.
Import ListNotations.
Open Scope Z_scope.

Section Pres4.
Context {N : Num}.

Lemma fold_upd_in {A B} (k : B -> nat) (val : B -> A) L (y : A) x : forall f,
  (exists e, In e L /\ k e = x) -> (forall e, In e L -> k e = x -> val e = y) ->
  fold_left (fun f e => upd f (k e) (val e)) L f x = y.
Proof.
  induction L as [|e L IH]; intros f [e0 [He0 Ek]] Hy; [contradiction|].
  cbn [fold_left]. destruct (existsb (fun e => Nat.eqb (k e) x) L) eqn:EX.
  - apply existsb_exists in EX as [e1 [H1 H2]]. apply Nat.eqb_eq in H2. apply IH; eauto.
    intros e' He'. apply Hy. now right.
  - assert (NE : forall e', In e' L -> k e' <> x).
    { intros e' He' E. rewrite <- not_true_iff_false, existsb_exists in EX. apply EX. exists e'. split; auto. now apply Nat.eqb_eq. }
    destruct He0 as [->|He0]; [|exfalso; eapply NE; eauto].
    assert (G : forall L f, (forall e', In e' L -> k e' <> x) -> fold_left (fun f e => upd f (k e) (val e)) L f x = f x).
    { clear. induction L as [|e L IH]; intros f H; auto. cbn [fold_left]. rewrite IH by (intros; apply H; now right).
      apply upd_other. intros X. apply (H e); [now left|auto]. }
    rewrite G by auto. subst x. rewrite upd_same. apply Hy; auto. now left.
Qed.
Lemma fold_upd_out {A B} (k : B -> nat) (val : B -> A) x : forall L f,
  (forall e', In e' L -> k e' <> x) -> fold_left (fun f e => upd f (k e) (val e)) L f x = f x.
Proof.
  induction L as [|e L IH]; intros f H; auto. cbn [fold_left]. rewrite IH by (intros; apply H; now right).
  apply upd_other. intros X. apply (H e); [now left|auto].
Qed.

(** a finite set closed under an injection is closed under its inverse *)
Lemma closed_back (f : nat -> nat) vs : NoDup vs -> (forall x y, In x vs -> In y vs -> f x = f y -> x = y) ->
  (forall x, In x vs -> In (f x) vs) -> forall y, In y vs -> exists x, In x vs /\ f x = y.
Proof.
  intros ND Inj Cl y Hy.
  assert (ND' : NoDup (map f vs)) by (apply NoDup_map_inj; auto).
  assert (I : incl (map f vs) vs) by (intros z Hz; apply in_map_iff in Hz as [x [<- Hx]]; auto).
  assert (I' : incl vs (map f vs)) by (apply NoDup_length_incl; auto; now rewrite map_length).
  apply I' in Hy. apply in_map_iff in Hy as [x [E Hx]]. eauto.
Qed.

Lemma f_loop_back c d (HI : Inv c d) vs : NoDup vs -> (forall v, In v vs -> live (vB d) v) ->
  (forall v, In v vs -> In (g_ver d (v_G d v OUT) OUT) vs) ->
  forall x, live (gB d) x -> (In (g_ver d x IN) vs <-> In (g_ver d x OUT) vs).
Proof.
  intros ND Lvs Cl x Lx. pose proof (f_gvg HI x IN Lx) as E. cbn [inv] in E. split; intros H.
  - apply Cl in H. now rewrite E in H.
  - destruct (closed_back (fun v => g_ver d (v_G d v OUT) OUT) vs) with (y := g_ver d x OUT) as [v [Hv Ev]]; auto.
    + intros a b Ha Hb Eab. apply (f_gv_inj HI _ _ OUT) in Eab; eauto with inv. apply (f_vg_inj HI a b OUT); auto.
    + apply (f_gv_inj HI _ _ OUT) in Ev; eauto with inv. subst x. pose proof (f_vgv HI v OUT (Lvs v Hv)) as X. cbn [inv] in X.
      now rewrite X.
Qed.

Section L.
Context (c : cfg) (d : diagram) (C : cfg_ok c) (HI : Inv c d) (vs : list nat) (R : site) (L : list entry).
Context (ND : NoDup vs) (Lvs : forall v, In v vs -> live (vB d) v)
  (Cl : forall v, In v vs -> In (g_ver d (v_G d v OUT) OUT) vs) (HR : site_ok (c_lat c) R)
  (HL : map e_v L = vs) (HF : Forall (entry_ok c d R vs) L).
Let vr' := fold_left (fun f e => upd f (e_v e) R) L (v_R d).
Let gw' := fold_left (fun f e => upd f (e_g e) (e_gw e)) L (g_W d).
Let ww' := fold_left (fun f e => upd f (e_w e) (e_ww e)) L (w_W d).
Lemma loop_vr x : vr' x = if mem x vs then R else v_R d x.
Proof.
  unfold vr'. destruct (mem x vs) eqn:E.
  - apply mem_In in E. rewrite <- HL in E. apply in_map_iff in E as [e [<- He]].
    apply (fold_upd_in e_v (fun _ => R)); eauto.
  - apply (fold_upd_out e_v (fun _ => R)). intros e He E'. assert (In x vs) as Z by (rewrite <- HL, <- E'; now apply in_map).
    apply mem_In in Z. congruence.
Qed.
Lemma entry_of v : In v vs -> exists e, In e L /\ e_v e = v /\ entry_ok c d R vs e.
Proof.
  intros Hv. rewrite <- HL in Hv. apply in_map_iff in Hv as [e [E He]]. exists e. rewrite Forall_forall in HF. auto.
Qed.
Lemma entry_live e : In e L -> In (e_v e) vs /\ live (vB d) (e_v e) /\ entry_ok c d R vs e.
Proof.
  intros He. assert (In (e_v e) vs) by (rewrite <- HL; now apply in_map). rewrite Forall_forall in HF. auto.
Qed.
Lemma loop_sG : StoreG (c_tab c) (gB d) (g_ver d) vr' (v_T d) (v_S d) (g_meas d) (g_gg d) (uext d) gw'.
Proof.
  intros x Lx. rewrite !loop_vr. pose proof (f_loop_back c d HI vs ND Lvs Cl x Lx) as B.
  destruct (mem (g_ver d x IN) vs) eqn:E1.
  - apply mem_In in E1. pose proof (proj1 B E1) as E2. apply mem_In in E2. rewrite E2.
    destruct (entry_of _ E1) as (e & He & Ev & (Eg & Ew & HG & _)).
    assert (Ex : e_g e = x) by (rewrite Eg, Ev; apply (f_gvg HI x IN Lx)).
    assert (Egw : gw' x = e_gw e).
    { apply (fold_upd_in e_g e_gw); [eauto|]. intros e' He' Ek. destruct (entry_live e' He') as (I' & L' & (Eg' & _ & HG' & _)).
      assert (e_v e' = e_v e).
      { apply (f_vg_inj HI _ _ OUT); auto; [rewrite Ev; apply Lvs; auto|]. congruence. }
      assert (Ok (e_gw e') = Ok (e_gw e)) as Z by (rewrite <- HG, <- HG', Ek, Ex, H; reflexivity).
      congruence. }
    rewrite Egw. rewrite Ex, Ev in HG. exact HG.
  - assert (E2 : mem (g_ver d x OUT) vs = false).
    { destruct (mem (g_ver d x OUT) vs) eqn:E; auto. apply mem_In in E. apply B, mem_In in E. congruence. }
    rewrite E2. unfold gw'. rewrite (fold_upd_out e_g e_gw); [apply (i_sG _ _ HI); auto|].
    intros e He Ek. destruct (entry_live e He) as (I' & L' & (Eg' & _)).
    assert (g_ver d x IN = e_v e) as Z by (rewrite <- Ek, Eg'; apply (f_vgv HI _ OUT); auto).
    rewrite <- Z in I'. apply mem_In in I'. congruence.
Qed.
(** every entry on the interaction line [w] carries the weight of the moved line *)
Lemma entry_w e : In e L ->
  let w := e_w e in
  live (wB d) w /\ (w_ver d w IN = e_v e \/ w_ver d w OUT = e_v e) /\
  WWeight (c_tab c) (vr' (w_ver d w IN)) (vr' (w_ver d w OUT)) (v_T d (w_ver d w IN)) (v_T d (w_ver d w OUT))
    (v_S d (w_ver d w IN)) (v_S d (w_ver d w OUT)) (w_worm d w) (w_meas d w) (w_delta d w) (w_ww d w) (uext d) = Ok (e_ww e).
Proof.
  intros He. destruct (entry_live e He) as (I' & L' & (_ & Ew & _ & HW)). cbv zeta in *.
  destruct (f_two c d HI (e_v e) (e_w e) (w_ver d (e_w e) (inv (v_D d (e_v e)))) L' Ew eq_refl)
    as (Lw & LvW & NW & WW & DW & Hends & Wv & WvW).
  rewrite WWeightDir_eq in HW by eauto with inv. split; [auto|].
  assert (M : vr' (e_v e) = R) by (rewrite loop_vr; apply mem_In in I'; now rewrite I').
  rewrite <- loop_vr in HW.
  destruct (v_D d (e_v e)); cbn [inv] in *; (split; [auto|]); rewrite Wv, M; exact HW.
Qed.
Lemma loop_sW : StoreW (c_tab c) (wB d) (w_ver d) vr' (v_T d) (v_S d) (w_worm d) (w_meas d) (w_delta d) (w_ww d) (uext d) ww'.
Proof.
  intros x Lx. destruct (mem (w_ver d x IN) vs || mem (w_ver d x OUT) vs) eqn:E.
  - assert (exists v, In v vs /\ v_W d v = x) as (v & Hv & Ev).
    { apply orb_true_iff in E as [E|E]; apply mem_In in E; eexists; (split; [exact E|]); apply (f_wvw HI); auto. }
    destruct (entry_of v Hv) as (e & He & Eev & (_ & Ew & _)).
    assert (Ex : e_w e = x) by congruence.
    assert (Eww : ww' x = e_ww e).
    { apply (fold_upd_in e_w e_ww); [eauto|]. intros e' He' Ek. pose proof (entry_w e He) as (_ & _ & A).
      pose proof (entry_w e' He') as (_ & _ & B). rewrite Ek in B. rewrite Ex in A. congruence. }
    rewrite Eww. pose proof (entry_w e He) as (_ & _ & A). rewrite Ex in A. exact A.
  - apply orb_false_iff in E as [E1 E2]. rewrite !loop_vr, E1, E2. unfold ww'. rewrite (fold_upd_out e_w e_ww); [apply (i_sW _ _ HI); auto|].
    intros e He Ek. destruct (entry_live e He) as (I' & _). apply mem_In in I'. pose proof (entry_w e He) as (_ & [A|A] & _); rewrite Ek in A; congruence.
Qed.
End L.

Lemma loop_pres c d p d' r : cfg_ok c -> Inv c d -> loop_rel c d p d' r -> Inv c d'.
Proof.
  intros C HI H. destruct H as [v0 vs R L wr Ho Hex I0 ND Lvs Cl HR HL HF NDw Hcov Ewr].
  pose proof (loop_vr d vs R L HL) as VR.
  pres HI.
  - change (Loc (gB d) (g_ver d) (fold_left (fun f e => upd f (e_v e) R) L (v_R d))). intros x Lx. rewrite !VR.
    pose proof (f_loop_back c d HI vs ND Lvs Cl x Lx) as B.
    destruct (mem (g_ver d x IN) vs) eqn:E1, (mem (g_ver d x OUT) vs) eqn:E2; auto.
    + apply mem_In in E1. apply B, mem_In in E1. congruence.
    + apply mem_In in E2. apply B, mem_In in E2. congruence.
    + apply (i_loc _ _ HI); auto.
  - change (forall x, live (vB d) x -> site_ok (c_lat c) (fold_left (fun f e => upd f (e_v e) R) L (v_R d) x)).
    intros x Lx. rewrite VR. destruct (mem x vs); eauto with inv.
  - exact (loop_sG c d HI vs R L ND Lvs Cl HL HF).
  - exact (loop_sW c d HI vs R L Lvs HL HF).
Qed.
End Pres4.
