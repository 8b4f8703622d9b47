(** Every update has an inverse: from the proposed diagram the inverse update can propose the old one *)
From Coq Require Import ZArith List Bool Arith Lia ZifyBool Reals Lra.
From Verif Require Import Base Num NumR RNG Momentum Complex Lattice Bundle IndexMap Weights Diagram Markov DiagramIO History
  P_Momentum P_RNG P_Bundle P_Lattice P_IndexMap P_WP P_Inv P_Rel P_Sem1 P_Sem2 P_Sem3 P_Pres1 P_Pres2 P_Pres3 P_Pres4
  P_Hop P_Fix P_IO P_History P_IOProm P_Step P_Reach Alike P_Alike.
Import ListNotations.
Open Scope Z_scope.

Definition idn (x : nat) : nat := x.
Lemma keq a b : inrange a -> inrange b -> eqm (a - b) 0 -> a = b.
Proof. intros H1 H2 [q E]. apply eqm_inrange; auto. exists q. lia. Qed.
Lemma updZ_eq h k (x : bool) j : updZ h k x j = if Z.eq_dec j k then x else h j.
Proof. unfold updZ. destruct (Z.eqb_spec j k), (Z.eq_dec j k); congruence. Qed.

Ltac al0 := constructor; try (apply lbij_refl); try reflexivity; try (intros; reflexivity);
  try (intros _; repeat (split; [reflexivity|]); reflexivity).

Section Undo.
Context {N : Num} (c : cfg) (C : cfg_ok c).
Notation D := (@diagram N).

Lemma create_undo (d : D) p d' r : Inv c d -> create_rel c d p d' r ->
  exists p' d'', delete_rel c d' p' d'' d' /\ alike0 idn idn idn d d''.
Proof.
  intros HI H. pose proof (create_pres c d p d' r C HI H) as HI'.
  destruct H as [w vi vo kM kW ds wW Ho Hex Lw Evi Evo RkM EkW NkW HkW Hds Hcan HwW].
  match type of HI' with Inv c ?X => set (d' := X) in * end.
  assert (Lvi : live (vB d) vi) by (subst vi; eauto with inv).
  assert (Lvo : live (vB d) vo) by (subst vo; eauto with inv).
  assert (Di : v_D d vi = IN) by (subst vi; apply (f_wvd HI); auto).
  assert (Wi : v_W d vi = w) by (subst vi; apply (f_wvw HI); auto).
  assert (Wo : v_W d vo = w) by (subst vo; apply (f_wvw HI); auto).
  assert (RK : inrange (w_K d w)) by eauto with inv.
  destruct (ksub_spec (w_K d w) kM RK RkM) as [RkW EqW]. rewrite <- EkW in RkW, EqW.
  destruct (kscale_spec 1 kM) as [Rs Es]; [lia|auto|].
  destruct (kadd_spec kW (kscale 1 kM) RkW Rs) as [Rk Eqk].
  assert (EK : kadd kW (kscale 1 kM) = w_K d w) by (apply keq; auto; eqm_lin).
  destruct (WWeightDir_ok c (v_D d' (ira d')) (v_R d' (ira d')) (v_R d' (masha d')) (v_T d' (ira d')) (v_T d' (masha d'))
       (v_S d' (ira d')) (v_S d' (masha d')) false (w_meas d' w) (w_delta d' w) (w_ww d' w) (uext d') C) as (x & Ex).
  1-5: first [exact (f_delta HI w Lw) | exact (f_site HI _ Lvi) | exact (f_site HI _ Lvo) | exact (f_tau HI _ Lvi) | exact (f_tau HI _ Lvo)].
  { exact (f_ww HI w Lw). }
  eexists _, _. split.
  - apply (delete_i c d' w (w_K d w) x); try assumption; try reflexivity.
    + symmetry; exact Wi.
    + symmetry; exact Wo.
    + change (w_K d w = kadd (upd (w_K d) w kW w) (kscale (SIGN (v_D d vi)) kM)). rewrite upd_same, Di. symmetry. exact EK.
    + exact (i_hW0 _ _ HI w Lw).
    + change (updZ (updZ (whash d) (kabs (w_K d w)) false) (kabs kW) true (kabs (w_K d w)) = false).
      rewrite !updZ_eq. destruct (Z.eq_dec (kabs (w_K d w)) (kabs kW)) as [E|_].
      * pose proof (f_hw HI w Lw). congruence.
      * destruct (Z.eq_dec (kabs (w_K d w)) (kabs (w_K d w))); congruence.
  - al0.
    + intros x0 _. change (upd (upd (w_K d) w kW) w (w_K d w) x0 = w_K d x0). rewrite !upd_eq. destruct (Nat.eq_dec x0 w); congruence.
    + symmetry; exact Hex.
    + congruence.
Qed.

Ltac setd HI' := match type of HI' with Inv _ ?X => let d' := fresh "d'" in set (d' := X) in * end.
Ltac back x y := rewrite ?upd_eq; destruct (Nat.eq_dec x y); congruence.
Lemma hash_back (h : Z -> bool) k0 k : h k0 = true -> h k = false -> updZ (updZ h k0 false) k true k0 = false.
Proof.
  intros H0 H. rewrite !updZ_eq. destruct (Z.eq_dec k0 k) as [E|_]; [congruence|]. destruct (Z.eq_dec k0 k0); congruence.
Qed.

Lemma delete_undo (d : D) p d' r : Inv c d -> Mov d -> delete_rel c d p d' r ->
  exists p' d'', create_rel c d' p' d'' d' /\ alike0 idn idn idn d d''.
Proof.
  intros HI MV H. pose proof (delete_pres c d p d' r C HI H) as HI'.
  destruct H as [w k wW Ho Hex Ewi Ewm Ek Nk Hk HwW].
  setd HI'.
  destruct (f_wo HI Hex) as (Li & Lm & Nim & Dm & _ & Hds & RK & HW).
  assert (Lw : live (wB d) w) by (subst w; eauto with inv).
  assert (Di : v_D d (ira d) = IN).
  { destruct (v_D d (ira d)) eqn:D; auto. exfalso. apply Nim.
    pose proof (f_vwv HI _ Li) as A. pose proof (f_vwv HI _ Lm) as B. congruence. }
  rewrite Di in *. cbn [SIGN] in Ek.
  assert (Vi : w_ver d w IN = ira d) by (rewrite Ewi, <- Di; apply (f_vwv HI); auto).
  assert (Vm : w_ver d w OUT = masha d) by (rewrite Ewm, <- Dm; apply (f_vwv HI); auto).
  destruct (kscale_spec 1 (wm_K d)) as [Rs Es]; [lia|auto|].
  assert (RKw : inrange (w_K d w)) by eauto with inv.
  destruct (kadd_spec (w_K d w) (kscale 1 (wm_K d)) RKw Rs) as [Rk Eqk]. rewrite <- Ek in Rk, Eqk.
  destruct (ksub_spec k (wm_K d) Rk RK) as [Rk2 Eqk2].
  assert (EK : ksub k (wm_K d) = w_K d w) by (apply keq; auto; eqm_lin).
  destruct (WWeight_ok c (v_R d (ira d)) (v_R d (masha d)) (v_T d (ira d)) (v_T d (masha d))
       (v_S d (ira d)) (v_S d (masha d)) true (w_meas d w) (w_delta d w) (w_ww d w) (uext d) C) as (x & Ex); eauto with inv.
  { exact (f_ww HI w Lw). }
  eexists _, _. split.
  - apply (create_i c d' w (ira d) (masha d) (wm_K d) (w_K d w) (wm_ds d) x); try assumption; try reflexivity.
    + symmetry; exact Vi.
    + symmetry; exact Vm.
    + change (w_K d w = ksub (upd (w_K d) w k w) (wm_K d)). rewrite upd_same. symmetry. exact EK.
    + exact (i_hW0 _ _ HI w Lw).
    + exact (hash_back (whash d) _ _ (f_hw HI w Lw) Hk).
    + apply MV; congruence.
  - al0.
    + intros x0 _. change (upd (upd (w_K d) w k) w (w_K d w) x0 = w_K d x0). back x0 w.
    + symmetry; exact Hex.
Qed.

Lemma moveW_undo (d : D) p d' r : Inv c d -> moveW_rel c d p d' r ->
  exists p' d'', moveW_rel c d' p' d'' d' /\ alike0 idn idn idn d d''.
Proof.
  intros HI H. pose proof (moveW_pres c d p d' r C HI H) as HI'.
  destruct H as [v1 w v2 k wW Ho Hex E1 Ew Ev2 N21 N2m Ek Nk Hk HwW].
  setd HI'.
  destruct (f_wo HI Hex) as (Li & Lm & Nim & Dm & _ & Hds & RK & HW). rewrite <- E1 in *.
  destruct (f_two c d HI v1 w v2 Li Ew Ev2) as (Lw & Lv2 & NW & WW & DW & Hends & Wv1 & Wv2).
  assert (RKw : inrange (w_K d w)) by eauto with inv.
  destruct (kscale_spec (SIGN (v_D d v1)) (wm_K d)) as [Rs Es]; [destruct (v_D d v1); cbn; lia|auto|].
  destruct (kadd_spec _ _ RKw Rs) as [Rk Eqk]. rewrite <- Ek in Rk, Eqk.
  destruct (kscale_spec (SIGN (v_D d v2)) (wm_K d)) as [Rs2 Es2]; [destruct (v_D d v2); cbn; lia|auto|].
  destruct (kadd_spec _ _ Rk Rs2) as [Rk2 Eqk2].
  assert (EK : kadd k (kscale (SIGN (v_D d v2)) (wm_K d)) = w_K d w).
  { apply keq; auto. rewrite DW in *. destruct (v_D d v1); cbn [inv SIGN] in *; eqm_lin. }
  destruct (WWeightDir_ok c (v_D d v2) (v_R d v2) (v_R d v1) (v_T d v2) (v_T d v1)
       (v_S d v2) (v_S d v1) (w_worm d w) (w_meas d w) (w_delta d w) (w_ww d w) (uext d) C) as (x & Ex); eauto with inv.
  { exact (f_ww HI w Lw). }
  eexists _, _. split.
  - apply (moveW_i c d' v2 w v1 (w_K d w) x); try assumption; try reflexivity.
    + symmetry; exact WW.
    + change (v1 = w_ver d w (inv (v_D d v2))). rewrite DW, inv_inv. symmetry; exact Wv1.
    + congruence.
    + change (w_K d w = kadd (upd (w_K d) w k w) (kscale (SIGN (v_D d v2)) (wm_K d))). rewrite upd_same. symmetry. exact EK.
    + exact (i_hW0 _ _ HI w Lw).
    + exact (hash_back (whash d) _ _ (f_hw HI w Lw) Hk).
  - al0.
    + intros x0 _. change (upd (upd (w_K d) w k) w (w_K d w) x0 = w_K d x0). back x0 w.
    + intros _. split; [exact E1|]. repeat split.
Qed.

Lemma flip2 (f : dir -> spin) e x : flip_at (flip_at f e) e x = f x.
Proof. unfold flip_at. destruct (dir_eqb x e); [|reflexivity]. now destruct (f x). Qed.
Lemma moveG_undo (d : D) p d' r : Inv c d -> moveG_rel c d p d' r ->
  exists p' d'', moveG_rel c d' p' d'' d' /\ alike0 idn idn idn d d''.
Proof.
  intros HI H. pose proof (moveG_pres c d p d' r C HI H) as HI'.
  destruct H as [dr g v1 v2 k w1 vW1 w2 vW2 iw1 s1 s2 w1W w2W gW Ho Hex Ev1 Eg Ev2 N21 N2m Hcan Ek Hk
                 Ew1 EvW1 Ew2 EvW2 Eiw Es1 Es2 Hw1 Hw2 HgW].
  setd HI'.
  destruct (f_wo HI Hex) as (Li & Lm & Nim & Dm & _ & Hds & RK & HW). rewrite <- Ev1 in *.
  assert (Lg : live (gB d) g) by (subst g; eauto with inv).
  assert (Lv2 : live (vB d) v2) by (subst v2; eauto with inv).
  assert (RKg : inrange (g_K d g)) by eauto with inv.
  destruct (kscale_spec (SIGN dr) (wm_K d)) as [Rs Es]; [destruct dr; cbn; lia|auto|].
  destruct (ksub_spec _ _ RKg Rs) as [Rk Eqk]. rewrite <- Ek in Rk, Eqk.
  destruct (kscale_spec (SIGN (inv dr)) (wm_K d)) as [Rs2 Esc2]; [destruct dr; cbn; lia|auto|].
  destruct (ksub_spec _ _ Rk Rs2) as [Rk2 Eqk2].
  assert (EK : ksub k (kscale (SIGN (inv dr)) (wm_K d)) = g_K d g).
  { apply keq; auto. destruct dr; cbn [inv SIGN] in *; eqm_lin. }
  set (SS := v_S d').
  assert (ESS : SS = upd (upd (v_S d) v1 s1) v2 s2) by reflexivity.
  assert (S1 : SS v1 = s1) by (rewrite ESS, upd_other, upd_same by auto; reflexivity).
  assert (S2 : SS v2 = s2) by (rewrite ESS, upd_same; reflexivity).
  assert (Lx : forall x e, live (wB d) x -> live (vB d') (w_ver d' x e)) by (intros x e Lx; exact (f_wv HI x e Lx)).
  assert (Lw1 : live (wB d) w1) by (subst w1; eauto with inv). assert (Lw2 : live (wB d) w2) by (subst w2; eauto with inv).
  set (iw' := if Nat.eqb vW2 v1 then true else IsWorm d' vW2).
  assert (LvW1 : live (vB d) vW1) by (subst vW1; eauto with inv). assert (LvW2 : live (vB d) vW2) by (subst vW2; eauto with inv).
  destruct (WWeightDir_ok c (v_D d v2) (v_R d v2) (v_R d vW2) (v_T d v2) (v_T d vW2)
       (flip_at s2 (inv dr)) (SS vW2) iw' (w_meas d w2) (w_delta d w2) (w_ww d w2) (uext d) C) as (x2 & Ex2); eauto with inv.
  { exact (f_ww HI w2 Lw2). }
  destruct (WWeightDir_ok c (v_D d v1) (v_R d v1) (v_R d vW1) (v_T d v1) (v_T d vW1)
       (flip_at s1 dr) (SS vW1) true (w_meas d w1) (w_delta d w1) (w_ww d w1) (uext d) C) as (x1 & Ex1); eauto with inv.
  { exact (f_ww HI w1 Lw1). }
  destruct (GWeightDir_ok c (inv (inv dr)) (v_R d v2) (v_R d v1) (v_T d v2) (v_T d v1)
       (flip_at s2 (inv dr) (inv dr)) (flip_at s1 dr (inv (inv dr))) (g_meas d g) (g_gg d g) (uext d) C) as (xg & Exg); eauto with inv.
  { exact (f_gg HI g Lg). }
  eexists _, _. split.
  - apply (moveG_i c d' (inv dr) g v2 v1 (g_K d g) w2 vW2 w1 vW1 iw' (flip_at s2 (inv dr)) (flip_at s1 dr) x2 x1 xg); try assumption; try reflexivity.
    + subst v2. symmetry. exact (f_gvg HI g dr Lg).
    + rewrite Eg. symmetry. exact (f_vgv HI v1 dr Li).
    + congruence.
    + change (CanNotMoveG (wm_ds d) (SS (g_ver d g IN) OUT) (inv dr) = false).
      pose proof (i_spin _ _ HI g Lg) as SG. pose proof (f_vgv HI v1 dr Li) as EV. rewrite <- Eg in EV.
      destruct dr; cbn [inv] in *.
      * rewrite <- Ev2, S2, Es2. unfold flip_at. cbn [inv dir_eqb]. rewrite <- Ev2 in Hcan. revert Hcan.
        unfold CanNotMoveG. destruct Hds as [-> | ->]; cbn; destruct (v_S d v2 OUT); cbn; auto.
      * rewrite EV, S1, Es1. unfold flip_at. cbn [inv dir_eqb]. rewrite EV in Hcan. revert Hcan.
        unfold CanNotMoveG. destruct Hds as [-> | ->]; cbn; destruct (v_S d v1 OUT); cbn; auto.
    + change (g_K d g = ksub (upd (g_K d) g k g) (kscale (SIGN (inv dr)) (wm_K d))). rewrite upd_same. symmetry. exact EK.
    + exact (hash_back (ghash d) _ _ (f_hg HI g Lg) Hk).
    + change (flip_at s2 (inv dr) = flip_at (SS v2) (inv dr)). now rewrite S2.
    + change (flip_at s1 dr = flip_at (SS v1) (inv (inv dr))). now rewrite S1, inv_inv.
  - al0.
    + intros x0 _. change (upd (upd (g_K d) g k) g (g_K d g) x0 = g_K d x0). back x0 g.
    + intros _ x0 e _. change (upd (upd SS v2 (flip_at s2 (inv dr))) v1 (flip_at s1 dr) x0 e = v_S d x0 e).
      rewrite !upd_eq. destruct (Nat.eq_dec x0 v1) as [->|X1]; [rewrite Es1; apply flip2|].
      destruct (Nat.eq_dec x0 v2) as [->|X2]; [rewrite Es2; apply flip2|]. rewrite ESS, !upd_other by auto. reflexivity.
    + intros _. split; [exact Ev1|]. repeat split.
Qed.

(** every vertex time could have been drawn at the present inverse temperature *)
Definition Exact (d : D) : Prop := forall x, live (vB d) x -> tau_draw c (v_T d x).
Lemma tau_undo (d : D) p d' r : Inv c d -> Exact d -> tau_rel c d p d' r ->
  exists p' d'', tau_rel c d' p' d'' d' /\ alike0 idn idn idn d d''.
Proof.
  intros HI EX H. pose proof (tau_pres c d p d' r C HI H) as HI'.
  destruct H as [v w gi go vi vo vW t giW goW wW Ho Hex Lv Ew Hde Ht Egi Ego Hne Evi Evo EvW Hgi Hgo HwW].
  setd HI'.
  assert (Lw : live (wB d) w) by (subst w; eauto with inv).
  assert (Lgi : live (gB d) gi) by (subst gi; eauto with inv). assert (Lgo : live (gB d) go) by (subst go; eauto with inv).
  assert (Lvi : live (vB d) vi) by (subst vi; eauto with inv). assert (Lvo : live (vB d) vo) by (subst vo; eauto with inv).
  assert (LvW : live (vB d) vW) by (subst vW; eauto with inv).
  assert (TT : forall x, live (vB d) x -> tau_gen c (v_T d' x)) by (intros x Lx; exact (f_tau HI' x Lx)).
  destruct (GWeight_ok c (v_R d vi) (v_R d v) (v_T d' vi) (v_T d v) (v_S d vi OUT) (v_S d v IN) (g_meas d gi) (g_gg d gi) (uext d) C) as (x1 & X1); eauto with inv.
  { exact (f_gg HI gi Lgi). }
  destruct (GWeight_ok c (v_R d v) (v_R d vo) (v_T d v) (v_T d' vo) (v_S d v OUT) (v_S d vo IN) (g_meas d go) (g_gg d go) (uext d) C) as (x2 & X2); eauto with inv.
  { exact (f_gg HI go Lgo). }
  destruct (WWeightDir_ok c (v_D d v) (v_R d v) (v_R d vW) (v_T d v) (v_T d' vW) (v_S d v) (v_S d vW)
     (w_worm d w) (w_meas d w) (w_delta d w) (w_ww d w) (uext d) C) as (x3 & X3); eauto with inv.
  { exact (f_ww HI w Lw). }
  eexists _, _. split.
  - apply (tau_i c d' v w gi go vi vo vW (v_T d v) x1 x2 x3); try assumption; try reflexivity. now apply EX.
  - al0. intros _ x _. change (upd (upd (v_T d) v t) v (v_T d v) x = v_T d x). back x v.
Qed.

Definition DelEq (d : D) : Prop := forall w, live (wB d) w -> w_delta d w = true -> v_T d (w_ver d w OUT) = v_T d (w_ver d w IN).
Lemma delta_undo td (d : D) p d' r : Inv c d -> DelEq d -> Exact d -> delta_rel td c d p d' r ->
  exists p' d'', delta_rel (negb td) c d' p' d'' d' /\ alike0 idn idn idn d d''.
Proof.
  intros HI DE EX H. pose proof (delta_pres td c d p d' r C HI H) as HI'.
  destruct H as [w vi vo G1 G2 v1 v2 t wW W1 W2 Ho Hex Lw Hde Hme Hww Evi Evo EG1 EG2 HG Ev1 Ev2 Ht Htd HwW HW1 HW2].
  setd HI'.
  assert (Lvi : live (vB d) vi) by (subst vi; eauto with inv). assert (Lvo : live (vB d) vo) by (subst vo; eauto with inv).
  assert (Lg1 : live (gB d) G1) by (subst G1; eauto with inv). assert (Lg2 : live (gB d) G2) by (subst G2; eauto with inv).
  assert (Lv1 : live (vB d) v1) by (subst v1; eauto with inv). assert (Lv2 : live (vB d) v2) by (subst v2; eauto with inv).
  assert (TT : forall x, live (vB d) x -> tau_gen c (v_T d' x)) by (intros x Lx; exact (f_tau HI' x Lx)).
  assert (Nio : vi <> vo). { pose proof (f_wvd HI w IN Lw). pose proof (f_wvd HI w OUT Lw). congruence. }
  assert (Ti : v_T d' vi = v_T d vi) by (change (upd (v_T d) vo t vi = v_T d vi); now rewrite upd_other).
  destruct (WWeight_ok c (v_R d vi) (v_R d vo) (v_T d' vi) (v_T d vo) (v_S d vi) (v_S d vo)
     (w_worm d w) (w_meas d w) (negb td) (w_ww d w) (uext d) C) as (x3 & X3); eauto with inv.
  destruct (GWeight_ok c (v_R d v1) (v_R d vo) (v_T d' v1) (v_T d vo) (v_S d v1 OUT) (v_S d vo IN) (g_meas d G1) (g_gg d G1) (uext d) C) as (x1 & X1); eauto with inv.
  { exact (f_gg HI G1 Lg1). }
  destruct (GWeightDir_ok c OUT (v_R d v2) (v_R d vo) (v_T d' v2) (v_T d vo) (v_S d v2 IN) (v_S d vo OUT) (g_meas d G2) (g_gg d G2) (uext d) C) as (x2 & X2); eauto with inv.
  { exact (f_gg HI G2 Lg2). }
  eexists _, _. split.
  - apply (delta_i (negb td) c d' w vi vo G1 G2 v1 v2 (v_T d vo) x3 x1 x2); try assumption; try reflexivity.
    + change (upd (w_delta d) w td w = negb (negb td)). now rewrite upd_same, negb_involutive.
    + intros _. now apply EX.
    + intros E. rewrite Ti. subst vi vo. apply DE; auto. now rewrite Hde.
  - al0.
    + intros x _. change (upd (upd (w_delta d) w td) w (negb td) x = w_delta d x). back x w.
    + intros _ x _. change (upd (upd (v_T d) vo t) vo (v_T d vo) x = v_T d x). back x vo.
Qed.

Lemma g2w_undo (d : D) p d' r : Inv c d -> g2w_rel c d p d' r ->
  exists p' d'', w2g_rel c d' p' d'' d' /\ alike0 idn idn idn d d''.
Proof.
  intros HI H. pose proof (g2w_pres c d p d' r C HI H) as HI'.
  destruct H as [g w gW wW Ho Hex Hm Hga Lw Hde Eg HgW HwW]. setd HI'.
  pose proof (i_meas _ _ HI) as M. unfold Meas in M. rewrite Hm in M. destruct M as (Lg & Mg & Mw). rewrite <- Eg in *.
  destruct (GWeight_ok c (v_R d (g_ver d g IN)) (v_R d (g_ver d g OUT)) (v_T d (g_ver d g IN)) (v_T d (g_ver d g OUT))
       (v_S d (g_ver d g IN) OUT) (v_S d (g_ver d g IN) OUT) true false (uext d) C) as (x1 & X1); try discriminate; eauto with inv.
  destruct (WWeight_ok c (v_R d (w_ver d w IN)) (v_R d (w_ver d w OUT)) (v_T d (w_ver d w IN)) (v_T d (w_ver d w OUT))
       (v_S d (w_ver d w IN)) (v_S d (w_ver d w OUT)) (w_worm d w) false (w_delta d w) false (uext d) C) as (x2 & X2); try discriminate; eauto with inv.
  eexists _, _. split.
  - apply (w2g_i c d' g w x1 x2); try assumption; reflexivity.
  - al0.
    + intros x Lx. change (upd (upd (g_meas d) g false) g true x = g_meas d x). rewrite !upd_eq. destruct (Nat.eq_dec x g) as [->|n]; auto. symmetry. now apply Mg.
    + intros x Lx. change (upd (upd (w_meas d) w true) w false x = w_meas d x). rewrite !upd_eq. destruct (Nat.eq_dec x w) as [->|n]; auto. symmetry. now apply Mw.
    + symmetry; exact Hm.
Qed.
Lemma w2g_undo (d : D) p d' r : Inv c d -> w2g_rel c d p d' r ->
  exists p' d'', g2w_rel c d' p' d'' d' /\ alike0 idn idn idn d d''.
Proof.
  intros HI H. pose proof (w2g_pres c d p d' r C HI H) as HI'.
  destruct H as [g w gW wW Ho Hex Hm Hga Lg Hde Ew HgW HwW]. setd HI'.
  pose proof (i_meas _ _ HI) as M. unfold Meas in M. rewrite Hm in M. destruct M as (Lw & Mw & Mg). rewrite <- Ew in *.
  destruct (GWeight_ok c (v_R d (g_ver d g IN)) (v_R d (g_ver d g OUT)) (v_T d (g_ver d g IN)) (v_T d (g_ver d g OUT))
       (v_S d (g_ver d g IN) OUT) (v_S d (g_ver d g IN) OUT) false false (uext d) C) as (x1 & X1); try discriminate; eauto with inv.
  destruct (WWeight_ok c (v_R d (w_ver d w IN)) (v_R d (w_ver d w OUT)) (v_T d (w_ver d w IN)) (v_T d (w_ver d w OUT))
       (v_S d (w_ver d w IN)) (v_S d (w_ver d w OUT)) (w_worm d w) true (w_delta d w) false (uext d) C) as (x2 & X2); try discriminate; eauto with inv.
  eexists _, _. split.
  - apply (g2w_i c d' g w x1 x2); try assumption; reflexivity.
  - al0.
    + intros x Lx. change (upd (upd (g_meas d) g true) g false x = g_meas d x). rewrite !upd_eq. destruct (Nat.eq_dec x g) as [->|n]; auto. symmetry. now apply Mg.
    + intros x Lx. change (upd (upd (w_meas d) w false) w true x = w_meas d x). rewrite !upd_eq. destruct (Nat.eq_dec x w) as [->|n]; auto. symmetry. now apply Mw.
    + symmetry; exact Hm.
Qed.

Lemma toGG_undo (d : D) p d' r : Inv c d -> toGG_rel c d p d' r ->
  exists p' d'', fromGG_rel c d' p' d'' d' /\ alike0 idn idn idn d d''.
Proof.
  intros HI H. destruct H as [g t ext wt Ho Hex Hga H3 Lg Hm Ht Eext HW].
  set (d' := toGG_post g ext wt d).
  destruct (GWeight_ok c (v_R d (g_ver d g IN)) (v_R d (g_ver d g OUT)) (v_T d (g_ver d g IN)) (v_T d (g_ver d g OUT))
       (v_S d (g_ver d g IN) OUT) (v_S d (g_ver d g IN) OUT) false false ext C) as (x1 & X1); eauto with inv.
  eexists _, _. split.
  - apply (fromGG_i c d' g x1); try assumption; try reflexivity.
    + change (upd (g_gg d) g true g = true). now rewrite upd_same.
    + subst ext. reflexivity.
    + subst ext. reflexivity.
  - al0.
    + intros x Lx. change (upd (upd (g_gg d) g true) g false x = g_gg d x). rewrite !upd_eq. destruct (Nat.eq_dec x g) as [->|n]; auto.
      symmetry. apply (f_gg0 HI); auto.
    + symmetry. exact Hga.
    + intros X. destruct (X Hga).
Qed.
Lemma toWW_undo (d : D) p d' r : Inv c d -> toWW_rel c d p d' r ->
  exists p' d'', fromWW_rel c d' p' d'' d' /\ alike0 idn idn idn d d''.
Proof.
  intros HI H. destruct H as [w t x ext wt Ho Hex Hga H3 Lw Hm Hd Ht Hx Eext HW].
  set (d' := toWW_post w ext wt d).
  destruct (WWeight_ok c (v_R d (w_ver d w IN)) (v_R d (w_ver d w OUT)) (v_T d (w_ver d w IN)) (v_T d (w_ver d w OUT))
       (v_S d (w_ver d w IN)) (v_S d (w_ver d w OUT)) false false false false ext C) as (x1 & X1); eauto with inv.
  eexists _, _. split.
  - apply (fromWW_i c d' w x1); try assumption; try reflexivity.
    + change (upd (w_ww d) w true w = true). now rewrite upd_same.
    + subst ext. reflexivity.
  - al0.
    + intros y Ly. change (upd (upd (w_ww d) w true) w false y = w_ww d y). rewrite !upd_eq. destruct (Nat.eq_dec y w) as [->|n]; auto.
      symmetry. apply (f_ww0 HI); auto.
    + symmetry. exact Hga.
    + intros X. destruct (X Hga).
Qed.
Lemma ext_eta (e : extpt) : ex_S e = UP -> e = mkExt (ex_R e) (ex_T e) UP.
Proof. destruct e. cbn. now intros ->. Qed.
Lemma fromGG_undo (d : D) p d' r : Inv c d -> Ext c d -> c_gamma3 c = true -> fromGG_rel c d p d' r ->
  exists p' d'' r', toGG_rel c d' p' d'' r' /\ alike0 idn idn idn d d''.
Proof.
  intros HI EX G3 H. destruct H as [g wt Ho Hex Hga Lg Hm Hgg HS HR HW].
  set (d' := fromGG_post g wt d). destruct (EX ltac:(lia)) as (Et & Er).
  destruct (GWeight_ok c (v_R d (g_ver d g IN)) (v_R d (g_ver d g OUT)) (v_T d (g_ver d g IN)) (v_T d (g_ver d g OUT))
       (v_S d (g_ver d g IN) OUT) (v_S d (g_ver d g IN) OUT) false true (uext d) C) as (x1 & X1); eauto with inv.
  eexists _, _, _. split.
  - apply (toGG_i c d' g (ex_T (uext d)) (uext d) x1); try assumption; try reflexivity.
    change (uext d = mkExt (v_R d (g_ver d g IN)) (ex_T (uext d)) UP). rewrite HR. now apply ext_eta.
  - al0.
    + intros x Lx. change (upd (upd (g_gg d) g false) g true x = g_gg d x). rewrite !upd_eq. destruct (Nat.eq_dec x g) as [->|n]; auto.
    + symmetry. exact Hga.
Qed.
Lemma fromWW_undo (d : D) p d' r : Inv c d -> Ext c d -> c_gamma3 c = true -> fromWW_rel c d p d' r ->
  exists p' d'' r', toWW_rel c d' p' d'' r' /\ alike0 idn idn idn d d''.
Proof.
  intros HI EX G3 H. destruct H as [w wt Ho Hex Hga Lw Hm Hd Hww HS HW].
  set (d' := fromWW_post w wt d). destruct (EX ltac:(lia)) as (Et & Er).
  destruct (WWeight_ok c (v_R d (w_ver d w IN)) (v_R d (w_ver d w OUT)) (v_T d (w_ver d w IN)) (v_T d (w_ver d w OUT))
       (v_S d (w_ver d w IN)) (v_S d (w_ver d w OUT)) false false false true (uext d) C) as (x1 & X1); eauto with inv.
  eexists _, _, _. split.
  - apply (toWW_i c d' w (ex_T (uext d)) (ex_R (uext d)) (uext d) x1); try assumption; try reflexivity. now apply ext_eta.
  - al0.
    + intros x Lx. change (upd (upd (w_ww d) w false) w true x = w_ww d x). rewrite !upd_eq. destruct (Nat.eq_dec x w) as [->|n]; auto.
    + symmetry. exact Hga.
Qed.

(** the diagram with one W line *)
Lemma two_str (d : D) : Inv c d -> wm_ex d = false -> avail (wB d) = 1%nat ->
  let V1 := names (vB d) 0 in let V2 := names (vB d) 1 in
  live (vB d) V1 /\ live (vB d) V2 /\ V1 <> V2 /\ (forall x, live (vB d) x -> x = V1 \/ x = V2) /\
  g_ver d (v_G d V1 OUT) OUT = V2 /\ g_ver d (v_G d V2 OUT) OUT = V1.
Proof.
  intros HI Hex Aw V1 V2. destruct (i_cnt _ _ HI) as (AA & B & B' & D0 & D').
  assert (Av : avail (vB d) = 2%nat) by lia.
  pose proof (i_bv _ _ HI) as BV. pose proof (i_bw _ _ HI) as BW. pose proof (i_bg _ _ HI) as BG.
  destruct (bat_spec (vB d) 0 BV) as [_ L1]; [lia|]. destruct (bat_spec (vB d) 1 BV) as [_ L2]; [lia|].
  fold V1 in L1. fold V2 in L2.
  assert (N12 : V1 <> V2). { intros X. unfold V1, V2 in X. apply names_inj in X; auto; lia. }
  assert (Hv : forall x, live (vB d) x -> x = V1 \/ x = V2).
  { intros x [Hx Hn]. destruct (bi_nm _ BV x Hx) as [H1 H2]. rewrite Av in Hn.
    assert (nm (vB d) x = 0%nat \/ nm (vB d) x = 1%nat) as [E|E] by lia; rewrite E in H2; subst; auto. }
  assert (NT : forall x, live (vB d) x -> v_G d x IN <> v_G d x OUT).
  { intros x Lx. apply (f_notad HI); auto. rewrite Hex. discriminate. }
  split; [exact L1|]. split; [exact L2|]. split; [exact N12|]. split; [exact Hv|]. split.
  - destruct (Hv (g_ver d (v_G d V1 OUT) OUT)) as [E|E]; eauto with inv. exfalso. apply (NT V1 L1).
    rewrite <- E at 1. apply (f_gvg HI (v_G d V1 OUT) OUT); eauto with inv.
  - destruct (Hv (g_ver d (v_G d V2 OUT) OUT)) as [E|E]; eauto with inv. exfalso. apply (NT V2 L2).
    rewrite <- E at 1. apply (f_gvg HI (v_G d V2 OUT) OUT); eauto with inv.
Qed.

Lemma to0_undo (d : D) p d' r : Inv c d -> Exact d -> to0_rel c d p d' r ->
  exists p' d'', to1_rel c d' p' d'' d' /\ alike0 idn idn idn d d''.
Proof.
  intros HI EX H. destruct H as [o0 o1 Ho Hex Hga E0 E1].
  assert (Aw : avail (wB d) = 1%nat). { pose proof (i_cnt _ _ HI) as Q. unfold Cnt in Q. rewrite Ho in Q. lia. }
  destruct (two_str d HI Hex Aw) as (L1 & L2 & N12 & Hv & G1o & G2o).
  set (V1 := names (vB d) 0) in *. set (V2 := names (vB d) 1) in *. set (G1 := v_G d V1 OUT) in *. set (G2 := v_G d V2 OUT) in *.
  set (d' := to0_post c d).
  assert (LG1 : live (gB d) G1) by (unfold G1; eauto with inv). assert (LG2 : live (gB d) G2) by (unfold G2; eauto with inv).
  assert (G1i : g_ver d G1 IN = V1) by exact (f_vgv HI V1 OUT L1).
  assert (G2i : g_ver d G2 IN = V2) by exact (f_vgv HI V2 OUT L2).
  pose proof (i_spin _ _ HI G1 LG1) as S1. pose proof (i_spin _ _ HI G2 LG2) as S2. rewrite G1i, G1o in S1. rewrite G2i, G2o in S2.
  pose proof (i_loc _ _ HI G1 LG1) as R1. rewrite G1i, G1o in R1.
  set (W1 := v_W d V1).
  assert (LW1 : live (wB d) W1) by (unfold W1; eauto with inv).
  destruct (GWeight_ok c (v_R d V1) (v_R d V1) (v_T d V1) (v_T d V2) (v_S d V1 OUT) (v_S d V1 OUT) (g_meas d G1) false (uext d) C) as (x1 & X1); try discriminate; eauto with inv.
  destruct (GWeight_ok c (v_R d V1) (v_R d V1) (v_T d V2) (v_T d V1) (v_S d V2 OUT) (v_S d V2 OUT) (g_meas d G2) false (uext d) C) as (x2 & X2); try discriminate; eauto with inv.
  destruct (WWeightDir_ok c (v_D d V1) (v_R d V1) (v_R d V1) (v_T d V1) (v_T d V2) (mkspin (v_S d V2 OUT) (v_S d V1 OUT)) (mkspin (v_S d V1 OUT) (v_S d V2 OUT))
     false (w_meas d W1) (w_delta d W1) false (uext d) C) as (x3 & X3); try discriminate; eauto with inv.
  eexists _, _. split.
  - apply (to1_i c d' V1 V2 G1 G2 W1 (v_R d V1) (v_T d V1) (v_T d V2) (v_S d V1 OUT) (v_S d V2 OUT) x1 x2 x3 o0 o1); try assumption; try reflexivity; [exact (f_site HI V1 L1)|exact (EX V1 L1)|exact (EX V2 L2)].
  - al0.
    + symmetry. exact Ho.
    + intros _ x Lx. change (upd (upd (v_R d) V1 (v_R d V1)) V2 (v_R d V1) x = v_R d x). rewrite !upd_eq.
      destruct (Nat.eq_dec x V2); [congruence|]. destruct (Nat.eq_dec x V1); congruence.
    + intros _ x Lx. change (upd (upd (v_T d) V1 (v_T d V1)) V2 (v_T d V2) x = v_T d x). rewrite !upd_eq.
      destruct (Nat.eq_dec x V2); [congruence|]. destruct (Nat.eq_dec x V1); congruence.
    + intros _ x e Lx.
      change (upd (upd (v_S d) V1 (mkspin (v_S d V2 OUT) (v_S d V1 OUT))) V2 (mkspin (v_S d V1 OUT) (v_S d V2 OUT)) x e = v_S d x e). rewrite !upd_eq.
      destruct (Nat.eq_dec x V2) as [->|]; [|destruct (Nat.eq_dec x V1) as [->|]]; [| |reflexivity]; destruct e; cbn [mkspin]; congruence.
Qed.

Lemma to1_undo (d : D) p d' r : Inv c d -> to1_rel c d p d' r ->
  exists p' d'', to0_rel c d' p' d'' d' /\ alike0 idn idn idn d d''.
Proof.
  intros HI H.
  destruct H as [V1 V2 G1 G2 W1 R t1 t2 a b g1 g2 wW o0 o1 Ho Hex Hga HR Ht1 Ht2 EV1 EV2 EG1 EG2 EW1 Hg1 Hg2 HwW E0 E1].
  eexists _, _. split.
  - eapply (to0_i c _ o0 o1); try assumption; reflexivity.
  - al0; try (intros X; destruct (X Ho)); symmetry; exact Ho.
Qed.

Lemma bremove2_ok b x y : BInv b -> live b x -> live b y -> x <> y -> exists b1 b2, bremove b x = Ok b1 /\ bremove b1 y = Ok b2.
Proof.
  intros B Lx Ly Hn. destruct (bremove_spec b x B Lx) as (c1 & F1 & B1 & A1 & L1 & _).
  destruct (bremove_spec c1 y B1) as (c2 & F2 & B2 & A2 & L2 & _); [apply L1; auto|]. eauto.
Qed.

Lemma add_undo de (d : D) p d' r : Inv c d -> add_rel de c d p d' r ->
  exists p' d'', del_rel de c d' p' d'' d' /\ alike0 idn idn idn d d''.
Proof.
  intros HI H. pose proof (add_pres de c d p d' r C HI H) as HI'.
  destruct H as [I Ma dr dw GIC GMD kW kIA kMB kM vC vD tA tB sA sB wW gIA gMB gAC gBD o1 o0
    vA vB' GIA GMB WAB bv1 bv bg1 bg bw Hex Ho Hoc EI EMa RkW NkW HkW EGIC EGMD EkIA EkMB EkM HkIA HkMB NkAB
    HtA HtB Htd EsA EsB EvC EvD HwW HgIA HgMB HgAC HgBD Ho1 Ho0 Bv1 Bv Bg1 Bg Bw].
  setd HI'.
  destruct (f_wo HI Hex) as (Li & Lm & Nim & Dm & _ & Hds & RK & HW).
  destruct (f_cnt c d HI Ho) as (Ao & Ag & Av & Hoo). pose proof (co_order c C) as Hco.
  destruct (badd2_spec _ _ _ _ _ (i_bv _ _ HI) ltac:(lia) Bv1 Bv) as (BV & AV & NvAB & NvA & NvB & LV).
  destruct (badd2_spec _ _ _ _ _ (i_bg _ _ HI) ltac:(lia) Bg1 Bg) as (BG & AG & NgAB & NgA & NgB & LG).
  destruct (badd1_spec _ _ _ (i_bw _ _ HI) ltac:(lia) Bw) as (BW & AW & NwA & LW).
  rewrite <- EI, <- EMa in *.
  assert (LGIC : live (gB d) GIC) by (subst GIC; eauto with inv).
  assert (LGMD : live (gB d) GMD) by (subst GMD; eauto with inv).
  assert (NGCD : GIC <> GMD). { intros E. apply Nim. apply (f_vg_inj HI I Ma dr); auto. congruence. }
  assert (VI : g_ver d GIC (inv dr) = I) by (rewrite EGIC; apply (f_vgv HI); auto).
  assert (VM : g_ver d GMD (inv dr) = Ma) by (rewrite EGMD; apply (f_vgv HI); auto).
  assert (LvC : live (vB d) vC) by (subst vC; eauto with inv).
  assert (LvD : live (vB d) vD) by (subst vD; eauto with inv).
  assert (Nvx : forall x, live (vB d) x -> x <> vA /\ x <> vB') by (intros x Lx; split; intros ->; auto).
  assert (Ngx : forall x, live (gB d) x -> x <> GIA /\ x <> GMB) by (intros x Lx; split; intros ->; auto).
  assert (Nwx : forall x, live (wB d) x -> x <> WAB) by (intros x Lx ->; auto).
  destruct (Nvx I Li) as [NIA NIB]. destruct (Nvx Ma Lm) as [NMA NMB].
  destruct (Ngx GIC LGIC) as [NCA NCB]. destruct (Ngx GMD LGMD) as [NDA NDB].
  assert (LvA : live bv vA) by (apply LV; auto). assert (LvB : live bv vB') by (apply LV; auto).
  assert (LGIA : live bg GIA) by (apply LG; auto). assert (LGMB : live bg GMB) by (apply LG; auto).
  assert (LWAB : live bw WAB) by (apply LW; auto).
  assert (oV : forall x, live (vB d) x -> live bv x) by (intros; apply LV; auto).
  set (gv' := upd2 (upd2 (upd2 (upd2 (upd2 (upd2 (g_ver d) GIA (inv dr) I) GIA dr vA) GMB (inv dr) Ma) GMB dr vB')
       GIC (inv dr) vA) GMD (inv dr) vB').
  set (vg' := upd2 (upd2 (upd2 (upd2 (upd2 (upd2 (v_G d) vA dr GIC) vA (inv dr) GIA) vB' dr GMD) vB' (inv dr) GMB)
       I dr GIA) Ma dr GMB).
  assert (E1 : dir_eqb dr (inv dr) = false) by (destruct dr; auto).
  assert (E2 : dir_eqb (inv dr) dr = false) by (destruct dr; auto).
  assert (E3 : dir_eqb dr dr = true) by (destruct dr; auto).
  assert (E4 : dir_eqb (inv dr) (inv dr) = true) by (destruct dr; auto).
  assert (A2 : gv' GIA dr = vA) by (unfold gv'; rewrite !upd2_eq, ?E1, ?E2, ?E3, ?E4; decs).
  assert (B2 : gv' GMB dr = vB') by (unfold gv'; rewrite !upd2_eq, ?E1, ?E2, ?E3, ?E4; decs).
  assert (C2 : gv' GIC dr = vC) by (unfold gv'; rewrite !upd2_eq, ?E1, ?E2, ?E3, ?E4; decs).
  assert (D2 : gv' GMD dr = vD) by (unfold gv'; rewrite !upd2_eq, ?E1, ?E2, ?E3, ?E4; decs).
  assert (GO : forall x e, live (gB d) x -> upd2 (upd2 gv' GIC (inv dr) I) GMD (inv dr) Ma x e = g_ver d x e).
  { intros x e Lx. destruct (Ngx x Lx). unfold gv'; rewrite !upd2_eq. destruct (dir_eqb (inv dr) e) eqn:Ee.
    - assert (e = inv dr) by (destruct e, dr; cbn in Ee; auto; discriminate). subst e.
      destruct (Nat.eq_dec x GMD) as [->|]; [rewrite VM|]; [|destruct (Nat.eq_dec x GIC) as [->|]; [rewrite VI|]]; decs; rewrite ?E1, ?E2, ?E3, ?E4; auto.
    - decs; rewrite ?E1, ?E2, ?E3, ?E4, ?Ee; auto; destruct e, dr; cbn in *; congruence. }
  assert (VA1 : vg' vA dr = GIC) by (unfold vg'; rewrite !upd2_eq, ?E1, ?E2, ?E3, ?E4; decs).
  assert (VB1 : vg' vB' dr = GMD) by (unfold vg'; rewrite !upd2_eq, ?E1, ?E2, ?E3, ?E4; decs).
  assert (VI1 : vg' I dr = GIA) by (unfold vg'; rewrite !upd2_eq, ?E1, ?E2, ?E3, ?E4; decs).
  assert (VM1 : vg' Ma dr = GMB) by (unfold vg'; rewrite !upd2_eq, ?E1, ?E2, ?E3, ?E4; decs).
  assert (UA : forall X (f : nat -> X) a b, upd (upd f vA a) vB' b vA = a) by (intros; rewrite !upd_eq; decs).
  assert (UB : forall X (f : nat -> X) a b, upd (upd f vA a) vB' b vB' = b) by (intros; rewrite !upd_eq; decs).
  assert (UO : forall X (f : nat -> X) a b x, live (vB d) x -> upd (upd f vA a) vB' b x = f x).
  { intros X f a b x Lx. destruct (Nvx x Lx). rewrite !upd_eq; decs. }
  assert (QA : forall X (f : nat -> X) a b, upd (upd f GIA a) GMB b GIA = a) by (intros; rewrite !upd_eq; decs).
  assert (QB : forall X (f : nat -> X) a b, upd (upd f GIA a) GMB b GMB = b) by (intros; rewrite !upd_eq; decs).
  assert (QO : forall X (f : nat -> X) a b x, live (gB d) x -> upd (upd f GIA a) GMB b x = f x).
  { intros X f a b x Lx. destruct (Ngx x Lx). rewrite !upd_eq; decs. }
  assert (WO : forall X (f : nat -> X) a x, live (wB d) x -> upd f WAB a x = f x).
  { intros X f a x Lx. apply upd_other. auto. }
  assert (WVO : forall x e, live (wB d) x -> upd2 (upd2 (w_ver d) WAB dw vA) WAB (inv dw) vB' x e = w_ver d x e).
  { intros x e Lx. pose proof (Nwx x Lx). rewrite !upd2_eq. decs. }
  destruct (kscale_spec (SIGN dw) kW) as [Rs2 Es2]; [clear; destruct dw; cbn; lia|auto|].
  destruct (ksub_spec (wm_K d) (kscale (SIGN dw) kW)) as [RkM EqM]; [auto|auto|]. rewrite <- EkM in RkM, EqM.
  destruct (kadd_spec kM (kscale (SIGN dw) kW)) as [RkN EqN]; [auto|auto|].
  assert (EK : kadd kM (kscale (SIGN dw) kW) = wm_K d) by (apply keq; auto; eqm_lin).
  assert (DvA : v_D d' vA = dw) by (change (upd (upd (v_D d) vA dw) vB' (inv dw) vA = dw); apply UA).
  assert (KWA : w_K d' WAB = kW) by (change (upd (w_K d) WAB kW WAB = kW); apply upd_same).
  destruct (bremove2_ok bv vA vB' BV LvA LvB NvAB) as (rv1 & rv & Rv1 & Rv).
  destruct (bremove2_ok bg GIA GMB BG LGIA LGMB NgAB) as (rg1 & rg & Rg1 & Rg).
  destruct (bremove_spec bw WAB BW LWAB) as (rw & Rw & _ & _ & LRW & _).
  destruct (bremove2_spec _ _ _ _ _ BV LvA LvB NvAB Rv1 Rv) as (_ & _ & LRV).
  destruct (bremove2_spec _ _ _ _ _ BG LGIA LGMB NgAB Rg1 Rg) as (_ & _ & LRG).
  assert (TT : forall x, live bv x -> tau_gen c (v_T d' x)) by (intros x Lx; exact (f_tau HI' x Lx)).
  assert (SS : forall x, live bv x -> site_ok (c_lat c) (v_R d' x)) by (intros x Lx; exact (f_site HI' x Lx)).
  destruct (GWeightDir_ok c (inv dr) (v_R d' I) (v_R d' vC) (v_T d' I) (v_T d' vC) (v_S d' I dr) (v_S d' vC (inv dr)) (g_meas d' GIC) (g_gg d' GIC) (uext d) C) as (x1 & X1).
  1-4: first [apply SS | apply TT]; apply oV; assumption.
  { exact (f_gg HI' GIC (proj2 (LG GIC) (or_introl LGIC))). }
  destruct (GWeightDir_ok c (inv dr) (v_R d' Ma) (v_R d' vD) (v_T d' Ma) (v_T d' vD) (v_S d' Ma dr) (v_S d' vD (inv dr)) (g_meas d' GMD) (g_gg d' GMD) (uext d) C) as (x2 & X2).
  1-4: first [apply SS | apply TT]; apply oV; assumption.
  { exact (f_gg HI' GMD (proj2 (LG GMD) (or_introl LGMD))). }
  eexists _, _. split.
  - apply (del_i de c d' I Ma dr GIA GMB vA vB' WAB GIC GMD vC vD (wm_K d) x1 x2 o0 o1 rv1 rv rg1 rg rw); try assumption.
    + change (1 < order d + 1). lia.
    + symmetry. exact VI1.
    + symmetry. exact VM1.
    + apply QA.
    + apply QA.
    + apply QB.
    + apply QB.
    + symmetry. exact A2.
    + symmetry. exact B2.
    + change (upd (upd (v_S d) vA (mkspin sA sA)) vB' (mkspin sB sB) vA IN = upd (upd (v_S d) vA (mkspin sA sA)) vB' (mkspin sB sB) vA OUT). now rewrite UA.
    + change (upd (upd (v_S d) vA (mkspin sA sA)) vB' (mkspin sB sB) vB' IN = upd (upd (v_S d) vA (mkspin sA sA)) vB' (mkspin sB sB) vB' OUT). now rewrite UB.
    + symmetry. apply (UA _ (v_W d)).
    + symmetry. apply (UB _ (v_W d)).
    + apply (upd_same (w_meas d)).
    + apply (upd_same (w_worm d)).
    + apply (upd_same (w_delta d)).
    + apply (upd_same (w_ww d)).
    + symmetry. exact VA1.
    + symmetry. exact VB1.
    + symmetry. exact C2.
    + symmetry. exact D2.
    + rewrite DvA, KWA. symmetry. exact EK.
    + change (nth_error (c_orw c) (Z.to_nat (order d + 1 - 1)) = Some o0). now replace (order d + 1 - 1) with (order d) by lia.
  - al0.
    + apply lbij_id. intros x. change (live (vB d) x <-> live rv x). rewrite LRV, LV. split; [intros L; destruct (Nvx x L); auto|tauto].
    + apply lbij_id. intros x. change (live (gB d) x <-> live rg x). rewrite LRG, LG. split; [intros L; destruct (Ngx x L); auto|tauto].
    + apply lbij_id. intros x. change (live (wB d) x <-> live rw x). rewrite LRW, LW. split; [intros L; pose proof (Nwx x L); auto|tauto].
    + change (order d + 1 - 1 = order d). lia.
    + exact GO.
    + exact WVO.
    + exact (QO _ (g_K d) kIA kMB).
    + exact (QO _ (g_meas d) false false).
    + exact (QO _ (g_gg d) false false).
    + exact (WO _ (w_K d) kW).
    + exact (WO _ (w_meas d) false).
    + exact (WO _ (w_delta d) de).
    + exact (WO _ (w_ww d) false).
    + intros _. exact (UO _ (v_R d) _ _).
    + intros _. exact (UO _ (v_T d) _ _).
    + intros _ x e Lx. exact (f_equal (fun f => f e) (UO _ (v_S d) _ _ x Lx)).
Qed.

(** renaming of two slots, of one slot *)
Definition ren2 (a a1 b b1 : nat) (x : nat) : nat := if Nat.eq_dec x a then a1 else if Nat.eq_dec x b then b1 else x.
Definition ren1 (a a1 : nat) (x : nat) : nat := if Nat.eq_dec x a then a1 else x.
Lemma badd2_ok b : BInv b -> (avail b < 19)%nat -> exists a1 b1 a2 b2, badd b = Ok (a1, b1) /\ badd b1 = Ok (a2, b2).
Proof.
  intros B Ha. destruct (badd_spec b B) as (x1 & y1 & F1 & _ & _ & N1 & B1 & A1 & L1 & _); [lia|].
  destruct (badd_spec y1 B1) as (x2 & y2 & F2 & _); [lia|]. eauto 6.
Qed.
Section Ren.
Context (b b0 b2 : bundle) (x y x1 y1 : nat) (Lx : live b x) (Ly : live b y) (Nxy : x <> y) (N1 : x1 <> y1)
  (L0 : forall z, live b0 z <-> live b z /\ z <> x /\ z <> y)
  (L2 : forall z, live b2 z <-> live b0 z \/ z = x1 \/ z = y1) (F1 : ~ live b0 x1) (F2 : ~ live b0 y1).
Lemma ren2_x : ren2 x x1 y y1 x = x1. Proof. unfold ren2. destruct (Nat.eq_dec x x); congruence. Qed.
Lemma ren2_y : ren2 x x1 y y1 y = y1. Proof. unfold ren2. destruct (Nat.eq_dec y x), (Nat.eq_dec y y); congruence. Qed.
Lemma ren2_o z : z <> x -> z <> y -> ren2 x x1 y y1 z = z.
Proof. intros. unfold ren2. destruct (Nat.eq_dec z x), (Nat.eq_dec z y); congruence. Qed.
Lemma ren2_cases (Q : nat -> Prop) : Q x -> Q y -> (forall z, live b0 z -> z <> x -> z <> y -> z <> x1 -> z <> y1 -> Q z) -> forall z, live b z -> Q z.
Proof.
  intros Hx Hy Ho z Lz. destruct (Nat.eq_dec z x) as [->|Zx]; auto. destruct (Nat.eq_dec z y) as [->|Zy]; auto.
  assert (live b0 z) by (apply L0; auto). apply Ho; auto; intros ->; auto.
Qed.
Lemma ren2_lbij : lbij b b2 (ren2 x x1 y y1).
Proof.
  split; [|split].
  - apply (ren2_cases (fun z => live b2 (ren2 x x1 y y1 z))); rewrite ?ren2_x, ?ren2_y, ?L2; auto.
    intros z Lz Zx Zy _ _. rewrite ren2_o by auto. rewrite L2. auto.
  - intros z w Lz Lw. revert z Lz. apply (ren2_cases (fun z => ren2 x x1 y y1 z = ren2 x x1 y y1 w -> z = w)).
    + rewrite ren2_x. revert w Lw. apply (ren2_cases (fun w => x1 = ren2 x x1 y y1 w -> x = w)); rewrite ?ren2_x, ?ren2_y; try congruence.
      intros w Lw W1 W2 W3 W4. rewrite ren2_o; congruence.
    + rewrite ren2_y. revert w Lw. apply (ren2_cases (fun w => y1 = ren2 x x1 y y1 w -> y = w)); rewrite ?ren2_x, ?ren2_y; try congruence.
      intros w Lw W1 W2 W3 W4. rewrite ren2_o; congruence.
    + intros z Lz Z1 Z2 Z3 Z4. rewrite (ren2_o z) by auto. revert w Lw. apply (ren2_cases (fun w => z = ren2 x x1 y y1 w -> z = w)); rewrite ?ren2_x, ?ren2_y; try congruence.
      intros w Lw W1 W2 W3 W4. rewrite ren2_o; congruence.
  - intros z Lz. apply L2 in Lz as [Lz|[->| ->]].
    + destruct (proj1 (L0 z) Lz) as (A & B & E). exists z. split; auto. now apply ren2_o.
    + exists x. split; auto. apply ren2_x.
    + exists y. split; auto. apply ren2_y.
Qed.
Lemma ren2_upd {A} (f : nat -> A) a c' : a = f x -> c' = f y -> forall z, live b z -> upd (upd f x1 a) y1 c' (ren2 x x1 y y1 z) = f z.
Proof.
  intros Ea Ec. apply (ren2_cases (fun z => upd (upd f x1 a) y1 c' (ren2 x x1 y y1 z) = f z)); rewrite ?ren2_x, ?ren2_y.
  - rewrite upd_other, upd_same by auto. exact Ea.
  - rewrite upd_same. exact Ec.
  - intros z Lz Zx Zy Z1 Z2. rewrite ren2_o, !upd_other by auto. reflexivity.
Qed.
End Ren.
Section Ren1.
Context (b b0 b2 : bundle) (x x1 : nat) (Lx : live b x)
  (L0 : forall z, live b0 z <-> live b z /\ z <> x) (L2 : forall z, live b2 z <-> live b0 z \/ z = x1) (F1 : ~ live b0 x1).
Lemma ren1_x : ren1 x x1 x = x1. Proof. unfold ren1. destruct (Nat.eq_dec x x); congruence. Qed.
Lemma ren1_o z : z <> x -> ren1 x x1 z = z. Proof. intros. unfold ren1. destruct (Nat.eq_dec z x); congruence. Qed.
Lemma ren1_cases (Q : nat -> Prop) : Q x -> (forall z, live b0 z -> z <> x -> z <> x1 -> Q z) -> forall z, live b z -> Q z.
Proof.
  intros Hx Ho z Lz. destruct (Nat.eq_dec z x) as [->|Zx]; auto.
  assert (live b0 z) by (apply L0; auto). apply Ho; auto; intros ->; auto.
Qed.
Lemma ren1_lbij : lbij b b2 (ren1 x x1).
Proof.
  split; [|split].
  - apply (ren1_cases (fun z => live b2 (ren1 x x1 z))); rewrite ?ren1_x, ?L2; auto.
    intros z Lz Zx _. rewrite ren1_o by auto. rewrite L2. auto.
  - intros z w Lz Lw. revert z Lz. apply (ren1_cases (fun z => ren1 x x1 z = ren1 x x1 w -> z = w)).
    + rewrite ren1_x. revert w Lw. apply (ren1_cases (fun w => x1 = ren1 x x1 w -> x = w)); rewrite ?ren1_x; try congruence.
      intros w Lw W1 W2. rewrite ren1_o; congruence.
    + intros z Lz Z1 Z2. rewrite (ren1_o z) by auto. revert w Lw. apply (ren1_cases (fun w => z = ren1 x x1 w -> z = w)); rewrite ?ren1_x; try congruence.
      intros w Lw W1 W2. rewrite ren1_o; congruence.
  - intros z Lz. apply L2 in Lz as [Lz| ->].
    + destruct (proj1 (L0 z) Lz) as (A & B). exists z. split; auto. now apply ren1_o.
    + exists x. split; auto. apply ren1_x.
Qed.
Lemma ren1_upd {A} (f : nat -> A) a : a = f x -> forall z, live b z -> upd f x1 a (ren1 x x1 z) = f z.
Proof.
  intros Ea. apply (ren1_cases (fun z => upd f x1 a (ren1 x x1 z) = f z)); rewrite ?ren1_x.
  - rewrite upd_same. exact Ea.
  - intros z Lz Zx Z1. rewrite ren1_o, upd_other by auto. reflexivity.
Qed.
End Ren1.

Lemma del_undo de (d : D) p d' r : Inv c d -> DelEq d -> Exact d -> del_rel de c d p d' r ->
  exists p' d'' fv fg fw, add_rel de c d' p' d'' d' /\ alike0 fv fg fw d d''.
Proof.
  intros HI DE EX H. pose proof (del_pres de c d p d' r C HI H) as HI'.
  destruct H as [I Ma dr GIA GMB vA vB' wAB GAC GBD vC vD kM gIC gMD om o0 bv1 bv bg1 bg bw Hex Ho EI EMa EGIA EGMB
    MA GA MB GB EvA EvB SvA SvB EwA EwB Hme Hwo Hde Hww EGAC EGBD EvC EvD EkM HgIC HgMD Hom Ho0' Bv1 Bv Bg1 Bg Bw].
  setd HI'.
  destruct (f_wo HI Hex) as (Li & Lm & Nim & Dm & Ho0 & Hds & RK & HW).
  destruct (f_cnt c d HI Ho0) as (Ao & Ag & Av & Hoo). pose proof (co_order c C) as Hco.
  rewrite <- EI, <- EMa in *.
  assert (LGIA : live (gB d) GIA) by (subst GIA; eauto with inv).
  assert (LGMB : live (gB d) GMB) by (subst GMB; eauto with inv).
  assert (LvA : live (vB d) vA) by (subst vA; eauto with inv).
  assert (LvB : live (vB d) vB') by (subst vB'; eauto with inv).
  assert (LwAB : live (wB d) wAB) by (rewrite EwA; eauto with inv).
  assert (LGAC : live (gB d) GAC) by (subst GAC; eauto with inv).
  assert (LGBD : live (gB d) GBD) by (subst GBD; eauto with inv).
  assert (LvC : live (vB d) vC) by (subst vC; eauto with inv).
  assert (LvD : live (vB d) vD) by (subst vD; eauto with inv).
  assert (NIw : v_W d I <> wAB /\ v_W d Ma <> wAB).
  { split; intros E; rewrite (proj2 (HW wAB LwAB)) in Hwo; auto; discriminate. }
  destruct NIw as [NIw NMw].
  assert (NIA : I <> vA) by congruence. assert (NIB : I <> vB') by congruence.
  assert (NMA : Ma <> vA) by congruence. assert (NMB : Ma <> vB') by congruence.
  assert (NGAB : GIA <> GMB). { intros E. apply Nim. apply (f_vg_inj HI I Ma dr); auto. congruence. }
  assert (NvAB : vA <> vB'). { intros E. apply NGAB. apply (f_gv_inj HI GIA GMB dr); auto. congruence. }
  assert (VI : g_ver d GIA (inv dr) = I) by (rewrite EGIA; apply (f_vgv HI); auto).
  assert (VM : g_ver d GMB (inv dr) = Ma) by (rewrite EGMB; apply (f_vgv HI); auto).
  assert (VA : g_ver d GAC (inv dr) = vA) by (rewrite EGAC; apply (f_vgv HI); auto).
  assert (VB : g_ver d GBD (inv dr) = vB') by (rewrite EGBD; apply (f_vgv HI); auto).
  assert (GA' : v_G d vA (inv dr) = GIA) by (rewrite EvA; apply (f_gvg HI); auto).
  assert (GB' : v_G d vB' (inv dr) = GMB) by (rewrite EvB; apply (f_gvg HI); auto).
  assert (GC' : v_G d vC (inv dr) = GAC) by (rewrite EvC; apply (f_gvg HI); auto).
  assert (GD' : v_G d vD (inv dr) = GBD) by (rewrite EvD; apply (f_gvg HI); auto).
  assert (N1 : GAC <> GIA) by congruence. assert (N2 : GAC <> GMB) by congruence.
  assert (N3 : GBD <> GIA) by congruence. assert (N4 : GBD <> GMB) by congruence.
  assert (N5 : GAC <> GBD) by congruence.
  assert (N6 : vC <> vA) by congruence. assert (N7 : vC <> vB') by congruence.
  assert (N8 : vD <> vA) by congruence. assert (N9 : vD <> vB') by congruence.
  destruct (bremove2_spec _ _ _ _ _ (i_bv _ _ HI) LvA LvB NvAB Bv1 Bv) as (BV & AV & LV).
  destruct (bremove2_spec _ _ _ _ _ (i_bg _ _ HI) LGIA LGMB NGAB Bg1 Bg) as (BG & AG & LG).
  destruct (bremove1_spec _ _ _ (i_bw _ _ HI) LwAB Bw) as (BW & AW & LW).
  assert (P1 : (avail bv < 19)%nat) by (clear - AV Av Ao Hoo Hco; lia).
  assert (P2 : (avail bg < 19)%nat) by (clear - AG Ag Ao Hoo Hco; lia).
  assert (P3 : (avail bw < 20)%nat) by (clear - AW Ao Hoo Hco; lia).
  destruct (badd2_ok bv BV P1) as (vA1 & av1 & vB1 & av & Av1 & Av2).
  destruct (badd2_ok bg BG P2) as (GI1 & ag1 & GM1 & ag & Ag1 & Ag2).
  destruct (badd_spec bw BW) as (W1 & aw & Aw1 & _); [exact P3|].
  destruct (badd2_spec _ _ _ _ _ BV P1 Av1 Av2) as (BVn & AVn & NvAB1 & NvA1 & NvB1 & LVn).
  destruct (badd2_spec _ _ _ _ _ BG P2 Ag1 Ag2) as (BGn & AGn & NgAB1 & NgA1 & NgB1 & LGn).
  destruct (badd1_spec _ _ _ BW P3 Aw1) as (BWn & AWn & NwA1 & LWn).
  set (gv' := upd2 (upd2 (g_ver d) GAC (inv dr) I) GBD (inv dr) Ma).
  set (vg' := upd2 (upd2 (v_G d) I dr GAC) Ma dr GBD).
  assert (E1 : dir_eqb dr (inv dr) = false) by (destruct dr; auto).
  assert (E2 : dir_eqb (inv dr) dr = false) by (destruct dr; auto).
  assert (E3 : dir_eqb dr dr = true) by (destruct dr; auto).
  assert (E4 : dir_eqb (inv dr) (inv dr) = true) by (destruct dr; auto).
  assert (C1 : gv' GAC (inv dr) = I) by (unfold gv'; rewrite !upd2_eq, ?E1, ?E2, ?E3, ?E4; decs).
  assert (C2 : gv' GAC dr = vC) by (unfold gv'; rewrite !upd2_eq, ?E1, ?E2, ?E3, ?E4; decs).
  assert (D1 : gv' GBD (inv dr) = Ma) by (unfold gv'; rewrite !upd2_eq, ?E1, ?E2, ?E3, ?E4; decs).
  assert (D2 : gv' GBD dr = vD) by (unfold gv'; rewrite !upd2_eq, ?E1, ?E2, ?E3, ?E4; decs).
  assert (VI1 : vg' I dr = GAC) by (unfold vg'; rewrite !upd2_eq, ?E1, ?E2, ?E3, ?E4; decs).
  assert (VM1 : vg' Ma dr = GBD) by (unfold vg'; rewrite !upd2_eq, ?E1, ?E2, ?E3, ?E4; decs).
  assert (Hdir : forall e, e = dr \/ e = inv dr) by (intros e; destruct e, dr; auto).
  assert (Hg : forall x e, live (gB d) x -> x <> GIA -> x <> GMB -> x <> GAC -> x <> GBD ->
     g_ver d x e <> vA /\ g_ver d x e <> vB').
  { intros x e Lx X1 X2 X3 X4. pose proof (f_gvg HI x e Lx) as Y.
    split; intros Z; rewrite Z in Y; destruct (Hdir e) as [Ed|Ed]; rewrite Ed, ?inv_inv in Y; congruence. }
  set (dw := v_D d vA).
  assert (DB : v_D d vB' = inv dw).
  { unfold dw. pose proof (f_vwv HI vA LvA) as YA. pose proof (f_vwv HI vB' LvB) as YB.
    destruct (v_D d vA), (v_D d vB'); cbn [inv]; auto; exfalso; congruence. }
  assert (WvA : w_ver d wAB dw = vA) by (rewrite EwA; apply (f_vwv HI); auto).
  assert (WvB : w_ver d wAB (inv dw) = vB') by (rewrite EwB, <- DB; apply (f_vwv HI); auto).
  assert (LvC' : live bv vC) by (apply LV; auto). assert (LvD' : live bv vD) by (apply LV; auto).
  assert (Li' : live bv I) by (apply LV; auto). assert (Lm' : live bv Ma) by (apply LV; auto).
  assert (LGAC' : live bg GAC) by (apply LG; auto). assert (LGBD' : live bg GBD) by (apply LG; auto).
  (* momenta *)
  set (kW := w_K d wAB) in *.
  assert (RkW : inrange kW) by (unfold kW; eauto with inv).
  assert (Rsg : -3 <= SIGN dr * SIGN dw <= 3) by (clear; destruct dr, dw; cbn; lia).
  destruct (kscale_spec (SIGN dr * SIGN dw) kW Rsg RkW) as [Rs1 Es1].
  destruct (kscale_spec (SIGN dw) kW) as [Rs2 Es2]; [clear; destruct dw; cbn; lia|auto|].
  destruct (kadd_spec (wm_K d) (kscale (SIGN dw) kW)) as [RkM EqM]; [auto|auto|]. fold dw in EkM. rewrite <- EkM in RkM, EqM.
  destruct (ksub_spec kM (kscale (SIGN dw) kW)) as [RkN EqN]; [auto|auto|].
  destruct (ksub_spec (g_K d GAC) (kscale (SIGN dr * SIGN dw) kW)) as [RkIA EqIA]; [eauto with inv|auto|].
  destruct (kadd_spec (g_K d GBD) (kscale (SIGN dr * SIGN dw) kW)) as [RkMB EqMB]; [eauto with inv|auto|].
  assert (NWA : forall v, v <> I -> v <> Ma -> wterm (wm_ex d) I Ma (wm_K d) v = 0).
  { intros v V1 V2. unfold wterm. rewrite Hex. destruct (Nat.eqb_spec v I), (Nat.eqb_spec v Ma); congruence. }
  pose proof (i_K _ _ HI vA LvA) as KA. pose proof (i_K _ _ HI vB' LvB) as KB.
  rewrite <- EI, <- EMa, NWA in KA, KB by auto. rewrite <- EwA in KA. rewrite <- EwB, DB in KB. fold dw kW in KA, KB.
  assert (RA1 : inrange (g_K d GIA)) by eauto with inv. assert (RB1 : inrange (g_K d GMB)) by eauto with inv.
  assert (EKA : ksub (g_K d GAC) (kscale (SIGN dr * SIGN dw) kW) = g_K d GIA).
  { apply keq; auto. clear - EGAC GA' KA Es1 EqIA. destruct dr; cbn [inv] in *; rewrite <- EGAC, GA' in KA; destruct dw; cbn [SIGN inv] in *; eqm_lin. }
  assert (EKB : kadd (g_K d GBD) (kscale (SIGN dr * SIGN dw) kW) = g_K d GMB).
  { apply keq; auto. clear - EGBD GB' KB Es1 EqMB. destruct dr; cbn [inv] in *; rewrite <- EGBD, GB' in KB; destruct dw; cbn [SIGN inv] in *; eqm_lin. }
  assert (EKM : ksub kM (kscale (SIGN dw) kW) = wm_K d) by (apply keq; auto; clear - EqM EqN; eqm_lin).
  (* spins, sites *)
  assert (SA : v_S d vA OUT = v_S d' (g_ver d' GAC IN) OUT /\ v_S d vB' OUT = v_S d' (g_ver d' GBD IN) OUT).
  { change (v_S d vA OUT = v_S d (gv' GAC IN) OUT /\ v_S d vB' OUT = v_S d (gv' GBD IN) OUT).
    pose proof (i_spin _ _ HI _ LGIA) as S1. pose proof (i_spin _ _ HI _ LGAC) as S2.
    pose proof (i_spin _ _ HI _ LGMB) as S3. pose proof (i_spin _ _ HI _ LGBD) as S4.
    clear - S1 S2 S3 S4 SvA SvB VI VA VM VB EvA EvB EvC EvD C1 C2 D1 D2.
    destruct dr; cbn [inv] in *; rewrite ?C1, ?C2, ?D1, ?D2, ?VI, ?VA, ?VM, ?VB, <- ?EvA, <- ?EvB, <- ?EvC, <- ?EvD in *; split; congruence. }
  assert (RRR : v_R d vC = v_R d vA /\ v_R d vD = v_R d vB').
  { pose proof (i_loc _ _ HI _ LGAC) as S2. pose proof (i_loc _ _ HI _ LGBD) as S4.
    clear - S2 S4 VA VB EvC EvD. destruct dr; cbn [inv] in *; rewrite ?VA, ?VB, <- ?EvC, <- ?EvD in *; split; congruence. }
  destruct SA as [SA SB]. destruct RRR as [RA RB].
  set (sA := v_S d' (g_ver d' GAC IN) OUT) in *. set (sB := v_S d' (g_ver d' GBD IN) OUT) in *.
  assert (TT : forall x, live (vB d) x -> tau_gen c (v_T d x)) by (intros x Lx; exact (f_tau HI x Lx)).
  assert (SS : forall x, live (vB d) x -> site_ok (c_lat c) (v_R d x)) by (intros x Lx; exact (f_site HI x Lx)).
  destruct (WWeightDir_ok c dw (v_R d vC) (v_R d vD) (v_T d vA) (v_T d vB') (mkspin sA sA) (mkspin sB sB) false false de false (uext d) C) as (x0 & X0); try discriminate; auto.
  destruct (GWeightDir_ok c (inv dr) (v_R d I) (v_R d vC) (v_T d I) (v_T d vA) (v_S d I dr) sA false false (uext d) C) as (x1 & X1); try discriminate; auto.
  destruct (GWeightDir_ok c (inv dr) (v_R d Ma) (v_R d vD) (v_T d Ma) (v_T d vB') (v_S d Ma dr) sB false false (uext d) C) as (x2 & X2); try discriminate; auto.
  destruct (GWeightDir_ok c (inv dr) (v_R d vC) (v_R d vC) (v_T d vA) (v_T d vC) sA (v_S d vC (inv dr)) (g_meas d GAC) (g_gg d GAC) (uext d) C) as (x3 & X3); auto.
  { exact (f_gg HI GAC LGAC). }
  destruct (GWeightDir_ok c (inv dr) (v_R d vD) (v_R d vD) (v_T d vB') (v_T d vD) sB (v_S d vD (inv dr)) (g_meas d GBD) (g_gg d GBD) (uext d) C) as (x4 & X4); auto.
  { exact (f_gg HI GBD LGBD). }
  eexists _, _, (ren2 vA vA1 vB' vB1), (ren2 GIA GI1 GMB GM1), (ren1 wAB W1). split.
  - apply (add_i de c d' I Ma dr dw GAC GBD kW (g_K d GIA) (g_K d GMB) (wm_K d) vC vD (v_T d vA) (v_T d vB') sA sB x0 x1 x2 x3 x4 o0 om
      vA1 vB1 GI1 GM1 W1 av1 av ag1 ag aw); try assumption; try reflexivity.
    + change (order d - 1 <> 0). clear - Ho; lia.
    + change (order d - 1 < c_order c). clear - Hoo; lia.
    + exact (i_hW0 _ _ HI wAB LwAB).
    + change (updZ (whash d) (kabs kW) false (kabs kW) = false). rewrite updZ_eq. destruct (Z.eq_dec (kabs kW) (kabs kW)); congruence.
    + symmetry. exact VI1.
    + symmetry. exact VM1.
    + symmetry. exact EKA.
    + symmetry. exact EKB.
    + symmetry. exact EKM.
    + change (updZ (updZ (ghash d) (kindex (g_K d GIA)) false) (kindex (g_K d GMB)) false (kindex (g_K d GIA)) = false). rewrite !updZ_eq.
      destruct (Z.eq_dec (kindex (g_K d GIA)) (kindex (g_K d GMB))); auto. destruct (Z.eq_dec (kindex (g_K d GIA)) (kindex (g_K d GIA))); congruence.
    + change (updZ (updZ (ghash d) (kindex (g_K d GIA)) false) (kindex (g_K d GMB)) false (kindex (g_K d GMB)) = false). rewrite !updZ_eq.
      destruct (Z.eq_dec (kindex (g_K d GMB)) (kindex (g_K d GMB))); congruence.
    + apply (f_Kinj c d HI); auto.
    + auto.
    + auto.
    + intros E. rewrite <- WvA, <- WvB. pose proof (DE wAB LwAB (eq_trans Hde E)) as Q. destruct dw; cbn [inv]; auto.
    + symmetry. exact C2.
    + symmetry. exact D2.
    + change (nth_error (c_orw c) (Z.to_nat (order d - 1 + 1)) = Some o0). now replace (order d - 1 + 1) with (order d) by (clear; lia).
  - constructor; try reflexivity.
    + exact (ren2_lbij (vB d) bv av vA vB' vA1 vB1 LvA LvB NvAB NvAB1 LV LVn NvA1 NvB1).
    + exact (ren2_lbij (gB d) bg ag GIA GMB GI1 GM1 LGIA LGMB NGAB NgAB1 LG LGn NgA1 NgB1).
    + exact (ren1_lbij (wB d) bw aw wAB W1 LwAB LW LWn NwA1).
    + change (order d - 1 + 1 = order d). clear; lia.
    + intros g e Lg.
      change (upd2 (upd2 (upd2 (upd2 (upd2 (upd2 gv' GI1 (inv dr) I) GI1 dr vA1) GM1 (inv dr) Ma) GM1 dr vB1) GAC (inv dr) vA1) GBD (inv dr) vB1
        (ren2 GIA GI1 GMB GM1 g) e = ren2 vA vA1 vB' vB1 (g_ver d g e)).
      assert (M1 : GAC <> GI1 /\ GAC <> GM1 /\ GBD <> GI1 /\ GBD <> GM1) by (repeat split; congruence). destruct M1 as (M1 & M2 & M3 & M4).
      revert g Lg. apply (ren2_cases (gB d) bg GIA GMB GI1 GM1 LG NgA1 NgB1).
      * rewrite ren2_x. rewrite !upd2_eq. destruct (Hdir e) as [-> | ->].
        -- rewrite <- EvA, ren2_x, ?E1, ?E2, ?E3, ?E4. decs; auto.
        -- rewrite VI, ren2_o, ?E1, ?E2, ?E3, ?E4 by auto. decs; auto.
      * rewrite ren2_y by auto. rewrite !upd2_eq. destruct (Hdir e) as [-> | ->].
        -- rewrite <- EvB, ren2_y, ?E1, ?E2, ?E3, ?E4 by auto. decs; auto.
        -- rewrite VM, ren2_o, ?E1, ?E2, ?E3, ?E4 by auto. decs; auto.
      * intros g Lg Z1 Z2 Z3 Z4. rewrite (ren2_o GIA GMB GI1 GM1 NGAB g) by auto. rewrite !upd2_eq.
        destruct (Nat.eq_dec g GAC) as [->|Y1]; [|destruct (Nat.eq_dec g GBD) as [->|Y2]].
        -- destruct (Hdir e) as [-> | ->].
           ++ rewrite <- EvC, ren2_o, C2, ?E1, ?E2, ?E3, ?E4 by auto. decs; auto.
           ++ rewrite VA, ren2_x, ?E1, ?E2, ?E3, ?E4. decs; auto.
        -- destruct (Hdir e) as [-> | ->].
           ++ rewrite <- EvD, ren2_o, D2, ?E1, ?E2, ?E3, ?E4 by auto. decs; auto.
           ++ rewrite VB, ren2_y, ?E1, ?E2, ?E3, ?E4 by auto. decs; auto.
        -- apply LG in Lg. destruct (Hg g e (proj1 Lg) Z1 Z2 Y1 Y2) as [Q1 Q2]. rewrite ren2_o by auto.
           unfold gv'. rewrite !upd2_eq. decs; auto.
    + intros w e Lw.
      change (upd2 (upd2 (w_ver d) W1 dw vA1) W1 (inv dw) vB1 (ren1 wAB W1 w) e = ren2 vA vA1 vB' vB1 (w_ver d w e)).
      revert w Lw. apply (ren1_cases (wB d) bw wAB W1 LW NwA1).
      * rewrite ren1_x, !upd2_eq. assert (He : e = dw \/ e = inv dw) by (destruct e, dw; auto). destruct He as [-> | ->].
        -- rewrite WvA, ren2_x. decs; auto. destruct dw; auto.
        -- rewrite WvB, ren2_y by auto. decs; auto. destruct dw; auto.
      * intros w Lw Z1 Z2. rewrite ren1_o by auto. apply LW in Lw as [Lw _]. pose proof (f_wvw HI w e Lw) as Y.
        rewrite !upd2_eq, ren2_o by congruence. decs; auto.
    + exact (ren2_upd (gB d) bg GIA GMB GI1 GM1 NGAB NgAB1 LG NgA1 NgB1 (g_K d) _ _ eq_refl eq_refl).
    + exact (ren2_upd (gB d) bg GIA GMB GI1 GM1 NGAB NgAB1 LG NgA1 NgB1 (g_meas d) _ _ (eq_sym MA) (eq_sym MB)).
    + exact (ren2_upd (gB d) bg GIA GMB GI1 GM1 NGAB NgAB1 LG NgA1 NgB1 (g_gg d) _ _ (eq_sym GA) (eq_sym GB)).
    + exact (ren1_upd (wB d) bw wAB W1 LW NwA1 (w_K d) _ eq_refl).
    + exact (ren1_upd (wB d) bw wAB W1 LW NwA1 (w_meas d) _ (eq_sym Hme)).
    + exact (ren1_upd (wB d) bw wAB W1 LW NwA1 (w_delta d) _ (eq_sym Hde)).
    + exact (ren1_upd (wB d) bw wAB W1 LW NwA1 (w_ww d) _ (eq_sym Hww)).
    + intros _. exact (ren2_upd (vB d) bv vA vB' vA1 vB1 NvAB NvAB1 LV NvA1 NvB1 (v_R d) _ _ RA RB).
    + intros _. exact (ren2_upd (vB d) bv vA vB' vA1 vB1 NvAB NvAB1 LV NvA1 NvB1 (v_T d) _ _ eq_refl eq_refl).
    + intros _ x e Lx. change (upd (upd (v_S d) vA1 (mkspin sA sA)) vB1 (mkspin sB sB) (ren2 vA vA1 vB' vB1 x) e = v_S d x e).
      revert x Lx. apply (ren2_cases (vB d) bv vA vB' vA1 vB1 LV NvA1 NvB1).
      * rewrite ren2_x, upd_other, upd_same by auto. destruct e; cbn [mkspin]; congruence.
      * rewrite ren2_y, upd_same by auto. destruct e; cbn [mkspin]; congruence.
      * intros z Lz Z1 Z2 Z3 Z4. rewrite ren2_o, !upd_other by auto. reflexivity.
    + intros _. rewrite <- EI, <- EMa, !ren2_o by auto. split; [exact (eq_sym EI)|]. split; [exact (eq_sym EMa)|]. split; reflexivity.
Qed.
End Undo.

Section UndoR.
Context (c : @cfg NumR) (C : cfg_ok c).
Lemma reconnect_undo (d : @diagram NumR) p d' r : Inv c d -> reconnect_rel c d p d' r ->
  exists p' d'', reconnect_rel c d' p' d'' d' /\ alike0 idn idn idn d d''.
Proof.
  intros HI H. pose proof (reconnect_pres c d p d' r C HI H) as HI'.
  destruct H as [I Ma dr GIA GMB k vA vB' gi gm Ho Hex EI EMa ER EGIA EGMB ES Ek EvA EvB Hgi Hgm].
  match type of HI' with Inv _ ?X => set (d' := X) in * end.
  destruct (f_wo HI Hex) as (Li & Lm & Nim & Dm & _ & Hds & RK & HW). rewrite <- EI, <- EMa in *.
  assert (LGIA : live (gB d) GIA) by (subst GIA; eauto with inv).
  assert (LGMB : live (gB d) GMB) by (subst GMB; eauto with inv).
  assert (NGAB : GIA <> GMB). { intros E. apply Nim. apply (f_vg_inj HI I Ma dr); auto. congruence. }
  assert (VI : g_ver d GIA (inv dr) = I) by (rewrite EGIA; apply (f_vgv HI); auto).
  assert (VM : g_ver d GMB (inv dr) = Ma) by (rewrite EGMB; apply (f_vgv HI); auto).
  assert (LvA : live (vB d) vA) by (subst vA; eauto with inv). assert (LvB : live (vB d) vB') by (subst vB'; eauto with inv).
  assert (E1 : dir_eqb dr (inv dr) = false) by (destruct dr; auto).
  assert (E2 : dir_eqb (inv dr) dr = false) by (destruct dr; auto).
  assert (E3 : dir_eqb dr dr = true) by (destruct dr; auto).
  assert (E4 : dir_eqb (inv dr) (inv dr) = true) by (destruct dr; auto).
  set (gv' := upd2 (upd2 (g_ver d) GIA (inv dr) Ma) GMB (inv dr) I).
  set (vg' := upd2 (upd2 (v_G d) Ma dr GIA) I dr GMB).
  assert (A1 : gv' GIA (inv dr) = Ma) by (unfold gv'; rewrite !upd2_eq, ?E1, ?E2, ?E3, ?E4; decs).
  assert (A2 : gv' GIA dr = vA) by (unfold gv'; rewrite !upd2_eq, ?E1, ?E2, ?E3, ?E4; decs).
  assert (B1 : gv' GMB (inv dr) = I) by (unfold gv'; rewrite !upd2_eq, ?E1, ?E2, ?E3, ?E4; decs).
  assert (B2 : gv' GMB dr = vB') by (unfold gv'; rewrite !upd2_eq, ?E1, ?E2, ?E3, ?E4; decs).
  assert (VI1 : vg' I dr = GMB) by (unfold vg'; rewrite !upd2_eq, ?E1, ?E2, ?E3, ?E4; decs).
  assert (VM1 : vg' Ma dr = GIA) by (unfold vg'; rewrite !upd2_eq, ?E1, ?E2, ?E3, ?E4; decs).
  assert (RA : inrange (g_K d GIA)) by eauto with inv. assert (RB : inrange (g_K d GMB)) by eauto with inv.
  destruct (ksub_spec _ _ RB RA) as [R1 Q1]. destruct (ksub_spec _ _ RA RB) as [R2 Q2].
  destruct (kscale_spec (SIGN dr) _ ltac:(destruct dr; cbn; lia) R1) as [R3 Q3].
  destruct (kscale_spec (SIGN dr) _ ltac:(destruct dr; cbn; lia) R2) as [R4 Q4].
  destruct (kadd_spec _ _ RK R3) as [R5 Q5]. rewrite <- Ek in R5, Q5. destruct (kadd_spec _ _ R5 R4) as [R6 Q6].
  assert (EK : kadd k (kscale (SIGN dr) (ksub (g_K d GIA) (g_K d GMB))) = wm_K d).
  { apply keq; auto. clear - Q1 Q2 Q3 Q4 Q5 Q6. destruct dr; cbn [SIGN] in *; eqm_lin. }
  destruct (GWeightDir_ok c (inv dr) (v_R d Ma) (v_R d vB') (v_T d Ma) (v_T d vB') (v_S d Ma dr) (v_S d vB' (inv dr)) (g_meas d GMB) (g_gg d GMB) (uext d) C) as (x1 & X1); eauto with inv.
  { exact (f_gg HI GMB LGMB). }
  destruct (GWeightDir_ok c (inv dr) (v_R d I) (v_R d vA) (v_T d I) (v_T d vA) (v_S d I dr) (v_S d vA (inv dr)) (g_meas d GIA) (g_gg d GIA) (uext d) C) as (x2 & X2); eauto with inv.
  { exact (f_gg HI GIA LGIA). }
  eexists _, _. split.
  - apply (reconnect_i c d' I Ma dr GMB GIA (wm_K d) vB' vA x1 x2); try assumption; try reflexivity.
    + symmetry. exact VI1.
    + symmetry. exact VM1.
    + change (v_S d (gv' GMB IN) OUT = v_S d (gv' GIA IN) OUT). clear - ES A1 A2 B1 B2 VI VM EvA EvB.
      destruct dr; cbn [inv] in *; congruence.
    + symmetry. exact EK.
    + symmetry. exact B2.
    + symmetry. exact A2.
  - al0.
    + change (sfl d * -1 * -1 = sfl d)%R. ring.
    + intros g e _. change (upd2 (upd2 gv' GMB (inv dr) Ma) GIA (inv dr) I g e = g_ver d g e). unfold gv'. rewrite !upd2_eq.
      assert (He : e = dr \/ e = inv dr) by (destruct e, dr; auto). destruct He as [-> | ->]; rewrite ?E1, ?E2, ?E3, ?E4; decs; auto.
Qed.
End UndoR.
