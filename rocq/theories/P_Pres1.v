(** The invariant is preserved by the worm, measurement, time, delta, order-0 and vertex-correction updates *)
From Coq Require Import ZArith List Bool Arith Lia ZifyBool.
From Verif Require Import Base Num RNG Momentum Complex Lattice Bundle IndexMap Weights Diagram Markov
  P_Momentum P_RNG P_Bundle P_Lattice P_IndexMap P_WP P_Inv P_Rel P_Sem1.
Import ListNotations.
Open Scope Z_scope.

Lemma eqm0_mod x : x mod 20001 = 0 -> eqm x 0.
Proof. intros H. exists (x / 20001). unfold MODK, MAX_K. pose proof (Z.div_mod x 20001). lia. Qed.
(** linear arithmetic modulo the momentum ring *)
Ltac eqm_lin :=
  repeat match goal with H : eqm _ _ |- _ => destruct H as [? H] end; unfold MODK, MAX_K in *; apply eqm0_mod;
  repeat match goal with H : _ - _ = _ * _ |- _ => revert H end; clear; cbn [SIGN inv] in *; intros;
  Z.to_euclidean_division_equations; lia.

Ltac same HI := lazymatch goal with
  | |- BInv _ => first [exact (i_bg _ _ HI)|exact (i_bw _ _ HI)|exact (i_bv _ _ HI)]
  | |- Cnt _ _ _ _ _ => exact (i_cnt _ _ HI)
  | |- TopoG _ _ _ _ => exact (i_tG _ _ HI)
  | |- TopoW _ _ _ _ _ => exact (i_tW _ _ HI)
  | |- HT (2 * MAX_K) _ _ _ => exact (i_hG _ _ HI)
  | |- HT MAX_K _ _ _ => exact (i_hW _ _ HI)
  | |- KCons _ _ _ _ _ _ _ _ _ _ => exact (i_K _ _ HI)
  | |- SpinG _ _ _ => exact (i_spin _ _ HI)
  | |- SpinW _ _ _ _ _ _ _ _ => exact (i_cur _ _ HI)
  | |- Meas _ _ _ _ _ _ _ => exact (i_meas _ _ HI)
  | |- Worm _ _ _ _ _ _ _ _ _ _ _ => exact (i_worm _ _ HI)
  | |- Gam _ _ _ _ _ _ _ _ _ _ _ _ => exact (i_gam _ _ HI)
  | |- Delta _ _ _ => exact (i_delta _ _ HI)
  | |- Loc _ _ _ => exact (i_loc _ _ HI)
  | |- StoreG _ _ _ _ _ _ _ _ _ _ => exact (i_sG _ _ HI)
  | |- StoreW _ _ _ _ _ _ _ _ _ _ _ _ => exact (i_sW _ _ HI)
  | |- forall _, live _ _ -> _ <> 0 => exact (i_hW0 _ _ HI)
  | |- forall _, live _ _ -> site_ok _ _ => exact (i_site _ _ HI)
  | |- forall _, live _ _ -> tau_gen _ _ => exact (i_tau _ _ HI) end.
Ltac pres HI := constructor; try (same HI).
Ltac rsplit := repeat (split; [solve [auto]|]).
Ltac updc x y := rewrite ?upd_eq; destruct (Nat.eq_dec x y).

Section Pres1.
Context {N : Num}.

Lemma wterm_false i m k v : wterm false i m k v = 0.
Proof. reflexivity. Qed.
Lemma wterm_i i m k : wterm true i m k i = - k.
Proof. unfold wterm. now rewrite Nat.eqb_refl. Qed.
Lemma wterm_m i m k : i <> m -> wterm true i m k m = k.
Proof. intros H. unfold wterm. rewrite Nat.eqb_refl. apply not_eq_sym, Nat.eqb_neq in H. now rewrite H. Qed.
Lemma wterm_o b i m k v : (b = true -> v <> i /\ v <> m) -> wterm b i m k v = 0.
Proof. intros H. unfold wterm. destruct b; auto. destruct (H eq_refl) as [H1 H2]. apply Nat.eqb_neq in H1, H2. now rewrite H1, H2. Qed.
Lemma wterm_o' b i m k v : v <> i -> v <> m -> wterm b i m k v = 0.
Proof. intros. apply wterm_o. auto. Qed.

Lemma kabs_range k : inrange k -> 0 <= kabs k <= MAX_K.
Proof. unfold inrange, kabs. lia. Qed.

Lemma create_pres c d p d' r : cfg_ok c -> Inv c d -> create_rel c d p d' r -> Inv c d'.
Proof.
  intros C HI H. destruct H as [w vi vo kM kW ds wW Ho Hex Lw Evi Evo RkM EkW NkW HkW Hds Hcan HwW].
  assert (Lvi : live (vB d) vi) by (subst vi; eauto with inv).
  assert (Lvo : live (vB d) vo) by (subst vo; eauto with inv).
  assert (Di : v_D d vi = IN) by (subst vi; apply (f_wvd HI); auto).
  assert (Do : v_D d vo = OUT) by (subst vo; apply (f_wvd HI); auto).
  assert (Wi : v_W d vi = w) by (subst vi; apply (f_wvw HI); auto).
  assert (Wo : v_W d vo = w) by (subst vo; apply (f_wvw HI); auto).
  assert (Nio : vi <> vo) by congruence.
  destruct (ksub_spec (w_K d w) kM) as [RkW EqW]; [eauto with inv|auto|]. rewrite <- EkW in RkW, EqW.
  pres HI.
  - change (HT MAX_K (updZ (updZ (whash d) (kabs (w_K d w)) false) (kabs kW) true) (live (wB d))
      (fun x => kabs (upd (w_K d) w kW x))).
    apply (HT_replace _ _ _ _ (kabs kW) w _ (i_hW _ _ HI)); auto using kabs_range.
    + now rewrite upd_same.
    + intros x _ Hx. now rewrite upd_other.
  - change (forall x, live (wB d) x -> upd (w_K d) w kW x <> 0). intros x Lx.
    updc x w; auto. apply (i_hW0 _ _ HI); auto.
  - change (KCons (vB d) (v_G d) (v_W d) (v_D d) (g_K d) (upd (w_K d) w kW) true vi vo kM).
    intros v Lv. pose proof (i_K _ _ HI v Lv) as K. rewrite Hex, wterm_false in K.
    rewrite upd_eq. destruct (Nat.eq_dec (v_W d v) w) as [Ew|Ew].
    + assert (v = vi \/ v = vo) as [-> | ->].
      { pose proof (f_vwv HI v Lv) as A. rewrite Ew in A. destruct (v_D d v); subst; auto. }
      * rewrite wterm_i, Di in *. rewrite Wi in K. eqm_lin.
      * rewrite wterm_m, Do in * by auto. rewrite Wo in K. eqm_lin.
    + rewrite wterm_o'; [exact K|congruence|congruence].
  - change (SpinW (wB d) (w_ver d) (v_S d) (v_W d) true vi vo ds).
    intros x Lx. rewrite (i_cur _ _ HI x Lx), Hex, Wi, Wo. lia.
  - change (Worm true vi vo kM ds (order d) (vB d) (v_W d) (v_D d) (wB d) (upd (w_worm d) w true)).
    unfold Worm. rsplit. intros x Lx. split.
    + updc x w; [intros _; left; congruence|]. rewrite (f_nworm HI) by auto. discriminate.
    + rewrite Wi, Wo. intros [<-|<-]; now rewrite upd_same.
  - change (StoreW (c_tab c) (wB d) (w_ver d) (v_R d) (v_T d) (v_S d) (upd (w_worm d) w true) (w_meas d)
      (w_delta d) (w_ww d) (uext d) (upd (w_W d) w wW)).
    intros x Lx. updc x w; [subst; exact HwW|]. apply (i_sW _ _ HI); auto.
Qed.

Lemma delete_pres c d p d' r : cfg_ok c -> Inv c d -> delete_rel c d p d' r -> Inv c d'.
Proof.
  intros C HI H. destruct H as [w k wW Ho Hex Ewi Ewm Ek Nk Hk HwW].
  destruct (f_wo HI Hex) as (Li & Lm & Nim & Dm & _ & Hds & RK & HW).
  assert (Lw : live (wB d) w) by (subst w; eauto with inv).
  assert (Di : v_D d (ira d) = IN).
  { destruct (v_D d (ira d)) eqn:D; auto. exfalso. apply Nim.
    pose proof (f_vwv HI _ Li) as A. pose proof (f_vwv HI _ Lm) as B. congruence. }
  rewrite Di in *. cbn [SIGN] in Ek.
  assert (Vi : w_ver d w IN = ira d) by (rewrite Ewi, <- Di; apply (f_vwv HI); auto).
  assert (Vm : w_ver d w OUT = masha d) by (rewrite Ewm, <- Dm; apply (f_vwv HI); auto).
  rewrite WWeightDir_eq in HwW by eauto with inv.
  destruct (kscale_spec 1 (wm_K d)) as [Rs Es]; [lia|auto|].
  destruct (kadd_spec (w_K d w) (kscale 1 (wm_K d))) as [Rk Eqk]; [eauto with inv|auto|]. rewrite <- Ek in Rk, Eqk.
  pres HI.
  - change (HT MAX_K (updZ (updZ (whash d) (kabs (w_K d w)) false) (kabs k) true) (live (wB d))
      (fun x => kabs (upd (w_K d) w k x))).
    apply (HT_replace _ _ _ _ (kabs k) w _ (i_hW _ _ HI)); auto using kabs_range.
    + now rewrite upd_same.
    + intros x _ Hx. now rewrite upd_other.
  - change (forall x, live (wB d) x -> upd (w_K d) w k x <> 0). intros x Lx.
    updc x w; auto. apply (i_hW0 _ _ HI); auto.
  - change (KCons (vB d) (v_G d) (v_W d) (v_D d) (g_K d) (upd (w_K d) w k) false (ira d) (masha d) (wm_K d)).
    intros v Lv. pose proof (i_K _ _ HI v Lv) as K. rewrite Hex in K. rewrite wterm_false.
    rewrite upd_eq. destruct (Nat.eq_dec (v_W d v) w) as [Ew|Ew].
    + assert (v = ira d \/ v = masha d) as [-> | ->].
      { pose proof (f_vwv HI v Lv) as A. rewrite Ew in A. destruct (v_D d v); [left|right]; congruence. }
      * rewrite wterm_i, Di in *. rewrite Ew in K. eqm_lin.
      * rewrite wterm_m, Dm in * by auto. rewrite Ew in K. eqm_lin.
    + rewrite wterm_o' in K; [exact K|congruence|congruence].
  - change (SpinW (wB d) (w_ver d) (v_S d) (v_W d) false (ira d) (masha d) (wm_ds d)).
    intros x Lx. rewrite (i_cur _ _ HI x Lx), Hex, <- Ewi, <- Ewm. lia.
  - change (Worm false (ira d) (masha d) (wm_K d) (wm_ds d) (order d) (vB d) (v_W d) (v_D d) (wB d) (upd (w_worm d) w false)).
    intros x Lx. updc x w; [auto|]. destruct (w_worm d x) eqn:E; auto. apply HW in E; auto. destruct E; congruence.
  - change (StoreW (c_tab c) (wB d) (w_ver d) (v_R d) (v_T d) (v_S d) (upd (w_worm d) w false) (w_meas d)
      (w_delta d) (w_ww d) (uext d) (upd (w_W d) w wW)).
    intros x Lx. updc x w; [subst x; rewrite Vi, Vm; exact HwW|]. apply (i_sW _ _ HI); auto.
Qed.

(** [v] and [v2] are the ends of [w]; the weight of [w] seen from [v] *)
Lemma f_two c d (HI : Inv c d) v w v2 : live (vB d) v -> w = v_W d v -> v2 = w_ver d w (inv (v_D d v)) ->
  live (wB d) w /\ live (vB d) v2 /\ v2 <> v /\ v_W d v2 = w /\ v_D d v2 = inv (v_D d v) /\
  (forall u, live (vB d) u -> v_W d u = w -> u = v \/ u = v2) /\
  w_ver d w (v_D d v) = v /\ w_ver d w (inv (v_D d v)) = v2.
Proof.
  intros Lv -> ->. assert (Lw : live (wB d) (v_W d v)) by eauto with inv.
  split; [exact Lw|]. split; [apply (f_wv HI); auto|]. split; [|split; [|split; [|split; [|split]]]]; try reflexivity.
  - apply (f_other HI); auto.
  - apply (f_wvw HI); auto.
  - apply (f_wvd HI); auto.
  - intros u Lu Eu. pose proof (f_vwv HI u Lu) as A. rewrite Eu in A. pose proof (f_vwv HI v Lv) as B.
    destruct (v_D d u), (v_D d v); cbn [inv]; (left; congruence) || (right; congruence).
  - apply (f_vwv HI); auto.
Qed.

Lemma moveW_pres c d p d' r : cfg_ok c -> Inv c d -> moveW_rel c d p d' r -> Inv c d'.
Proof.
  intros C HI H. destruct H as [v1 w v2 k wW Ho Hex Ev1 Ew Ev2 N21 N2m Ek Nk Hk HwW].
  destruct (f_wo HI Hex) as (Li & Lm & Nim & Dm & _ & Hds & RK & HW).
  rewrite <- Ev1 in *.
  destruct (f_two c d HI v1 w v2 Li Ew Ev2) as (Lw & Lv2 & _ & W2 & D2 & Hends & Wv1 & Wv2).
  rewrite WWeightDir_eq in HwW by eauto with inv.
  destruct (kscale_spec (SIGN (v_D d v1)) (wm_K d)) as [Rs Es]; [destruct (v_D d v1); cbn; lia|auto|].
  destruct (kadd_spec (w_K d w) (kscale (SIGN (v_D d v1)) (wm_K d))) as [Rk Eqk]; [eauto with inv|auto|].
  rewrite <- Ek in Rk, Eqk.
  pres HI.
  - change (HT MAX_K (updZ (updZ (whash d) (kabs (w_K d w)) false) (kabs k) true) (live (wB d))
      (fun x => kabs (upd (w_K d) w k x))).
    apply (HT_replace _ _ _ _ (kabs k) w _ (i_hW _ _ HI)); auto using kabs_range.
    + now rewrite upd_same.
    + intros x _ Hx. now rewrite upd_other.
  - change (forall x, live (wB d) x -> upd (w_K d) w k x <> 0). intros x Lx.
    updc x w; auto. apply (i_hW0 _ _ HI); auto.
  - change (KCons (vB d) (v_G d) (v_W d) (v_D d) (g_K d) (upd (w_K d) w k) (wm_ex d) v2 (masha d) (wm_K d)).
    intros v Lv. pose proof (i_K _ _ HI v Lv) as K. rewrite Hex in *. rewrite <- Ev1 in K.
    rewrite upd_eq. destruct (Nat.eq_dec (v_W d v) w) as [E|E].
    + destruct (Hends v Lv E) as [-> | ->].
      * rewrite wterm_i in K. rewrite wterm_o' by auto. rewrite E in K. destruct (v_D d v1); eqm_lin.
      * rewrite wterm_o' in K by auto. rewrite wterm_i. rewrite E in K. rewrite D2 in *. destruct (v_D d v1); eqm_lin.
    + destruct (Nat.eq_dec v (masha d)) as [->|Nm].
      * rewrite wterm_m in * by auto. exact K.
      * rewrite wterm_o' in * by congruence. exact K.
  - change (SpinW (wB d) (w_ver d) (v_S d) (v_W d) (wm_ex d) v2 (masha d) (wm_ds d)).
    intros x Lx. rewrite (i_cur _ _ HI x Lx), <- Ev1, W2, <- Ew. reflexivity.
  - change (Worm (wm_ex d) v2 (masha d) (wm_K d) (wm_ds d) (order d) (vB d) (v_W d) (v_D d) (wB d) (w_worm d)).
    rewrite Hex. unfold Worm. rewrite W2, Ew. repeat (split; [solve [auto]|]). exact HW.
  - change (StoreW (c_tab c) (wB d) (w_ver d) (v_R d) (v_T d) (v_S d) (w_worm d) (w_meas d)
      (w_delta d) (w_ww d) (uext d) (upd (w_W d) w wW)).
    intros x Lx. updc x w; [subst x|apply (i_sW _ _ HI); auto].
    destruct (v_D d v1); cbn [inv] in *; rewrite Wv1, Wv2; exact HwW.
Qed.

(** changing the time of one vertex *)
Lemma time_sG c d (HI : Inv c d) v gi go vi vo t giW goW :
  live (vB d) v -> gi = v_G d v IN -> go = v_G d v OUT -> gi <> go -> vi = g_ver d gi IN -> vo = g_ver d go OUT ->
  GWeight (c_tab c) (v_R d vi) (v_R d v) (v_T d vi) t (v_S d vi OUT) (v_S d v IN)
       (g_meas d gi) (g_gg d gi) (uext d) = Ok giW ->
  GWeight (c_tab c) (v_R d v) (v_R d vo) t (v_T d vo) (v_S d v OUT) (v_S d vo IN)
       (g_meas d go) (g_gg d go) (uext d) = Ok goW ->
  StoreG (c_tab c) (gB d) (g_ver d) (v_R d) (upd (v_T d) v t) (v_S d) (g_meas d) (g_gg d) (uext d)
    (upd (upd (g_W d) gi giW) go goW).
Proof.
  intros Lv Egi Ego Hne Evi Evo Hgi Hgo x Lx.
  assert (Vi : g_ver d gi OUT = v) by (rewrite Egi; apply (f_vgv HI v IN); auto).
  assert (Vo : g_ver d go IN = v) by (rewrite Ego; apply (f_vgv HI v OUT); auto).
  assert (Lgi : live (gB d) gi) by (subst; eauto with inv).
  assert (Lgo : live (gB d) go) by (subst; eauto with inv).
  rewrite !upd_eq. destruct (Nat.eq_dec x go) as [->|N1]; [|destruct (Nat.eq_dec x gi) as [->|N2]].
  - rewrite Vo, <- Evo. destruct (Nat.eq_dec v v); [|congruence].
    destruct (Nat.eq_dec vo v) as [E|]; [|exact Hgo].
    exfalso. apply Hne. rewrite Egi, <- E, Evo. apply (f_gvg HI go OUT); auto.
  - rewrite Vi, <- Evi. destruct (Nat.eq_dec v v); [|congruence].
    destruct (Nat.eq_dec vi v) as [E|]; [|exact Hgi].
    exfalso. apply Hne. rewrite Ego, <- E, Evi. symmetry. apply (f_gvg HI gi IN); auto.
  - destruct (Nat.eq_dec (g_ver d x IN) v) as [E|_].
    { exfalso. apply N1. rewrite Ego, <- E. symmetry. apply (f_gvg HI x IN); auto. }
    destruct (Nat.eq_dec (g_ver d x OUT) v) as [E|_].
    { exfalso. apply N2. rewrite Egi, <- E. symmetry. apply (f_gvg HI x OUT); auto. }
    apply (i_sG _ _ HI); auto.
Qed.
Lemma time_sW c d (HI : Inv c d) v w vW t de wW : live (vB d) v -> w = v_W d v -> vW = w_ver d w (inv (v_D d v)) ->
  w_meas d w && de = false ->
  WWeightDir (c_tab c) (v_D d v) (v_R d v) (v_R d vW) t (v_T d vW) (v_S d v) (v_S d vW)
       (w_worm d w) (w_meas d w) de (w_ww d w) (uext d) = Ok wW ->
  StoreW (c_tab c) (wB d) (w_ver d) (v_R d) (upd (v_T d) v t) (v_S d) (w_worm d) (w_meas d) (upd (w_delta d) w de)
    (w_ww d) (uext d) (upd (w_W d) w wW).
Proof.
  intros Lv Ew EvW Hmd HwW x Lx.
  destruct (f_two c d HI v w vW Lv Ew EvW) as (Lw & LvW & NW & WW & DW & Hends & Wv & WvW).
  rewrite WWeightDir_eq in HwW by auto.
  rewrite !upd_eq. destruct (Nat.eq_dec x w) as [->|Nx].
  - destruct (v_D d v); cbn [inv] in *; rewrite Wv, WvW; destruct (Nat.eq_dec v v), (Nat.eq_dec vW v); try congruence; exact HwW.
  - destruct (Nat.eq_dec (w_ver d x IN) v) as [E|_].
    { exfalso. apply Nx. rewrite Ew, <- E. symmetry. apply (f_wvw HI); auto. }
    destruct (Nat.eq_dec (w_ver d x OUT) v) as [E|_].
    { exfalso. apply Nx. rewrite Ew, <- E. symmetry. apply (f_wvw HI); auto. }
    apply (i_sW _ _ HI); auto.
Qed.
Lemma upd_id {A} (f : nat -> A) k x : upd f k (f k) x = f x.
Proof. rewrite upd_eq. destruct (Nat.eq_dec x k); congruence. Qed.

Lemma tau_pres c d p d' r : cfg_ok c -> Inv c d -> tau_rel c d p d' r -> Inv c d'.
Proof.
  intros C HI H. destruct H as [v w gi go vi vo vW t giW goW wW Ho Hex Lv Ew Hde Ht Egi Ego Hne Evi Evo EvW Hgi Hgo HwW].
  assert (Lw : live (wB d) w) by (subst w; eauto with inv).
  pres HI.
  - change (forall x, live (vB d) x -> tau_gen c (upd (v_T d) v t x)). intros x Lx. updc x v; [now apply draw_gen|].
    apply (i_tau _ _ HI); auto.
  - change (StoreG (c_tab c) (gB d) (g_ver d) (v_R d) (upd (v_T d) v t) (v_S d) (g_meas d) (g_gg d) (uext d)
      (upd (upd (g_W d) gi giW) go goW)). eapply time_sG; eauto.
  - change (StoreW (c_tab c) (wB d) (w_ver d) (v_R d) (upd (v_T d) v t) (v_S d) (w_worm d) (w_meas d) (w_delta d)
      (w_ww d) (uext d) (upd (w_W d) w wW)).
    intros x Lx. rewrite <- (upd_id (w_delta d) w x). eapply time_sW; eauto with inv.
Qed.

Lemma delta_pres td c d p d' r : cfg_ok c -> Inv c d -> delta_rel td c d p d' r -> Inv c d'.
Proof.
  intros C HI H. destruct H as [w vi vo G1 G2 v1 v2 t wW W1 W2 Ho Hex Lw Hde Hme Hww Evi Evo EG1 EG2 HG Ev1 Ev2 Ht Htd HwW HW1 HW2].
  assert (Lvo : live (vB d) vo) by (subst vo; eauto with inv).
  assert (Do : v_D d vo = OUT) by (subst vo; apply (f_wvd HI); auto).
  assert (Wo : v_W d vo = w) by (subst vo; apply (f_wvw HI); auto).
  pres HI.
  - change (Gam (gamma d) (order d) (c_gamma3 c) (gB d) (g_meas d) (g_gg d) (wB d) (w_meas d) (upd (w_delta d) w td)
      (w_ww d) (vin d) (vout d)).
    destruct (i_gam _ _ HI) as [A|[A|(A1 & A2 & A3 & x & Lx & M & D & V1 & V2 & X & Y)]]; [left; exact A|right; left; exact A|].
    right. right. rsplit. exists x. split; [exact Lx|]. split; [exact M|]. split; [|rsplit; auto].
    updc x w; auto. subst x. rewrite (proj2 (X w Lw) eq_refl) in Hww. discriminate.
  - change (Delta (wB d) (upd (w_delta d) w td) (w_meas d)). intros x Lx. updc x w; [subst; now rewrite Hme|].
    apply (i_delta _ _ HI); auto.
  - change (forall x, live (vB d) x -> tau_gen c (upd (v_T d) vo t x)). intros x Lx. updc x vo.
    { destruct td; [rewrite (Htd eq_refl); subst vi; eauto with inv|apply draw_gen; auto]. }
    apply (i_tau _ _ HI); auto.
  - change (StoreG (c_tab c) (gB d) (g_ver d) (v_R d) (upd (v_T d) vo t) (v_S d) (g_meas d) (g_gg d) (uext d)
      (upd (upd (g_W d) G1 W1) G2 W2)). rewrite GWeightDir_eq in HW2. eapply time_sG; eauto.
  - change (StoreW (c_tab c) (wB d) (w_ver d) (v_R d) (upd (v_T d) vo t) (v_S d) (w_worm d) (w_meas d) (upd (w_delta d) w td)
      (w_ww d) (uext d) (upd (w_W d) w wW)).
    eapply time_sW; eauto; [now rewrite Hme|]. rewrite WWeightDir_eq by now rewrite Hme.
    rewrite Do. cbn [inv]. rewrite <- Evi. exact HwW.
Qed.

Lemma g2w_pres c d p d' r : cfg_ok c -> Inv c d -> g2w_rel c d p d' r -> Inv c d'.
Proof.
  intros C HI H. destruct H as [g w gW wW Ho Hex Hm Hga Lw Hde Eg HgW HwW].
  pose proof (i_meas _ _ HI) as M. unfold Meas in M. rewrite Hm, <- Eg in M. destruct M as (Lg & MG & MW).
  pres HI.
  - change (Meas false NULLP w (gB d) (upd (g_meas d) g false) (wB d) (upd (w_meas d) w true)).
    unfold Meas. rsplit. split.
    + intros x Lx. split; [|intros ->; apply upd_same]. updc x w; auto. rewrite MW by auto. discriminate.
    + intros x Lx. updc x g; auto. destruct (g_meas d x) eqn:E; auto. apply MG in E; auto. congruence.
  - change (Gam (gamma d) (order d) (c_gamma3 c) (gB d) (upd (g_meas d) g false) (g_gg d) (wB d) (upd (w_meas d) w true)
      (w_delta d) (w_ww d) (vin d) (vout d)).
    left. repeat split; auto; intros; [apply (f_gg0 HI)|apply (f_ww0 HI)]; auto.
  - change (Delta (wB d) (w_delta d) (upd (w_meas d) w true)). intros x Lx. updc x w; [subst; now rewrite Hde|].
    apply (i_delta _ _ HI); auto.
  - change (StoreG (c_tab c) (gB d) (g_ver d) (v_R d) (v_T d) (v_S d) (upd (g_meas d) g false) (g_gg d) (uext d)
      (upd (g_W d) g gW)).
    intros x Lx. updc x g; [|apply (i_sG _ _ HI); auto]. subst x.
    rewrite <- (i_spin _ _ HI g Lg), (f_gg0 HI g) by auto. exact HgW.
  - change (StoreW (c_tab c) (wB d) (w_ver d) (v_R d) (v_T d) (v_S d) (w_worm d) (upd (w_meas d) w true) (w_delta d)
      (w_ww d) (uext d) (upd (w_W d) w wW)).
    intros x Lx. updc x w; [|apply (i_sW _ _ HI); auto]. subst x. rewrite (f_ww0 HI w) by auto. exact HwW.
Qed.
Lemma w2g_pres c d p d' r : cfg_ok c -> Inv c d -> w2g_rel c d p d' r -> Inv c d'.
Proof.
  intros C HI H. destruct H as [g w gW wW Ho Hex Hm Hga Lg Hde Ew HgW HwW].
  pose proof (i_meas _ _ HI) as M. unfold Meas in M. rewrite Hm, <- Ew in M. destruct M as (Lw & MW & MG).
  pres HI.
  - change (Meas true g NULLP (gB d) (upd (g_meas d) g true) (wB d) (upd (w_meas d) w false)).
    unfold Meas. rsplit. split.
    + intros x Lx. split; [|intros ->; apply upd_same]. updc x g; auto. rewrite MG by auto. discriminate.
    + intros x Lx. updc x w; auto. destruct (w_meas d x) eqn:E; auto. apply MW in E; auto. congruence.
  - change (Gam (gamma d) (order d) (c_gamma3 c) (gB d) (upd (g_meas d) g true) (g_gg d) (wB d) (upd (w_meas d) w false)
      (w_delta d) (w_ww d) (vin d) (vout d)).
    left. repeat split; auto; intros; [apply (f_gg0 HI)|apply (f_ww0 HI)]; auto.
  - change (Delta (wB d) (w_delta d) (upd (w_meas d) w false)). intros x Lx. updc x w; [subst; now rewrite Hde|].
    apply (i_delta _ _ HI); auto.
  - change (StoreG (c_tab c) (gB d) (g_ver d) (v_R d) (v_T d) (v_S d) (upd (g_meas d) g true) (g_gg d) (uext d)
      (upd (g_W d) g gW)).
    intros x Lx. updc x g; [|apply (i_sG _ _ HI); auto]. subst x.
    rewrite <- (i_spin _ _ HI g Lg), (f_gg0 HI g) by auto. exact HgW.
  - change (StoreW (c_tab c) (wB d) (w_ver d) (v_R d) (v_T d) (v_S d) (w_worm d) (upd (w_meas d) w false) (w_delta d)
      (w_ww d) (uext d) (upd (w_W d) w wW)).
    intros x Lx. updc x w; [|apply (i_sW _ _ HI); auto]. subst x. rewrite (f_ww0 HI w) by auto. exact HwW.
Qed.

Lemma to0_pres c d p d' r : cfg_ok c -> Inv c d -> to0_rel c d p d' r -> Inv c d'.
Proof.
  intros C HI H. destruct H as [o0 o1 Ho Hex Hga E0 E1].
  pres HI.
  - change (Cnt (c_order c) 0 (avail (gB d)) (avail (wB d)) (avail (vB d))).
    destruct (i_cnt _ _ HI) as (A & B & B' & D & D'). rewrite Ho in A. unfold Cnt. lia.
  - change (Worm (wm_ex d) (ira d) (masha d) (wm_K d) (wm_ds d) 0 (vB d) (v_W d) (v_D d) (wB d) (w_worm d)).
    rewrite Hex. intros x Lx. apply (f_nworm HI); auto.
  - change (Gam (gamma d) 0 (c_gamma3 c) (gB d) (g_meas d) (g_gg d) (wB d) (w_meas d) (w_delta d) (w_ww d) (vin d) (vout d)).
    left. repeat split; auto; intros; [apply (f_gg0 HI)|apply (f_ww0 HI)]; auto.
Qed.

Lemma to1_pres c d p d' r : cfg_ok c -> Inv c d -> to1_rel c d p d' r -> Inv c d'.
Proof.
  intros C HI H. destruct H as [V1 V2 G1 G2 W1 R t1 t2 a b g1 g2 wW o0 o1 Ho Hex Hga HR Ht1 Ht2 EV1 EV2 EG1 EG2 EW1 Hg1 Hg2 HwW E0 E1].
  destruct (i_cnt _ _ HI) as (A & B & B' & D & D'). rewrite Ho in A.
  assert (Aw : avail (wB d) = 1%nat) by lia. assert (Av : avail (vB d) = 2%nat) by lia.
  pose proof (i_bv _ _ HI) as BV. pose proof (i_bw _ _ HI) as BW.
  destruct (bat_spec (vB d) 0 BV) as [_ L1]; [lia|]. destruct (bat_spec (vB d) 1 BV) as [_ L2]; [lia|].
  rewrite <- EV1 in L1. rewrite <- EV2 in L2.
  assert (N12 : V1 <> V2). { intros X. rewrite EV1, EV2 in X. apply names_inj in X; auto; lia. }
  assert (Hv : forall x, live (vB d) x -> x = V1 \/ x = V2).
  { intros x [Hx Hn]. destruct (bi_nm _ BV x Hx) as [H1 H2]. rewrite Av in Hn.
    assert (nm (vB d) x = 0%nat \/ nm (vB d) x = 1%nat) as [E|E] by lia; rewrite E in H2; subst; auto. }
  assert (Hw : forall x, live (wB d) x -> x = W1).
  { intros x [Hx Hn]. assert (LW1 : live (wB d) W1) by (subst W1; eauto with inv). destruct LW1 as [Hx' Hn'].
    apply (nm_inj (wB d)); auto. lia. }
  assert (LG1 : live (gB d) G1) by (subst G1; eauto with inv).
  assert (LG2 : live (gB d) G2) by (subst G2; eauto with inv).
  assert (NT : forall x, live (vB d) x -> v_G d x IN <> v_G d x OUT).
  { intros x Lx. apply (f_notad HI); auto. rewrite Hex. discriminate. }
  assert (G1i : g_ver d G1 IN = V1) by (rewrite EG1; apply (f_vgv HI V1 OUT); auto).
  assert (G2i : g_ver d G2 IN = V2) by (rewrite EG2; apply (f_vgv HI V2 OUT); auto).
  assert (G1o : g_ver d G1 OUT = V2).
  { destruct (Hv (g_ver d G1 OUT)) as [E|E]; eauto with inv. exfalso. apply (NT V1 L1).
    rewrite <- EG1, <- E. apply (f_gvg HI G1 OUT); auto. }
  assert (G2o : g_ver d G2 OUT = V1).
  { destruct (Hv (g_ver d G2 OUT)) as [E|E]; eauto with inv. exfalso. apply (NT V2 L2).
    rewrite <- EG2, <- E. apply (f_gvg HI G2 OUT); auto. }
  assert (NG : G1 <> G2) by (intros X; rewrite X in G1i; congruence).
  assert (Hg : forall x, live (gB d) x -> x = G1 \/ x = G2).
  { intros x Lx. destruct (Hv (g_ver d x IN)) as [E|E]; eauto with inv.
    - left. rewrite EG1, <- E. symmetry. apply (f_gvg HI x IN); auto.
    - right. rewrite EG2, <- E. symmetry. apply (f_gvg HI x IN); auto. }
  assert (HVs : forall X (f : nat -> X) p q, upd (upd f V1 p) V2 q V1 = p /\ upd (upd f V1 p) V2 q V2 = q).
  { intros X f x y. rewrite !upd_eq. destruct (Nat.eq_dec V1 V2), (Nat.eq_dec V1 V1), (Nat.eq_dec V2 V2); try congruence. auto. }
  pres HI.
  - change (Cnt (c_order c) 1 (avail (gB d)) (avail (wB d)) (avail (vB d))). unfold Cnt. lia.
  - change (SpinG (gB d) (g_ver d) (upd (upd (v_S d) V1 (mkspin b a)) V2 (mkspin a b))).
    intros x Lx. destruct (HVs _ (v_S d) (mkspin b a) (mkspin a b)) as [X1 X2].
    destruct (Hg x Lx) as [-> | ->]; rewrite ?G1i, ?G1o, ?G2i, ?G2o, X1, X2; reflexivity.
  - change (SpinW (wB d) (w_ver d) (upd (upd (v_S d) V1 (mkspin b a)) V2 (mkspin a b)) (v_W d) (wm_ex d) (ira d) (masha d) (wm_ds d)).
    intros x Lx. destruct (HVs _ (v_S d) (mkspin b a) (mkspin a b)) as [X1 X2]. rewrite Hex.
    pose proof (f_wends HI x Lx) as Ne.
    destruct (Hv (w_ver d x IN)) as [Ei|Ei]; eauto with inv; destruct (Hv (w_ver d x OUT)) as [Eo|Eo]; eauto with inv;
      try congruence; rewrite Ei, Eo, X1, X2; unfold cur, mkspin; lia.
  - change (Worm (wm_ex d) (ira d) (masha d) (wm_K d) (wm_ds d) 1 (vB d) (v_W d) (v_D d) (wB d) (w_worm d)).
    rewrite Hex. intros x Lx. apply (f_nworm HI); auto.
  - change (Gam (gamma d) 1 (c_gamma3 c) (gB d) (g_meas d) (g_gg d) (wB d) (w_meas d) (w_delta d) (w_ww d) (vin d) (vout d)).
    left. repeat split; auto; intros; [apply (f_gg0 HI)|apply (f_ww0 HI)]; auto.
  - change (Loc (gB d) (g_ver d) (upd (upd (v_R d) V1 R) V2 R)).
    intros x Lx. destruct (HVs _ (v_R d) R R) as [X1 X2].
    destruct (Hg x Lx) as [-> | ->]; rewrite ?G1i, ?G1o, ?G2i, ?G2o, X1, X2; reflexivity.
  - change (forall x, live (vB d) x -> site_ok (c_lat c) (upd (upd (v_R d) V1 R) V2 R x)).
    intros x Lx. destruct (HVs _ (v_R d) R R) as [X1 X2]. destruct (Hv x Lx) as [-> | ->]; rewrite ?X1, ?X2; auto.
  - change (forall x, live (vB d) x -> tau_gen c (upd (upd (v_T d) V1 t1) V2 t2 x)).
    intros x Lx. destruct (HVs _ (v_T d) t1 t2) as [X1 X2]. destruct (Hv x Lx) as [-> | ->]; rewrite ?X1, ?X2; now apply draw_gen.
  - change (StoreG (c_tab c) (gB d) (g_ver d) (upd (upd (v_R d) V1 R) V2 R) (upd (upd (v_T d) V1 t1) V2 t2)
      (upd (upd (v_S d) V1 (mkspin b a)) V2 (mkspin a b)) (g_meas d) (g_gg d) (uext d) (upd (upd (g_W d) G1 g1) G2 g2)).
    intros x Lx. destruct (HVs _ (v_S d) (mkspin b a) (mkspin a b)) as [X1 X2]. destruct (HVs _ (v_R d) R R) as [X3 X4].
    destruct (HVs _ (v_T d) t1 t2) as [X5 X6].
    rewrite (f_gg0 HI x) by auto.
    destruct (Hg x Lx) as [-> | ->]; rewrite ?G1i, ?G1o, ?G2i, ?G2o, X1, X2, X3, X4, X5, X6; rewrite !upd_eq;
      [destruct (Nat.eq_dec G1 G2), (Nat.eq_dec G1 G1)|destruct (Nat.eq_dec G2 G2)]; try congruence; auto.
  - change (StoreW (c_tab c) (wB d) (w_ver d) (upd (upd (v_R d) V1 R) V2 R) (upd (upd (v_T d) V1 t1) V2 t2)
      (upd (upd (v_S d) V1 (mkspin b a)) V2 (mkspin a b)) (w_worm d) (w_meas d) (w_delta d) (w_ww d) (uext d) (upd (w_W d) W1 wW)).
    intros x Lx. destruct (HVs _ (v_S d) (mkspin b a) (mkspin a b)) as [X1 X2]. destruct (HVs _ (v_R d) R R) as [X3 X4].
    destruct (HVs _ (v_T d) t1 t2) as [X5 X6].
    rewrite (f_ww0 HI x), (f_nworm HI x) by auto. pose proof (Hw x Lx) as Ex; rewrite Ex in Lx |- *; clear x Ex. rewrite upd_same.
    pose proof (f_vwv HI V1 L1) as Y1. rewrite <- EW1 in Y1.
    assert (Y2 : w_ver d W1 (inv (v_D d V1)) = V2).
    { destruct (Hv (w_ver d W1 (inv (v_D d V1)))) as [E|E]; eauto with inv.
      exfalso. pose proof (f_other HI V1 L1) as O. rewrite <- EW1 in O. congruence. }
    rewrite WWeightDir_eq in HwW by eauto with inv.
    destruct (v_D d V1); cbn [inv] in *; rewrite Y1, Y2, X1, X2, X3, X4, X5, X6; exact HwW.
Qed.

(** the external point does not matter outside the vertex-correction sectors *)
Lemma uext_pres c d ext : Inv c d -> gamma d = 0 -> Inv c (s_uext d ext).
Proof.
  intros HI Hga. pres HI.
  - change (StoreG (c_tab c) (gB d) (g_ver d) (v_R d) (v_T d) (v_S d) (g_meas d) (g_gg d) ext (g_W d)).
    intros x Lx. pose proof (i_sG _ _ HI x Lx) as A. rewrite (f_gg0 HI x) in * by auto. exact A.
  - change (StoreW (c_tab c) (wB d) (w_ver d) (v_R d) (v_T d) (v_S d) (w_worm d) (w_meas d) (w_delta d) (w_ww d) ext (w_W d)).
    intros x Lx. pose proof (i_sW _ _ HI x Lx) as A. rewrite (f_ww0 HI x) in * by auto. exact A.
Qed.
Lemma toGG_pres c d p d' r : cfg_ok c -> Inv c d -> toGG_rel c d p d' r -> Inv c d' /\ Inv c r.
Proof.
  intros C HI0 H. destruct H as [g t ext wt Ho Hex Hga H3 Lg Hm Ht Eext HW].
  split; [|apply uext_pres; auto]. pose proof (uext_pres c d ext HI0 Hga) as HI.
  pres HI.
  - change (Gam 1 (order d) (c_gamma3 c) (gB d) (g_meas d) (upd (g_gg d) g true) (wB d) (w_meas d) (w_delta d) (w_ww d)
      (VG g IN) (VG g OUT)).
    right. left. rsplit. exists g. rsplit. split.
    + intros x Lx. split; [|intros ->; apply upd_same]. updc x g; auto. rewrite (f_gg0 HI0 x) by auto. discriminate.
    + intros. apply (f_ww0 HI0); auto.
  - change (StoreG (c_tab c) (gB d) (g_ver d) (v_R d) (v_T d) (v_S d) (g_meas d) (upd (g_gg d) g true) ext (upd (g_W d) g wt)).
    intros x Lx. updc x g; [subst x|apply (i_sG _ _ HI); auto].
    rewrite <- (i_spin _ _ HI0 g Lg), Hm. exact HW.
Qed.
Lemma fromGG_pres c d p d' r : cfg_ok c -> Inv c d -> fromGG_rel c d p d' r -> Inv c d'.
Proof.
  intros C HI H. destruct H as [g wt Ho Hex Hga Lg Hm Hgg HS HR HW].
  destruct (i_gam _ _ HI) as [(X & _)|[(_ & _ & _ & g0 & L0 & M0 & _ & _ & HG & HWW)|(X & _)]]; try lia.
  assert (g = g0) by (apply HG; auto). subst g0.
  pres HI.
  - change (Gam 0 (order d) (c_gamma3 c) (gB d) (g_meas d) (upd (g_gg d) g false) (wB d) (w_meas d) (w_delta d) (w_ww d)
      (vin d) (vout d)).
    left. rsplit. split; [|exact HWW]. intros x Lx. updc x g; auto. destruct (g_gg d x) eqn:E; auto. apply HG in E; congruence.
  - change (StoreG (c_tab c) (gB d) (g_ver d) (v_R d) (v_T d) (v_S d) (g_meas d) (upd (g_gg d) g false) (uext d) (upd (g_W d) g wt)).
    intros x Lx. updc x g; [subst x|apply (i_sG _ _ HI); auto].
    rewrite <- (i_spin _ _ HI g Lg), Hm. exact HW.
Qed.
Lemma toWW_pres c d p d' r : cfg_ok c -> Inv c d -> toWW_rel c d p d' r -> Inv c d' /\ Inv c r.
Proof.
  intros C HI0 H. destruct H as [w t x ext wt Ho Hex Hga H3 Lw Hm Hd Ht Hx Eext HW].
  split; [|apply uext_pres; auto]. pose proof (uext_pres c d ext HI0 Hga) as HI.
  pres HI.
  - change (Gam 2 (order d) (c_gamma3 c) (gB d) (g_meas d) (g_gg d) (wB d) (w_meas d) (w_delta d) (upd (w_ww d) w true)
      (VW w IN) (VW w OUT)).
    right. right. rsplit. exists w. rsplit. split.
    + intros y Ly. split; [|intros ->; apply upd_same]. updc y w; auto. rewrite (f_ww0 HI0 y) by auto. discriminate.
    + intros. apply (f_gg0 HI0); auto.
  - change (StoreW (c_tab c) (wB d) (w_ver d) (v_R d) (v_T d) (v_S d) (w_worm d) (w_meas d) (w_delta d) (upd (w_ww d) w true) ext (upd (w_W d) w wt)).
    intros y Ly. updc y w; [subst y|apply (i_sW _ _ HI); auto].
    rewrite Hm, Hd, (f_nworm HI0 w) by auto. exact HW.
Qed.
Lemma fromWW_pres c d p d' r : cfg_ok c -> Inv c d -> fromWW_rel c d p d' r -> Inv c d'.
Proof.
  intros C HI H. destruct H as [w wt Ho Hex Hga Lw Hm Hd Hww HS HW].
  destruct (i_gam _ _ HI) as [(X & _)|[(X & _)|(_ & _ & _ & w0 & L0 & M0 & D0 & _ & _ & HWW & HG)]]; try lia.
  assert (w = w0) by (apply HWW; auto). subst w0.
  pres HI.
  - change (Gam 0 (order d) (c_gamma3 c) (gB d) (g_meas d) (g_gg d) (wB d) (w_meas d) (w_delta d) (upd (w_ww d) w false)
      (vin d) (vout d)).
    left. rsplit. intros x Lx. updc x w; auto. destruct (w_ww d x) eqn:E; auto. apply HWW in E; congruence.
  - change (StoreW (c_tab c) (wB d) (w_ver d) (v_R d) (v_T d) (v_S d) (w_worm d) (w_meas d) (w_delta d) (upd (w_ww d) w false) (uext d) (upd (w_W d) w wt)).
    intros y Ly. updc y w; [subst y|apply (i_sW _ _ HI); auto].
    rewrite Hm, Hd, (f_nworm HI w) by auto. exact HW.
Qed.
End Pres1.
