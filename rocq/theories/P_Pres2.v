(** The invariant is preserved by MoveWormOnG and Reconnect *)
From Coq Require Import ZArith List Bool Arith Lia ZifyBool.
From Verif Require Import Base Num RNG Momentum Complex Lattice Bundle IndexMap Weights Diagram Markov
  P_Momentum P_RNG P_Bundle P_Lattice P_IndexMap P_WP P_Inv P_Rel P_Sem1 P_Pres1.
Import ListNotations.
Open Scope Z_scope.

Section Pres2.
Context {N : Num}.

Lemma WWeight_worm T ri ro ti to si so si' so' me de ww ext :
  WWeight T ri ro ti to si so true me de ww ext = WWeight T ri ro ti to si' so' true me de ww ext.
Proof. reflexivity. Qed.

Lemma f_cntw c d (HI : Inv c d) w v : live (wB d) w -> live (vB d) v ->
  b2z (Nat.eqb (v_W d v) w) = b2z (Nat.eqb (w_ver d w IN) v) + b2z (Nat.eqb (w_ver d w OUT) v).
Proof.
  intros Lw Lv. destruct (Nat.eqb_spec (v_W d v) w) as [E|E].
  - pose proof (f_vwv HI v Lv) as A. pose proof (f_other HI v Lv) as B. rewrite E in *. apply Nat.eqb_neq in B.
    destruct (v_D d v); cbn [inv] in *; rewrite A, B, Nat.eqb_refl; reflexivity.
  - destruct (Nat.eqb_spec (w_ver d w IN) v) as [X|_].
    { exfalso. apply E. rewrite <- X. apply (f_wvw HI); auto. }
    destruct (Nat.eqb_spec (w_ver d w OUT) v) as [X|_].
    { exfalso. apply E. rewrite <- X. apply (f_wvw HI); auto. }
    reflexivity.
Qed.

Lemma flip_cur1 s e ds : ds = 1 \/ ds = -1 -> CanNotMoveG ds (s e) e = false -> cur (flip_at s e) = cur s + ds.
Proof. unfold cur, flip_at. intros [-> | ->]; destruct e; cbn [inv dir_eqb]; destruct (s IN), (s OUT); cbn; lia || discriminate. Qed.
Lemma flip_cur2 s e ds : ds = 1 \/ ds = -1 -> CanNotMoveG ds (s (inv e)) e = false -> cur (flip_at s (inv e)) = cur s - ds.
Proof. unfold cur, flip_at. intros [-> | ->]; destruct e; cbn [inv dir_eqb]; destruct (s IN), (s OUT); cbn; lia || discriminate. Qed.

Lemma moveG_pres c d p d' r : cfg_ok c -> Inv c d -> moveG_rel c d p d' r -> Inv c d'.
Proof.
  intros C HI H.
  destruct H as [dr g v1 v2 k w1 vW1 w2 vW2 iw1 s1 s2 w1W w2W gW Ho Hex Ev1 Eg Ev2 N21 N2m Hcan Ek Hk
                 Ew1 EvW1 Ew2 EvW2 Eiw Es1 Es2 Hw1 Hw2 HgW].
  destruct (f_wo HI Hex) as (Li & Lm & Nim & Dm & _ & Hds & RK & HW).
  rewrite <- Ev1 in *.
  assert (Lg : live (gB d) g) by (subst g; eauto with inv).
  assert (Lv2 : live (vB d) v2) by (subst v2; eauto with inv).
  assert (Gv1 : g_ver d g (inv dr) = v1) by (rewrite Eg; apply (f_vgv HI v1 dr); auto).
  assert (Gv2 : v_G d v2 (inv dr) = g) by (rewrite Ev2; apply (f_gvg HI g dr); auto).
  assert (U1 : forall v, live (vB d) v -> v_G d v dr = g -> v = v1).
  { intros v Lv E. apply (f_vg_inj HI v v1 dr); auto. congruence. }
  assert (U2 : forall v, live (vB d) v -> v_G d v (inv dr) = g -> v = v2).
  { intros v Lv E. apply (f_vg_inj HI v v2 (inv dr)); auto. congruence. }
  assert (X1 : forall x, live (gB d) x -> g_ver d x (inv dr) = v1 -> x = g).
  { intros x Lx E. apply (f_gv_inj HI x g (inv dr)); auto. congruence. }
  assert (X2 : forall x, live (gB d) x -> g_ver d x dr = v2 -> x = g).
  { intros x Lx E. apply (f_gv_inj HI x g dr); auto. congruence. }
  destruct (f_two c d HI v1 w1 vW1 Li Ew1 EvW1) as (Lw1 & LvW1 & NW1 & WW1 & DW1 & Hends1 & Wv1 & WvW1).
  destruct (f_two c d HI v2 w2 vW2 Lv2 Ew2 EvW2) as (Lw2 & LvW2 & NW2 & WW2 & DW2 & Hends2 & Wv2 & WvW2).
  rewrite WWeightDir_eq in Hw1 by eauto with inv. rewrite WWeightDir_eq in Hw2 by eauto with inv.
  rewrite GWeightDir_eq in HgW.
  destruct (kscale_spec (SIGN dr) (wm_K d)) as [Rs Es]; [destruct dr; cbn; lia|auto|].
  destruct (ksub_spec (g_K d g) (kscale (SIGN dr) (wm_K d))) as [Rk Eqk]; [eauto with inv|auto|].
  rewrite <- Ek in Rk, Eqk.
  assert (HS1 : upd (upd (v_S d) v1 s1) v2 s2 v1 = s1) by (rewrite upd_other, upd_same; auto).
  assert (HS2 : upd (upd (v_S d) v1 s1) v2 s2 v2 = s2) by (rewrite upd_same; auto).
  assert (HSo : forall z, z <> v1 -> z <> v2 -> upd (upd (v_S d) v1 s1) v2 s2 z = v_S d z).
  { intros z Z1 Z2. rewrite !upd_other; auto. }
  assert (HSi : forall z e, live (vB d) z -> v_G d z e <> g -> upd (upd (v_S d) v1 s1) v2 s2 z e = v_S d z e).
  { intros z e Lz Hz. destruct (Nat.eq_dec z v1) as [->|Z1]; [|destruct (Nat.eq_dec z v2) as [->|Z2]].
    - rewrite HS1, Es1. unfold flip_at. destruct dr, e; cbn [dir_eqb]; congruence.
    - rewrite HS2, Es2. unfold flip_at. destruct dr, e; cbn [dir_eqb inv] in *; congruence.
    - now rewrite HSo. }
  assert (HSv : v_S d (g_ver d g IN) OUT = v_S d (g_ver d g OUT) IN) by (apply (i_spin _ _ HI); auto).
  (* the change of the spin current of each end *)
  assert (Hg1 : v_S d (g_ver d g IN) OUT = v_S d v1 dr /\ v_S d (g_ver d g IN) OUT = v_S d v2 (inv dr)).
  { destruct dr; cbn [inv] in *; rewrite ?Gv1, <- ?Ev2 in *; auto. }
  assert (HC1 : cur s1 = cur (v_S d v1) + wm_ds d).
  { rewrite Es1. apply flip_cur1; auto. now rewrite <- (proj1 Hg1). }
  assert (HC2 : cur s2 = cur (v_S d v2) - wm_ds d).
  { rewrite Es2. apply flip_cur2; auto. now rewrite <- (proj2 Hg1). }
  assert (HCz : forall z, cur (upd (upd (v_S d) v1 s1) v2 s2 z) =
     cur (v_S d z) + wm_ds d * (b2z (Nat.eqb z v1) - b2z (Nat.eqb z v2))).
  { intros z. destruct (Nat.eqb_spec z v1) as [->|Z1]; [|destruct (Nat.eqb_spec z v2) as [->|Z2]].
    - rewrite HS1, HC1. apply not_eq_sym, Nat.eqb_neq in N21. rewrite N21. cbn [b2z]. lia.
    - rewrite HS2, HC2. cbn [b2z]. lia.
    - rewrite HSo by auto. cbn [b2z]. lia. }
  assert (Iw : w1 <> w2 -> (iw1 = true <-> v_W d (masha d) = w1)).
  { intros Nw. rewrite Eiw. destruct (Nat.eqb_spec vW1 v2) as [E|E]; [congruence|].
    unfold IsWorm. rewrite Hex, <- Ev1. cbn [andb].
    destruct (Nat.eqb_spec v1 vW1) as [E1|E1]; [congruence|]. cbn [orb]. rewrite Nat.eqb_eq. split; [congruence|].
    intros E2. destruct (Hends1 _ Lm E2); congruence. }
  pres HI.
  - change (HT (2 * MAX_K) (updZ (updZ (ghash d) (kindex (g_K d g)) false) (kindex k) true) (live (gB d))
      (fun x => kindex (upd (g_K d) g k x))).
    apply (HT_replace _ _ _ _ (kindex k) g _ (i_hG _ _ HI)); auto.
    + now apply kindex_range.
    + now rewrite upd_same.
    + intros x _ Hx. now rewrite upd_other.
  - change (KCons (vB d) (v_G d) (v_W d) (v_D d) (upd (g_K d) g k) (w_K d) (wm_ex d) v2 (masha d) (wm_K d)).
    intros v Lv. pose proof (i_K _ _ HI v Lv) as K. rewrite Hex in *. rewrite <- Ev1 in K.
    destruct (Nat.eq_dec v v1) as [->|Z1]; [|destruct (Nat.eq_dec v v2) as [->|Z2]].
    + rewrite wterm_i in K. rewrite wterm_o' by auto.
      assert (v_G d v1 (inv dr) <> g) by (intros E; apply N21; symmetry; auto).
      rewrite !upd_eq. destruct dr; cbn [inv] in *; rewrite <- Eg in *;
        destruct (Nat.eq_dec g g); try congruence;
        match goal with |- context[Nat.eq_dec ?a g] => destruct (Nat.eq_dec a g); try congruence end; eqm_lin.
    + rewrite wterm_i. rewrite wterm_o' in K by auto.
      assert (v_G d v2 dr <> g) by (intros E; apply N21; auto).
      rewrite !upd_eq. destruct dr; cbn [inv] in *; rewrite Gv2 in *;
        destruct (Nat.eq_dec g g); try congruence;
        match goal with |- context[Nat.eq_dec ?a g] => destruct (Nat.eq_dec a g); try congruence end; eqm_lin.
    + rewrite !upd_other by (intros E; destruct dr; cbn [inv] in *; auto).
      destruct (Nat.eq_dec v (masha d)) as [->|Nm].
      * rewrite wterm_m in * by auto. exact K.
      * rewrite wterm_o' in * by congruence. exact K.
  - change (SpinG (gB d) (g_ver d) (upd (upd (v_S d) v1 s1) v2 s2)).
    intros x Lx. destruct (Nat.eq_dec x g) as [->|Nx].
    + destruct dr; cbn [inv] in *; rewrite ?Gv1, <- ?Ev2 in *; rewrite HS1, HS2, Es1, Es2; unfold flip_at; cbn [dir_eqb inv]; congruence.
    + rewrite !HSi; eauto with inv; [apply (i_spin _ _ HI); auto| |].
      * pose proof (f_gvg HI x OUT Lx) as Y. cbn [inv] in Y. now rewrite Y.
      * pose proof (f_gvg HI x IN Lx) as Y. cbn [inv] in Y. now rewrite Y.
  - change (SpinW (wB d) (w_ver d) (upd (upd (v_S d) v1 s1) v2 s2) (v_W d) (wm_ex d) v2 (masha d) (wm_ds d)).
    intros x Lx. rewrite !HCz. pose proof (i_cur _ _ HI x Lx) as A. rewrite Hex in *. rewrite <- Ev1 in A.
    rewrite (f_cntw c d HI x v1 Lx Li) in A. rewrite (f_cntw c d HI x v2 Lx Lv2).
    revert A. clear. generalize (b2z (Nat.eqb (w_ver d x IN) v1)), (b2z (Nat.eqb (w_ver d x OUT) v1)),
      (b2z (Nat.eqb (w_ver d x IN) v2)), (b2z (Nat.eqb (w_ver d x OUT) v2)), (b2z (Nat.eqb (v_W d (masha d)) x)).
    intros. lia.
  - change (Worm (wm_ex d) v2 (masha d) (wm_K d) (wm_ds d) (order d) (vB d) (v_W d) (v_D d) (wB d)
      (upd (upd (w_worm d) w1 iw1) w2 true)).
    rewrite Hex. unfold Worm. rsplit. intros x Lx. rewrite !upd_eq.
    destruct (Nat.eq_dec x w2) as [->|Z2]; [split; auto|]. destruct (Nat.eq_dec x w1) as [->|Z1].
    + rewrite Iw by auto. split; [auto|]. intros [E|E]; auto. congruence.
    + rewrite HW by auto. split; (intros [E|E]; [congruence|auto]).
  - change (StoreG (c_tab c) (gB d) (g_ver d) (v_R d) (v_T d) (upd (upd (v_S d) v1 s1) v2 s2) (g_meas d) (g_gg d) (uext d)
      (upd (g_W d) g gW)).
    intros x Lx. rewrite (upd_eq (g_W d)). destruct (Nat.eq_dec x g) as [->|Nx].
    + destruct dr; cbn [inv] in *; rewrite ?Gv1, <- ?Ev2 in *; rewrite HS1, HS2; exact HgW.
    + rewrite !HSi; eauto with inv; [apply (i_sG _ _ HI); auto| |].
      * pose proof (f_gvg HI x OUT Lx) as Y. cbn [inv] in Y. now rewrite Y.
      * pose proof (f_gvg HI x IN Lx) as Y. cbn [inv] in Y. now rewrite Y.
  - change (StoreW (c_tab c) (wB d) (w_ver d) (v_R d) (v_T d) (upd (upd (v_S d) v1 s1) v2 s2)
      (upd (upd (w_worm d) w1 iw1) w2 true) (w_meas d) (w_delta d) (w_ww d) (uext d) (upd (upd (w_W d) w1 w1W) w2 w2W)).
    intros x Lx. rewrite (upd_eq (upd (w_worm d) w1 iw1)), (upd_eq (upd (w_W d) w1 w1W)).
    destruct (Nat.eq_dec x w2) as [->|Z2].
    + destruct (v_D d v2); cbn [inv] in *; rewrite Wv2, WvW2; rewrite <- Hw2; apply WWeight_worm.
    + rewrite (upd_eq (w_worm d)), (upd_eq (w_W d)). destruct (Nat.eq_dec x w1) as [->|Z1].
      * assert (vW1 <> v2) by congruence. 
        destruct (v_D d v1); cbn [inv] in *; rewrite Wv1, WvW1, HS1, (HSo vW1) by auto; exact Hw1.
      * rewrite !HSo; [apply (i_sW _ _ HI); auto| | | |]; intros E.
        -- apply Z1. rewrite Ew1, <- E. symmetry. apply (f_wvw HI); auto.
        -- apply Z2. rewrite Ew2, <- E. symmetry. apply (f_wvw HI); auto.
        -- apply Z1. rewrite Ew1, <- E. symmetry. apply (f_wvw HI); auto.
        -- apply Z2. rewrite Ew2, <- E. symmetry. apply (f_wvw HI); auto.
Qed.

Lemma reconnect_pres c d p d' r : cfg_ok c -> Inv c d -> reconnect_rel c d p d' r -> Inv c d'.
Proof.
  intros C HI H.
  destruct H as [I Ma dr GIA GMB k vA vB' gi gm Ho Hex EI EMa ER EGIA EGMB ES Ek EvA EvB Hgi Hgm].
  destruct (f_wo HI Hex) as (Li & Lm & Nim & Dm & _ & Hds & RK & HW).
  rewrite <- EI, <- EMa in *.
  assert (LGA : live (gB d) GIA) by (subst GIA; eauto with inv).
  assert (LGB : live (gB d) GMB) by (subst GMB; eauto with inv).
  assert (NG : GIA <> GMB).
  { intros E. apply Nim. apply (f_vg_inj HI I Ma dr); auto. congruence. }
  assert (VI : g_ver d GIA (inv dr) = I) by (rewrite EGIA; apply (f_vgv HI); auto).
  assert (VM : g_ver d GMB (inv dr) = Ma) by (rewrite EGMB; apply (f_vgv HI); auto).
  assert (LvA : live (vB d) vA) by (subst vA; eauto with inv).
  assert (LvB : live (vB d) vB') by (subst vB'; eauto with inv).
  rewrite GWeightDir_eq in Hgi, Hgm.
  destruct (ksub_spec (g_K d GMB) (g_K d GIA)) as [R1 E1]; [eauto with inv|eauto with inv|].
  destruct (kscale_spec (SIGN dr) (ksub (g_K d GMB) (g_K d GIA))) as [R2 E2]; [destruct dr; cbn; lia|auto|].
  destruct (kadd_spec (wm_K d) (kscale (SIGN dr) (ksub (g_K d GMB) (g_K d GIA)))) as [R3 E3]; [auto|auto|].
  rewrite <- Ek in R3, E3.
  set (gv' := upd2 (upd2 (g_ver d) GIA (inv dr) Ma) GMB (inv dr) I).
  set (vg' := upd2 (upd2 (v_G d) Ma dr GIA) I dr GMB).
  assert (HgA : gv' GIA (inv dr) = Ma /\ gv' GIA dr = vA).
  { unfold gv'. rewrite !upd2_eq. destruct (Nat.eq_dec GIA GMB), (Nat.eq_dec GIA GIA); try congruence.
    destruct dr; auto. }
  assert (HgB : gv' GMB (inv dr) = I /\ gv' GMB dr = vB').
  { unfold gv'. rewrite !upd2_eq. destruct (Nat.eq_dec GMB GMB), (Nat.eq_dec GMB GIA); try congruence.
    destruct dr; auto. }
  assert (Hgo : forall x, x <> GIA -> x <> GMB -> gv' x = g_ver d x).
  { intros x Z1 Z2. unfold gv', upd2. apply Nat.eqb_neq in Z1, Z2. rewrite Z1, Z2. reflexivity. }
  assert (HvI : vg' I dr = GMB /\ vg' I (inv dr) = v_G d I (inv dr)).
  { unfold vg'. rewrite !upd2_eq. destruct (Nat.eq_dec I I), (Nat.eq_dec I Ma); try congruence.
    destruct dr; auto. }
  assert (HvM : vg' Ma dr = GIA /\ vg' Ma (inv dr) = v_G d Ma (inv dr)).
  { unfold vg'. rewrite !upd2_eq. destruct (Nat.eq_dec Ma Ma), (Nat.eq_dec Ma I); try congruence.
    destruct dr; auto. }
  assert (Hvo : forall x, x <> I -> x <> Ma -> vg' x = v_G d x).
  { intros x Z1 Z2. unfold vg', upd2. apply Nat.eqb_neq in Z1, Z2. rewrite Z1, Z2. reflexivity. }
  assert (Hvi : forall x, vg' x (inv dr) = v_G d x (inv dr)).
  { intros x. unfold vg', upd2. destruct dr; cbn [dir_eqb inv]; rewrite !andb_false_r; reflexivity || (destruct (Nat.eqb x I), (Nat.eqb x Ma); reflexivity). }
  assert (Hgd : forall x, gv' x dr = g_ver d x dr).
  { intros x. unfold gv', upd2. destruct dr; cbn [dir_eqb inv]; destruct (Nat.eqb x GMB), (Nat.eqb x GIA); reflexivity. }
  assert (Hdir : forall e, e = dr \/ e = inv dr) by (intros e; destruct e, dr; auto).
  destruct HgA as [A1 A2], HgB as [B1 B2], HvI as [I1 I2], HvM as [M1 M2].
  pres HI.
  - change (TopoG (gB d) (vB d) gv' vg'). split.
    + intros g e Lg. destruct (Hdir e) as [-> | ->].
      * rewrite Hgd, Hvi. split; [eauto with inv|apply (f_gvg HI); auto].
      * rewrite inv_inv. destruct (Nat.eq_dec g GIA) as [->|Z1]; [|destruct (Nat.eq_dec g GMB) as [->|Z2]].
        -- rewrite A1. auto.
        -- rewrite B1. auto.
        -- rewrite Hgo by auto. split; [eauto with inv|].
           pose proof (f_gvg HI g (inv dr) Lg) as X. rewrite inv_inv in X.
           rewrite Hvo; auto; intros Y; rewrite Y in X; congruence.
    + intros v e Lv. destruct (Hdir e) as [-> | ->].
      * destruct (Nat.eq_dec v I) as [->|Z1]; [|destruct (Nat.eq_dec v Ma) as [->|Z2]].
        -- rewrite I1. auto.
        -- rewrite M1. auto.
        -- rewrite Hvo by auto. split; [eauto with inv|].
           pose proof (f_vgv HI v dr Lv) as X.
           rewrite Hgo; auto; intros Y; rewrite Y in X; congruence.
      * rewrite Hvi, inv_inv, Hgd. split; [eauto with inv|]. pose proof (f_vgv HI v (inv dr) Lv) as X. now rewrite inv_inv in X.
  - change (KCons (vB d) vg' (v_W d) (v_D d) (g_K d) (w_K d) (wm_ex d) (ira d) (masha d) k).
    rewrite <- EI, <- EMa. intros v Lv. pose proof (i_K _ _ HI v Lv) as K. rewrite Hex in *. rewrite <- EI, <- EMa in K.
    destruct (Nat.eq_dec v I) as [->|Z1]; [|destruct (Nat.eq_dec v Ma) as [->|Z2]].
    + rewrite wterm_i in *. destruct dr; cbn [inv] in *; rewrite I1, I2; rewrite <- EGIA in K; eqm_lin.
    + rewrite wterm_m in * by auto. destruct dr; cbn [inv] in *; rewrite M1, M2; rewrite <- EGMB in K; eqm_lin.
    + rewrite wterm_o' in * by auto. rewrite Hvo by auto. exact K.
  - change (SpinG (gB d) gv' (v_S d)). intros x Lx.
    destruct (Nat.eq_dec x GIA) as [->|Z1]; [|destruct (Nat.eq_dec x GMB) as [->|Z2]].
    + pose proof (i_spin _ _ HI _ LGA) as SA. pose proof (i_spin _ _ HI _ LGB) as SB.
      destruct dr; cbn [inv] in *; rewrite A1, A2; congruence.
    + pose proof (i_spin _ _ HI _ LGA) as SA. pose proof (i_spin _ _ HI _ LGB) as SB.
      destruct dr; cbn [inv] in *; rewrite B1, B2; congruence.
    + rewrite Hgo by auto. apply (i_spin _ _ HI); auto.
  - change (Worm (wm_ex d) (ira d) (masha d) k (wm_ds d) (order d) (vB d) (v_W d) (v_D d) (wB d) (w_worm d)).
    rewrite <- EI, <- EMa, Hex. unfold Worm. rsplit. exact HW.
  - change (Loc (gB d) gv' (v_R d)). intros x Lx.
    destruct (Nat.eq_dec x GIA) as [->|Z1]; [|destruct (Nat.eq_dec x GMB) as [->|Z2]].
    + pose proof (i_loc _ _ HI _ LGA) as SA. destruct dr; cbn [inv] in *; rewrite A1, A2; congruence.
    + pose proof (i_loc _ _ HI _ LGB) as SA. destruct dr; cbn [inv] in *; rewrite B1, B2; congruence.
    + rewrite Hgo by auto. apply (i_loc _ _ HI); auto.
  - change (StoreG (c_tab c) (gB d) gv' (v_R d) (v_T d) (v_S d) (g_meas d) (g_gg d) (uext d) (upd (upd (g_W d) GIA gi) GMB gm)).
    intros x Lx. rewrite !upd_eq.
    destruct (Nat.eq_dec x GMB) as [->|Z2]; [|destruct (Nat.eq_dec x GIA) as [->|Z1]].
    + destruct dr; cbn [inv] in *; rewrite B1, B2; exact Hgm.
    + destruct dr; cbn [inv] in *; rewrite A1, A2; exact Hgi.
    + rewrite Hgo by auto. apply (i_sG _ _ HI); auto.
Qed.
End Pres2.
