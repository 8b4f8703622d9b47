(** IEEE binary64: the uniform generator is exact and time bins stay in range *)
From Coq Require Import ZArith Reals Lra Lia Bool List Floats.SpecFloat.
From Flocq Require Import Core BinarySingleNaN.
From Verif Require Import Base Num NumR NumF RNG P_RNG P_Float Lattice IndexMap P_IndexMap Weights Diagram Markov P_WP P_Inv P_History.
Import ListNotations.
Open Scope Z_scope.

#[local] Instance fxv : Valid_exp fx.
Proof. exact (@FLT_exp_valid (-1074) 53 Hprec). Qed.
Lemma inv2 (n : Z) : 0 <= n -> (1 / IZR (2 ^ n))%R = (IZR 1 * bpow radix2 (- n))%R.
Proof. intros H. rewrite bpow_neg by auto. unfold Rdiv. ring. Qed.
Lemma bp32 : bpow radix2 (-32) = (/ IZR (2 ^ 32))%R.
Proof. exact (bpow_neg 32 ltac:(lia)). Qed.
Lemma small_abs m e k : Z.abs m < 2 ^ 53 -> e <= 0 -> -1074 <= e -> k = (IZR m * bpow radix2 e)%R -> generic_format radix2 fx k /\ (Rabs k < bpow radix2 1024)%R.
Proof.
  intros Hm He He' ->. split; [now apply fmt_dyadic|]. apply lt_big. rewrite Rabs_mult, (Rabs_pos_eq (bpow _ _)) by apply bpow_ge_0.
  rewrite <- abs_IZR. apply Rle_trans with (IZR (2 ^ 53) * 1)%R.
  - apply Rmult_le_compat; [apply IZR_le; lia|apply bpow_ge_0|apply IZR_le; lia|]. change 1%R with (bpow radix2 0). now apply bpow_le.
  - rewrite Rmult_1_r, bpow_IZR by lia. apply IZR_le. lia.
Qed.
Lemma urn_F x : Fin (@urn_of NumF x) (@urn_of NumR x).
Proof.
  pose proof (s32_range x) as Hr. set (z := s32 x) in *.
  assert (F1 : Fin (f_ofZ 1) (IZR 1)) by (apply Fin_Zx; lia).
  assert (Q : Fin (SFdiv 53 1024 (f_ofZ 1) (f_ofZ (2 ^ 32))) (IZR 1 / IZR (2 ^ 32))).
  { destruct (small_abs 1 (-32) (IZR 1 / IZR (2 ^ 32)) ltac:(lia) ltac:(lia) ltac:(lia) (inv2 32 ltac:(lia))) as [G1 G2].
    rewrite <- (rnd_fmt _ G1). apply Fin_div; [exact F1|apply Fin_Zx; lia|apply IZR_neq; lia|now rewrite rnd_fmt]. }
  assert (Q2 : Fin (SFdiv 53 1024 (f_ofZ 1) (f_ofZ 2)) (IZR 1 / IZR 2)).
  { destruct (small_abs 1 (-1) (IZR 1 / IZR 2) ltac:(lia) ltac:(lia) ltac:(lia) (inv2 1 ltac:(lia))) as [G1 G2].
    rewrite <- (rnd_fmt _ G1). apply Fin_div; [exact F1|apply Fin_Zx; lia|apply IZR_neq; lia|now rewrite rnd_fmt]. }
  assert (M : Fin (SFmul 53 1024 (f_ofZ z) (SFdiv 53 1024 (f_ofZ 1) (f_ofZ (2 ^ 32)))) (IZR z * (IZR 1 / IZR (2 ^ 32)))).
  { destruct (small_abs z (-32) (IZR z * (IZR 1 / IZR (2 ^ 32)))) as [G1 G2]; try lia.
    { rewrite (inv2 32) by lia. change (- (32)) with (-32). ring. }
    rewrite <- (rnd_fmt _ G1). apply Fin_mul; [apply Fin_Zx; lia|exact Q|now rewrite rnd_fmt]. }
  change (Fin (SFadd 53 1024 (SFmul 53 1024 (f_ofZ z) (SFdiv 53 1024 (f_ofZ 1) (f_ofZ (2 ^ 32)))) (SFdiv 53 1024 (f_ofZ 1) (f_ofZ 2)))
    (IZR z * (IZR 1 / IZR (2 ^ 32)) + IZR 1 / IZR 2)).
  destruct (small_abs (z + 2 ^ 31) (-32) (IZR z * (IZR 1 / IZR (2 ^ 32)) + IZR 1 / IZR 2)) as [G1 G2]; try lia.
  { rewrite plus_IZR. rewrite bp32. change (2 ^ 31) with 2147483648. change (2 ^ 32) with 4294967296. lra. }
  rewrite <- (rnd_fmt _ G1). apply Fin_add; auto. now rewrite rnd_fmt.
Qed.

Notation eps := (/ 9007199254740992)%R.
Lemma eps_eq : bpow radix2 (-53) = eps.
Proof. exact (bpow_neg 53 ltac:(lia)). Qed.
Definition moderate (b : R) : Prop := (bpow radix2 (-500) <= b <= bpow radix2 500)%R.
Lemma mod_pos b : moderate b -> (0 < b)%R.
Proof. intros [H _]. pose proof (bpow_gt_0 radix2 (-500)). lra. Qed.

Lemma ebound e : (Rabs e <= bpow radix2 (-53))%R -> (- eps <= e <= eps)%R.
Proof. rewrite eps_eq. intros H. apply Rabs_le_inv in H. exact H. Qed.
Lemma norm_pow k x : -1022 <= k -> (bpow radix2 k <= Rabs x)%R -> (bpow radix2 (-1022) <= Rabs x)%R.
Proof. intros H1 H2. apply Rle_trans with (2 := H2). now apply bpow_le. Qed.
Lemma fin_pow k x : k < 1024 -> (Rabs x <= bpow radix2 k)%R -> (Rabs x < bpow radix2 1024)%R.
Proof. intros H1 H2. apply Rle_lt_trans with (1 := H2). now apply bpow_lt. Qed.

(** a double that multiplication by one leaves alone is canonically encoded *)
Lemma canon_valid (x : F64) : SFmul 53 1024 (f_ofZ 1) x = x -> valid_binary 53 1024 x = true.
Proof.
  intros H. destruct x as [s|s| |s m e]; try reflexivity.
  change (f_ofZ 1) with (S754_finite false 4503599627370496 (-52)) in H. cbn [SFmul] in H. rewrite raux in H.
  rewrite Bool.xorb_false_l in H. rewrite <- H at 1.
  set (M := (4503599627370496 * m)%positive) in *.
  set (r := F2R (Float radix2 (cond_Zopp s (Zpos M)) (-52 + e))).
  pose proof (binary_round_aux_correct 53 1024 Hprec Hmax mode_NE r M (-52 + e) loc_Exact) as Q. cbv zeta in Q.
  assert (Er : Rabs r = F2R (Float radix2 (Zpos M) (-52 + e))).
  { unfold r. rewrite F2R_cond_Zopp, abs_cond_Ropp. apply Rabs_pos_eq, F2R_ge_0. cbn. lia. }
  assert (Es : Rlt_bool r 0 = s).
  { unfold r. destruct s; cbn [cond_Zopp].
    - apply Rlt_bool_true, F2R_lt_0. cbn. lia.
    - apply Rlt_bool_false, F2R_ge_0. cbn. lia. }
  rewrite Es in Q. destruct Q as [Q _]; [| |exact Q].
  - constructor. exact Er.
  - unfold SpecFloat.fexp, SpecFloat.emin. apply Z.le_trans with (Zdigits radix2 (Zpos M) + (-52 + e) - 53); [|apply Z.le_max_l].
    assert (52 < Zdigits radix2 (Zpos M)); [|lia]. apply Zdigits_gt_Zpower. change (Zpower radix2 52) with 4503599627370496. unfold M. lia.
Qed.
Lemma older_F (x y : F64) b : @older NumF x y -> Fin y b -> x = y \/ exists a, Fin x a /\ (bpow radix2 (-32) <= a <= b)%R.
Proof.
  intros H. revert b. induction H as [x|x x1 x2 H IH V Z1 L]; intros b Fb; [auto|]. right.
  assert (FB : Fin (@beta_min NumF) (bpow radix2 (-32))).
  { exists (@B754_finite 53 1024 false 4503599627370496 (-84) eq_refl). split; [vm_compute; reflexivity|]. split; [reflexivity|].
    cbn [B2R]. unfold F2R. cbn [cond_Zopp Fnum Fexp]. change 4503599627370496%Z with (2 ^ 52)%Z. rewrite <- bpow_IZR by lia. rewrite <- bpow_plus. reflexivity. }
  change (SFleb (@beta_min NumF) x1 = true) in Z1. change (SFleb x1 x2 = true) in L.
  assert (F1 : exists a, Fin x1 a).
  { apply canon_valid in V. exists (B2R (SF2B x1 V)). exists (SF2B x1 V). rewrite B2SF_SF2B. split; [reflexivity|]. split; [|reflexivity].
    rewrite is_finite_SF2B. destruct Fb as (u & -> & Fu & _). clear - Z1 L Fu.
    change (@beta_min NumF) with (@beta_min NumF) in Z1.
    destruct x1 as [s|[|]| |s m e]; try reflexivity.
    - vm_compute in Z1. discriminate Z1.
    - destruct u as [su|su| |su mu eu Bu]; cbn in Fu; try discriminate Fu; destruct su; vm_compute in L; discriminate L.
    - vm_compute in Z1. discriminate Z1. }
  destruct F1 as (a & F1). pose proof (Fin_le _ _ _ _ FB F1) as Q1. rewrite Z1 in Q1. pose proof (Fin_le _ _ _ _ F1 Fb) as Q2. rewrite L in Q2.
  symmetry in Q1, Q2. apply Rleb_spec in Q1. apply Rleb_spec in Q2.
  destruct (IH a F1) as [->|(a' & F' & A1 & A2)]; [exists a; auto|]. exists a'. split; [exact F'|]. split; [exact A1|]. apply Rle_trans with a; auto.
Qed.

(** a stored time: a number between 0 and beta, rounded once, and not too close to 0 *)
Lemma tau_F (c : @cfg NumF) b t : Fin (c_beta c) b -> moderate b -> tau_gen c t ->
  exists v, Fin t v /\ (0 <= v <= (1 - / IZR (2 ^ 32)) * (1 + eps) * b)%R /\
    (v = 0 \/ bpow radix2 (-33) * b <= v \/ bpow radix2 (-65) <= v)%R.
Proof.
  intros Fb Hb [-> |(bo & x & Ho & Hx & ->)].
  - exists 0%R. split; [apply (Fin_Zx 0); lia|]. pose proof (mod_pos b Hb). change (2 ^ 32) with 4294967296. split; [|auto].
    split; [lra|]. apply Rmult_le_pos; lra.
  - assert (O : exists a, Fin bo a /\ (0 < a <= b)%R /\ (bpow radix2 (-500) <= a)%R /\ (b = a \/ bpow radix2 (-32) <= a)%R).
    { pose proof (mod_pos b Hb) as Pb. destruct (older_F bo (c_beta c) b Ho Fb) as [->|(a & Fa & A1 & A2)].
      - exists b. repeat split; auto; try lra. apply Hb.
      - exists a. pose proof (bpow_gt_0 radix2 (-32)). repeat split; auto; try lra. apply Rle_trans with (2 := A1). apply bpow_le. lia. }
    clear Ho. destruct O as (a & Fa & Ha & Ha' & Ho). pose proof (s32_range x) as Hr. pose proof (urn_F x) as FU.
    pose proof (urn_R_range x) as [U1 U2]. pose proof (urn_R x) as EU. set (k := s32 x + 2 ^ 31) in *. set (u := @urn_of NumR x : R) in *.
    assert (Hk : 0 <= k < 2 ^ 32) by lia. pose proof (mod_pos b Hb) as Pb.
    set (M := (1 - / IZR (2 ^ 32))%R). assert (BM : (/ 2 <= M < 1)%R) by (unfold M; change (2 ^ 32) with 4294967296; lra).
    assert (UM : (u <= M)%R).
    { rewrite EU. unfold M. change (2 ^ 32) with 4294967296 in *. assert (IZR k <= 4294967295)%R by (apply IZR_le; lia). lra. }
    clearbody u k.
    assert (V1 : (0 <= rnd (u * a))%R).
    { rewrite <- rnd0. apply round_le; auto with typeclass_instances. apply Rmult_le_pos; lra. }
    assert (V2 : (rnd (u * a) <= M * (1 + eps) * b)%R).
    { apply Rle_trans with (rnd (M * b)).
      - apply round_le; auto with typeclass_instances. apply Rmult_le_compat; lra.
      - destruct (rnd_rel (M * b)) as (e & E1 & ->).
        + apply (norm_pow (-1 + -500)); [lia|]. rewrite bpow_plus, Rabs_pos_eq by (apply Rmult_le_pos; lra). change (bpow radix2 (-1)) with (/ 2)%R.
          apply Rmult_le_compat; [lra|apply bpow_ge_0|lra|apply Hb].
        + apply ebound in E1. replace (M * (1 + eps) * b)%R with (M * b * (1 + eps))%R by ring. apply Rmult_le_compat_l; [apply Rmult_le_pos|]; lra. }
    exists (rnd (u * a)). split.
    { apply Fin_mul; auto. rewrite Rabs_pos_eq by exact V1. apply Rle_lt_trans with (1 := V2).
      apply Rle_lt_trans with (2 * bpow radix2 500)%R.
      - apply Rmult_le_compat; [apply Rmult_le_pos; lra|lra| |apply Hb]. assert (M * (1 + eps) <= 1 * (1 + eps))%R by (apply Rmult_le_compat_r; lra). lra.
      - change 2%R with (bpow radix2 1). rewrite <- bpow_plus. apply bpow_lt. lia. }
    split; [auto|]. destruct (Z.eq_dec k 0) as [Zk|Nk].
    + left. rewrite EU, Zk. replace (IZR 0 / IZR (2 ^ 32) * a)%R with 0%R by (unfold Rdiv; ring). apply rnd0.
    + right. assert (UL : (bpow radix2 (-32) <= u)%R).
      { rewrite EU, bp32. change (2 ^ 32) with 4294967296. assert (1 <= IZR k)%R by (apply IZR_le; lia). lra. }
      destruct Ho as [<-|Ho].
      * left. destruct (rnd_rel (u * b)) as (e & E1 & ->).
        { apply (norm_pow (-32 + -500)); [lia|]. rewrite bpow_plus, Rabs_pos_eq by (apply Rmult_le_pos; lra).
          apply Rmult_le_compat; [apply bpow_ge_0|apply bpow_ge_0|lra|apply Hb]. }
        apply ebound in E1. apply Rle_trans with (bpow radix2 (-32) * b * / 2)%R.
        { change (-33) with (-32 + -1). rewrite bpow_plus. change (bpow radix2 (-1)) with (/ 2)%R. right. ring. }
        apply Rmult_le_compat; [apply Rmult_le_pos; [apply bpow_ge_0|lra]|lra| |lra]. apply Rmult_le_compat_r; lra.
      * right. apply Rle_trans with (bpow radix2 (-64)); [apply bpow_le; lia|]. apply round_ge_generic; auto with typeclass_instances.
        { apply generic_format_bpow. cbn. unfold fx, SpecFloat.fexp, SpecFloat.emin. lia. }
        change (-64) with (-32 + -32). rewrite bpow_plus. apply Rmult_le_compat; auto; apply bpow_ge_0.
Qed.
(** two different doubles that are 0 or at least m differ by at least m / 2^53 *)
Lemma gap m x y : (0 < m)%R -> generic_format radix2 fx x -> generic_format radix2 fx y -> (x = 0 \/ m <= x)%R -> (y = 0 \/ m <= y)%R ->
  (x < y)%R -> (m * bpow radix2 (-53) <= y - x)%R.
Proof.
  intros Hm Fx Fy Hx Hy L. assert (B : (bpow radix2 (-53) <= 1)%R) by (change 1%R with (bpow radix2 0); apply bpow_le; lia).
  destruct Hx as [->|Hx].
  - destruct Hy as [->|Hy]; [lra|]. rewrite Rminus_0_r. apply Rle_trans with (m * 1)%R; [apply Rmult_le_compat_l|]; lra.
  - assert (S1 : (succ radix2 fx x <= y)%R) by (apply succ_le_lt; auto with typeclass_instances).
    rewrite succ_eq_pos in S1 by lra. pose proof (@ulp_FLT_gt radix2 (-1074) 53 Hprec x) as U. change (FLT_exp (-1074) 53) with fx in U. change (- (53)) with (-53) in U.
    rewrite Rabs_pos_eq in U by lra. apply Rle_trans with (x * bpow radix2 (-53))%R; [apply Rmult_le_compat_r; [apply bpow_ge_0|lra]|]. lra.
Qed.

Lemma err_pos e : (- eps <= e <= eps)%R -> (0 < 1 + e)%R.
Proof. lra. Qed.

(** the bin width and its inverse *)
Lemma dB_F (m : @imap NumF) b : Fin (im_beta m) b -> moderate b -> 1 <= im_maxtau m < 2 ^ 31 ->
  exists e4 e5, (- eps <= e4 <= eps)%R /\ (- eps <= e5 <= eps)%R /\
    Fin (dBetaInverse m) (IZR (im_maxtau m) / b * ((1 + e5) / (1 + e4))).
Proof.
  intros Fb Hb Hm. pose proof (mod_pos b Hb) as Pb. set (n := im_maxtau m) in *.
  assert (Pn : (1 <= IZR n)%R) by (apply IZR_le; lia). assert (Pn' : (IZR n <= IZR (2 ^ 31))%R) by (apply IZR_le; lia).
  assert (I1 : (0 < / IZR n)%R) by (apply Rinv_0_lt_compat; lra).
  assert (I2 : (/ IZR n <= 1)%R) by (rewrite <- Rinv_1; apply Rinv_le_contravar; lra).
  assert (I3 : (/ IZR (2 ^ 31) <= / IZR n)%R) by (apply Rinv_le_contravar; lra).
  destruct (rnd_rel (b / IZR n)) as (e4 & E4 & R4).
  { apply (norm_pow (-31 + -500)); [lia|]. rewrite bpow_plus. change (bpow radix2 (-31)) with (/ IZR (2 ^ 31))%R.
    rewrite Rabs_pos_eq by (apply Rmult_le_pos; lra). rewrite Rmult_comm. apply Rmult_le_compat; [apply bpow_ge_0|left; apply Rinv_0_lt_compat, IZR_lt; lia|apply Hb|exact I3]. }
  apply ebound in E4. pose proof (err_pos _ E4) as P4.
  assert (Bn : (0 < b / IZR n <= bpow radix2 500)%R).
  { split; [apply Rmult_lt_0_compat; lra|]. apply Rle_trans with (b * 1)%R; [apply Rmult_le_compat_l; lra|]. rewrite Rmult_1_r. apply Hb. }
  assert (FdB : Fin (dBeta m) (b / IZR n * (1 + e4))).
  { rewrite <- R4. apply Fin_div; auto; [apply Fin_Zx; lia|lra|]. rewrite R4. apply (fin_pow (500 + 1)); [lia|].
    rewrite bpow_plus, bpow_1. change (IZR radix2) with 2%R.
    rewrite Rabs_pos_eq by (apply Rmult_le_pos; lra). apply Rmult_le_compat; lra. }
  set (w := (b / IZR n * (1 + e4))%R) in *. assert (Pw : (0 < w)%R) by (apply Rmult_lt_0_compat; lra).
  assert (Ew : (1 / w = IZR n / b * / (1 + e4))%R) by (unfold w; field; lra).
  destruct (rnd_rel (1 / w)) as (e5 & E5 & R5).
  { apply (norm_pow (-500 + -1)); [lia|]. rewrite bpow_plus. rewrite Rabs_pos_eq by (left; apply Rdiv_lt_0_compat; lra).
    unfold Rdiv. rewrite Rmult_1_l. change (bpow radix2 (-500)) with (/ bpow radix2 500)%R. change (bpow radix2 (-1)) with (/ 2)%R.
    rewrite <- Rinv_mult. apply Rinv_le_contravar; auto. unfold w. apply Rmult_le_compat; lra. }
  apply ebound in E5. exists e4, e5. split; auto. split; auto.
  replace (IZR n / b * ((1 + e5) / (1 + e4)))%R with (rnd (1 / w)) by (rewrite R5, Ew; field; lra).
  apply Fin_div; [apply Fin_Zx; lia|exact FdB|lra|]. rewrite R5, Ew. apply (fin_pow (31 + 500 + 2)); [lia|].
  rewrite !bpow_plus. change (bpow radix2 31) with (IZR (2 ^ 31)). change (bpow radix2 2) with 4%R.
  assert (Ib : (0 < / b)%R) by now apply Rinv_0_lt_compat.
  assert (Ib' : (/ b <= bpow radix2 500)%R).
  { apply Rle_trans with (/ bpow radix2 (-500))%R; [apply Rinv_le_contravar; [apply bpow_gt_0|apply Hb]|]. rewrite <- bpow_opp. apply Rle_refl. }
  assert (I4 : (0 < / (1 + e4) <= 2)%R).
  { split; [now apply Rinv_0_lt_compat|]. rewrite <- (Rinv_inv 2). apply Rinv_le_contravar; lra. }
  assert (N0 : (0 <= IZR n / b)%R) by (apply Rmult_le_pos; lra).
  rewrite Rabs_pos_eq by (apply Rmult_le_pos; [apply Rmult_le_pos; lra|lra]).
  rewrite Rmult_assoc. apply Rmult_le_compat; [lra| | |].
  - apply Rmult_le_pos; lra.
  - unfold Rdiv. apply Rmult_le_compat; lra.
  - replace 4%R with (2 * 2)%R by ring. apply Rmult_le_compat; lra.
Qed.

(** the factor collected by the remaining roundings *)
Lemma factor e3 e4 e5 e6 : (- eps <= e3 <= eps)%R -> (- eps <= e4 <= eps)%R -> (- eps <= e5 <= eps)%R -> (- eps <= e6 <= eps)%R ->
  (0 < (1 + e3) * ((1 + e5) / (1 + e4)) * (1 + e6) <= 1 + 8 * eps)%R.
Proof.
  intros H3 H4 H5 H6. split.
  - apply Rmult_lt_0_compat; [apply Rmult_lt_0_compat; [lra|apply Rdiv_lt_0_compat; lra]|lra].
  - replace ((1 + e3) * ((1 + e5) / (1 + e4)) * (1 + e6))%R with (((1 + e3) * (1 + e5) * (1 + e6)) / (1 + e4))%R by (field; lra).
    apply Rmult_le_reg_r with (1 + e4)%R; [lra|]. unfold Rdiv. rewrite Rmult_assoc, Rinv_l by lra.
    assert (A : ((1 + e3) * (1 + e5) <= 1 + 2.5 * eps)%R) by nra.
    assert (B : ((1 + e3) * (1 + e5) * (1 + e6) <= (1 + 2.5 * eps) * (1 + eps))%R) by (apply Rmult_le_compat; nra).
    nra.
Qed.

Lemma TauIndex_F (c : @cfg NumF) (m : @imap NumF) b t t' : Fin (c_beta c) b -> im_beta m = c_beta c -> moderate b ->
  1 <= im_maxtau m < 2 ^ 31 -> tau_gen c t -> tau_gen c t' -> 0 <= TauIndex m t t' < im_maxtau m.
Proof.
  intros Fb Eb Hb Hm T T'. pose proof (mod_pos b Hb) as Pb.
  destruct (tau_F c b t Fb Hb T) as (v & Ft & Bv & Lv). destruct (tau_F c b t' Fb Hb T') as (v' & Ft' & Bv' & Lv').
  destruct (rnd_diff _ _ (Fin_fmt _ _ Ft') (Fin_fmt _ _ Ft)) as (e3 & E3 & R3). apply ebound in E3.
  set (y := ((v' - v) / b)%R).
  assert (Ey : (v' - v = b * y)%R) by (unfold y; field; lra).
  assert (By : (- ((1 - / IZR (2 ^ 32)) * (1 + eps)) <= y <= (1 - / IZR (2 ^ 32)) * (1 + eps))%R).
  { set (Q := ((1 - / IZR (2 ^ 32)) * (1 + eps))%R) in *. clearbody Q. split; apply Rmult_le_reg_l with b; auto; rewrite <- Ey; lra. }
  assert (Ny : (y = 0 \/ bpow radix2 (-620) <= Rabs y)%R).
  { set (m0 := Rmin (bpow radix2 (-33) * b) (bpow radix2 (-65))).
    assert (Pm : (0 < m0)%R) by (apply Rmin_glb_lt; [apply Rmult_lt_0_compat; [apply bpow_gt_0|lra]|apply bpow_gt_0]).
    assert (ML : (m0 <= bpow radix2 (-33) * b)%R) by apply Rmin_l. assert (MR : (m0 <= bpow radix2 (-65))%R) by apply Rmin_r.
    assert (M0 : (bpow radix2 (-567) * b <= m0)%R).
    { apply Rmin_glb; [apply Rmult_le_compat_r; [lra|apply bpow_le; lia]|]. apply Rle_trans with (bpow radix2 (-567) * bpow radix2 500)%R.
      - apply Rmult_le_compat_l; [apply bpow_ge_0|apply Hb].
      - rewrite <- bpow_plus. apply bpow_le. lia. }
    assert (W : forall z, (z = 0 \/ bpow radix2 (-33) * b <= z \/ bpow radix2 (-65) <= z)%R -> (z = 0 \/ m0 <= z)%R) by (intros z [?|[?|?]]; [left|right|right]; lra).
    assert (GP : forall d, (m0 * bpow radix2 (-53) <= b * d)%R -> (bpow radix2 (-620) <= d)%R).
    { intros d Hd. apply Rmult_le_reg_l with b; auto. apply Rle_trans with (2 := Hd). change (-620) with (-567 + -53). rewrite bpow_plus.
      rewrite <- Rmult_assoc. apply Rmult_le_compat_r; [apply bpow_ge_0|]. rewrite Rmult_comm. exact M0. }
    destruct (Rtotal_order v v') as [L|[L|L]].
    - right. pose proof (gap m0 v v' Pm (Fin_fmt _ _ Ft) (Fin_fmt _ _ Ft') (W v Lv) (W v' Lv') L) as G. rewrite Ey in G. apply GP in G.
      apply Rle_trans with (1 := G). apply Rle_abs.
    - left. unfold y. rewrite L. field. lra.
    - right. pose proof (gap m0 v' v Pm (Fin_fmt _ _ Ft') (Fin_fmt _ _ Ft) (W v' Lv') (W v Lv) L) as G.
      replace (v - v')%R with (b * - y)%R in G by (rewrite <- Ropp_mult_distr_r, <- Ey; ring). apply GP in G.
      apply Rle_trans with (1 := G). rewrite <- Rabs_Ropp. apply Rle_abs. }
  clear Lv Lv' Bv Bv'. rewrite Ey in R3.
  assert (Fd : Fin (SFsub 53 1024 t' t) (b * y * (1 + e3))).
  { rewrite <- R3, <- Ey. apply Fin_sub; auto. rewrite Ey, R3. apply (fin_pow (500 + 2)); [lia|]. rewrite bpow_plus. change (bpow radix2 2) with 4%R.
    rewrite !Rabs_mult, (Rabs_pos_eq b) by lra. rewrite Rmult_assoc. apply Rmult_le_compat; [lra|apply Rmult_le_pos; apply Rabs_pos|apply Hb|].
    change (2 ^ 32) with 4294967296 in *. replace 4%R with (2 * 2)%R by ring.
    apply Rmult_le_compat; try apply Rabs_pos; apply Rabs_le; lra. }
  rewrite <- Eb in Fb. destruct (dB_F m b Fb Hb Hm) as (e4 & e5 & E4 & E5 & Fi).
  set (n := im_maxtau m) in *. assert (Pn : (1 <= IZR n)%R) by (apply IZR_le; lia). assert (Pn' : (IZR n <= IZR (2 ^ 31))%R) by (apply IZR_le; lia).
  set (g := ((1 + e3) * ((1 + e5) / (1 + e4)))%R).
  assert (Ep : (b * y * (1 + e3) * (IZR n / b * ((1 + e5) / (1 + e4))) = y * IZR n * g)%R) by (unfold g; field; lra).
  assert (Bg : (/ 2 <= g <= 2)%R).
  { pose proof (factor e3 e4 e5 0 E3 E4 E5 ltac:(lra)) as [F1 F2]. rewrite Rplus_0_r, Rmult_1_r in F1, F2. fold g in F1, F2. split; [|lra].
    unfold g. apply Rle_trans with (/ 1.4 * / 1.4)%R; [lra|]. apply Rmult_le_compat; try lra.
    apply Rmult_le_reg_r with (1 + e4)%R; [lra|]. unfold Rdiv. rewrite (Rmult_assoc (1 + e5)), Rinv_l by lra. lra. }
  assert (G : exists e6, (- eps <= e6 <= eps)%R /\ rnd (y * IZR n * g) = (y * IZR n * g * (1 + e6))%R).
  { destruct Ny as [-> |Ny].
    - exists 0%R. split; [lra|]. rewrite !Rmult_0_l. apply rnd0.
    - destruct (rnd_rel (y * IZR n * g)) as (e6 & E6 & R6).
      + apply (norm_pow (-620 + -1)); [lia|]. rewrite bpow_plus. change (bpow radix2 (-1)) with (/ 2)%R.
        rewrite !Rabs_mult, (Rabs_pos_eq g), (Rabs_pos_eq (IZR n)) by lra.
        apply Rmult_le_compat; [apply bpow_ge_0|lra| |lra]. apply Rle_trans with (Rabs y * 1)%R; [lra|]. apply Rmult_le_compat_l; [apply Rabs_pos|lra].
      + exists e6. split; [now apply ebound|exact R6]. }
  destruct G as (e6 & E6 & R6). pose proof (factor e3 e4 e5 e6 E3 E4 E5 E6) as [P1 P2]. fold g in P1, P2.
  set (h := (g * (1 + e6))%R) in *.
  assert (Bp : (- IZR n < y * IZR n * h < IZR n)%R).
  { assert (Z1 : (- 1 < y * h < 1)%R).
    { change (2 ^ 32) with 4294967296 in By.
      assert (Yh : (Rabs (y * h) <= (1 - / 4294967296) * (1 + eps) * (1 + 8 * eps))%R).
      { rewrite Rabs_mult, (Rabs_pos_eq h) by lra. apply Rmult_le_compat; try lra; [apply Rabs_pos|]. apply Rabs_le. lra. }
      assert (Yl : (Rabs (y * h) < 1)%R) by lra. apply Rabs_def2 in Yl. lra. }
    replace (y * IZR n * h)%R with (y * h * IZR n)%R by ring. nra. }
  assert (Fp : Fin (SFmul 53 1024 (SFsub 53 1024 t' t) (dBetaInverse m)) (y * IZR n * h)).
  { replace (y * IZR n * h)%R with (rnd (b * y * (1 + e3) * (IZR n / b * ((1 + e5) / (1 + e4)))))%R by (rewrite Ep, R6; unfold h; ring).
    apply Fin_mul; auto. rewrite Ep, R6. replace (y * IZR n * g * (1 + e6))%R with (y * IZR n * h)%R by (unfold h; ring).
    apply (fin_pow 31); [lia|]. rewrite bpow_IZR by lia. apply Rabs_le. lra. }
  unfold TauIndex, TauIndex1.
  change (@rsub NumF t' t) with (SFsub 53 1024 t' t). change (@rltb NumF) with SFltb. change (@rofZ NumF 0) with (f_ofZ 0).
  change (@rmul NumF) with (SFmul 53 1024). change (@rfloor NumF) with f_floor.
  rewrite (Fin_lt _ _ _ _ Fd (Fin_Zx 0 ltac:(lia))), !(Fin_floor _ _ Fp). fold n.
  assert (S1 : (0 < b * (1 + e3))%R) by (apply Rmult_lt_0_compat; lra).
  assert (S2 : (0 < IZR n * h)%R) by (apply Rmult_lt_0_compat; lra).
  unfold Rltb. destruct (Rlt_dec (b * y * (1 + e3)) (IZR 0)) as [Lt|Ge].
  - assert (Yn : (y < 0)%R).
    { destruct (Rlt_le_dec y 0) as [Q|Q]; auto. exfalso. assert (0 <= b * (1 + e3) * y)%R by (apply Rmult_le_pos; lra). lra. }
    assert (Pv : (y * IZR n * h < 0)%R) by (replace (y * IZR n * h)%R with (- (- y * (IZR n * h)))%R by ring; assert (0 < - y * (IZR n * h))%R by (apply Rmult_lt_0_compat; lra); lra).
    assert (F1 : (- n <= Zfloor (y * IZR n * h))) by (apply Zfloor_lub; rewrite opp_IZR; lra).
    assert (F2 : Zfloor (y * IZR n * h) < 0) by (apply lt_IZR; pose proof (Zfloor_lb (y * IZR n * h)); lra). lia.
  - assert (Yn : (0 <= y)%R).
    { destruct (Rle_lt_dec 0 y) as [Q|Q]; auto. exfalso. apply Ge. assert (0 < b * (1 + e3) * - y)%R by (apply Rmult_lt_0_compat; lra). lra. }
    assert (Pv : (0 <= y * IZR n * h)%R) by (rewrite Rmult_assoc; apply Rmult_le_pos; lra).
    assert (F1 : 0 <= Zfloor (y * IZR n * h)) by now apply Zfloor_lub.
    assert (F2 : Zfloor (y * IZR n * h) < n) by (apply lt_IZR; pose proof (Zfloor_lb (y * IZR n * h)); lra). lia.
Qed.

(** ** A sufficient condition for the hypotheses of the history theorems in IEEE doubles *)
Lemma setup_ieee (c : @cfg NumF) (b : R) :
  1 <= c_order c <= 9 -> (Z.to_nat (c_order c) < length (c_orw c))%nat ->
  Size (c_lat c) <> [] -> Forall (fun z => 0 < z < 2^31) (Size (c_lat c)) -> 0 < SublatVol (c_lat c) < 2^31 ->
  im_lat (gmap (c_tab c)) = c_lat c -> im_lat (wmap (c_tab c)) = c_lat c ->
  im_nsp (gmap (c_tab c)) = 2 -> im_nsp (wmap (c_tab c)) = 4 ->
  0 < im_maxtau (gmap (c_tab c)) < 2^31 -> 0 < im_maxtau (wmap (c_tab c)) < 2^31 ->
  tabsize (gmap (c_tab c)) < 2^32 -> tabsize (wmap (c_tab c)) < 2^32 ->
  Fin (c_beta c) b -> moderate b -> im_beta (gmap (c_tab c)) = c_beta c -> im_beta (wmap (c_tab c)) = c_beta c ->
  (c_gamma3 c = true -> t_gammaG (c_tab c) <> None /\ t_gammaW (c_tab c) <> None) ->
  cfg_ok c.
Proof.
  intros H1 H2 H3 H4 H5 H6 H7 H8 H9 H10 H11 H12 H13 H14 HM H15 H16 H17.
  assert (F : Forall (fun s => 0 < s) (Size (c_lat c))) by (eapply Forall_impl; [|exact H4]; cbv beta; intros; lia).
  constructor; auto.
  - repeat split; auto; apply H5.
  - constructor; rewrite ?H6, ?H8; auto; try lia; apply H5.
  - constructor; rewrite ?H7, ?H9; auto; try lia; apply H5.
  - intros t t' T T'. apply (TauIndex_F c _ b); auto; lia.
  - intros t t' T T'. apply (TauIndex_F c _ b); auto; lia.
Qed.
