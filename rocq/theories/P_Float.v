(** IEEE binary64: the operations of NumF are the correctly rounded real operations *)
From Coq Require Import ZArith Reals Lra Lia Bool Floats.SpecFloat.
From Flocq Require Import Core BinarySingleNaN Relative Plus_error.
From Verif Require Import Base Num NumR NumF.
Open Scope Z_scope.

Notation pr53 := 53%Z (only parsing).
Notation em := 1024%Z (only parsing).
#[local] Instance Hprec : Prec_gt_0 53. Proof. reflexivity. Qed.
#[local] Instance Hmax : Prec_lt_emax 53 1024. Proof. reflexivity. Qed.
Definition B64 := binary_float 53 1024.
Definition fx : Z -> Z := SpecFloat.fexp 53 1024.
Definition rnd (x : R) : R := round radix2 fx ZnearestE x.

(** [Fin x r]: the double [x] is finite and represents the real [r] *)
Definition Fin (x : F64) (r : R) : Prop := exists b : B64, x = B2SF b /\ is_finite b = true /\ B2R b = r.

Lemma rne s m l : round_nearest_even m l = choice_mode mode_NE s m l.
Proof. destruct l as [|c]; [reflexivity|]. destruct c; try reflexivity. simpl. unfold Round.cond_incr. now destruct (Z.even m). Qed.
Lemma raux sx mx ex lx : SpecFloat.binary_round_aux 53 1024 sx mx ex lx = BinarySingleNaN.binary_round_aux 53 1024 mode_NE sx mx ex lx.
Proof.
  unfold SpecFloat.binary_round_aux, BinarySingleNaN.binary_round_aux. destruct (shr_fexp _ _ _) as [mrs e]. now rewrite (rne sx).
Qed.
Lemma rbin s m e : SpecFloat.binary_round 53 1024 s m e = BinarySingleNaN.binary_round 53 1024 mode_NE s m e.
Proof. unfold SpecFloat.binary_round, BinarySingleNaN.binary_round, shl_align_fexp. destruct (shl_align _ _ _) as [mz ez]. apply raux. Qed.
Lemma rnorm m e z : SpecFloat.binary_normalize 53 1024 m e z = B2SF (BinarySingleNaN.binary_normalize 53 1024 Hprec Hmax mode_NE m e z).
Proof. destruct m as [|p|p]; [reflexivity| |]; simpl; rewrite B2SF_SF2B; apply rbin. Qed.
Lemma mulB (x y : B64) : SFmul 53 1024 (B2SF x) (B2SF y) = B2SF (Bmult mode_NE x y).
Proof.
  destruct x as [sx|sx| |sx mx ex Bx]; destruct y as [sy|sy| |sy my ey By]; [now trivial.. | ].
  simpl. rewrite B2SF_SF2B. apply raux.
Qed.
Lemma addB (x y : B64) : SFadd 53 1024 (B2SF x) (B2SF y) = B2SF (Bplus mode_NE x y).
Proof.
  destruct x as [sx|sx| |sx mx ex Bx]; destruct y as [sy|sy| |sy my ey By]; [now (trivial || simpl; case Bool.eqb).. | ].
  apply rnorm.
Qed.
Lemma subB (x y : B64) : SFsub 53 1024 (B2SF x) (B2SF y) = B2SF (Bminus mode_NE x y).
Proof.
  destruct x as [sx|sx| |sx mx ex Bx]; destruct y as [sy|sy| |sy my ey By]; [now (trivial || simpl; case Bool.eqb).. | ].
  simpl. unfold Zminus. rewrite <- cond_Zopp_negb. apply rnorm.
Qed.
Lemma divB (x y : B64) : SFdiv 53 1024 (B2SF x) (B2SF y) = B2SF (Bdiv mode_NE x y).
Proof.
  destruct x as [sx|sx| |sx mx ex Bx]; destruct y as [sy|sy| |sy my ey By]; [now (trivial || simpl; case Bool.eqb).. | ].
  simpl. rewrite B2SF_SF2B. destruct (SFdiv_core_binary _ _ _ _ _ _) as [[mz ez] lz]. apply raux.
Qed.

Lemma Fin_mul x y a b : Fin x a -> Fin y b -> (Rabs (rnd (a * b)) < bpow radix2 1024)%R -> Fin (SFmul 53 1024 x y) (rnd (a * b)).
Proof.
  intros (u & -> & Fu & <-) (v & -> & Fv & <-) H. exists (Bmult mode_NE u v). rewrite mulB. split; auto.
  pose proof (Bmult_correct 53 1024 Hprec Hmax mode_NE u v) as Q. cbn [round_mode] in Q. fold fx in Q. fold (rnd (B2R u * B2R v)) in Q.
  rewrite Rlt_bool_true in Q by exact H. destruct Q as (Q1 & Q2 & _). now rewrite Q2, Fu, Fv.
Qed.
Lemma Fin_add x y a b : Fin x a -> Fin y b -> (Rabs (rnd (a + b)) < bpow radix2 1024)%R -> Fin (SFadd 53 1024 x y) (rnd (a + b)).
Proof.
  intros (u & -> & Fu & <-) (v & -> & Fv & <-) H. exists (Bplus mode_NE u v). rewrite addB. split; auto.
  pose proof (Bplus_correct 53 1024 Hprec Hmax mode_NE u v Fu Fv) as Q. cbn [round_mode] in Q. fold fx in Q. fold (rnd (B2R u + B2R v)) in Q.
  rewrite Rlt_bool_true in Q by exact H. destruct Q as (Q1 & Q2 & _). auto.
Qed.
Lemma Fin_sub x y a b : Fin x a -> Fin y b -> (Rabs (rnd (a - b)) < bpow radix2 1024)%R -> Fin (SFsub 53 1024 x y) (rnd (a - b)).
Proof.
  intros (u & -> & Fu & <-) (v & -> & Fv & <-) H. exists (Bminus mode_NE u v). rewrite subB. split; auto.
  pose proof (Bminus_correct 53 1024 Hprec Hmax mode_NE u v Fu Fv) as Q. cbn [round_mode] in Q. fold fx in Q. fold (rnd (B2R u - B2R v)) in Q.
  rewrite Rlt_bool_true in Q by exact H. destruct Q as (Q1 & Q2 & _). auto.
Qed.
Lemma Fin_div x y a b : Fin x a -> Fin y b -> b <> 0%R -> (Rabs (rnd (a / b)) < bpow radix2 1024)%R -> Fin (SFdiv 53 1024 x y) (rnd (a / b)).
Proof.
  intros (u & -> & Fu & <-) (v & -> & Fv & <-) Hb H. exists (Bdiv mode_NE u v). rewrite divB. split; auto.
  pose proof (Bdiv_correct 53 1024 Hprec Hmax mode_NE u v Hb) as Q. cbn [round_mode] in Q. fold fx in Q. fold (rnd (B2R u / B2R v)) in Q.
  rewrite Rlt_bool_true in Q by exact H. destruct Q as (Q1 & Q2 & _). now rewrite Q2.
Qed.
Lemma Fin_Z z : (Rabs (rnd (IZR z)) < bpow radix2 1024)%R -> Fin (f_ofZ z) (rnd (IZR z)).
Proof.
  intros H. exists (BinarySingleNaN.binary_normalize 53 1024 Hprec Hmax mode_NE z 0 false). unfold f_ofZ. rewrite rnorm. split; auto.
  pose proof (binary_normalize_correct 53 1024 Hprec Hmax mode_NE z 0 false) as Q. cbn [round_mode] in Q. fold fx in Q.
  replace (F2R {| Fnum := z; Fexp := 0 |}) with (IZR z) in Q by (unfold F2R; cbn; ring).
  cbv zeta in Q. fold (rnd (IZR z)) in Q. rewrite Rlt_bool_true in Q by exact H. tauto.
Qed.
Lemma Fin_fmt x a : Fin x a -> generic_format radix2 fx a.
Proof. intros (b & _ & _ & <-). apply generic_format_B2R. Qed.
Lemma Fin_lt x y a b : Fin x a -> Fin y b -> SFltb x y = Rltb a b.
Proof.
  intros (u & -> & Fu & <-) (v & -> & Fv & <-).
  change (Bltb u v = Rltb (B2R u) (B2R v)). rewrite (Bltb_correct 53 1024 u v Fu Fv).
  unfold Rltb. case Rlt_bool_spec; intros; destruct (Rlt_dec (B2R u) (B2R v)); auto; exfalso; lra.
Qed.
Lemma Fin_le x y a b : Fin x a -> Fin y b -> SFleb x y = Rleb a b.
Proof.
  intros (u & -> & Fu & <-) (v & -> & Fv & <-).
  change (Bleb u v = Rleb (B2R u) (B2R v)). rewrite (Bleb_correct 53 1024 u v Fu Fv).
  unfold Rleb. case Rle_bool_spec; intros; destruct (Rle_dec (B2R u) (B2R v)); auto; exfalso; lra.
Qed.
Lemma Fin_floor x a : Fin x a -> f_floor x = Zfloor a.
Proof.
  intros (u & -> & Fu & <-). destruct u as [s|s| |s m e Be]; try discriminate.
  - cbn. now rewrite Zfloor_IZR.
  - cbn [B2SF f_floor B2R]. unfold F2R. cbn [Fnum Fexp]. set (v := if s then Z.neg m else Z.pos m).
    assert (Ev : cond_Zopp s (Z.pos m) = v) by (destruct s; reflexivity). rewrite Ev. clear Fu Be.
    destruct (Z.leb_spec 0 e) as [He|He].
    + rewrite <- IZR_Zpower by auto. change (radix_val radix2) with 2. rewrite <- mult_IZR. symmetry. apply Zfloor_IZR.
    + assert (Ee : bpow radix2 e = (/ bpow radix2 (- e))%R) by (rewrite <- bpow_opp; f_equal; ring).
      rewrite Ee. rewrite <- IZR_Zpower by lia. change (radix_val radix2) with 2.
      change (v / 2 ^ (- e) = Zfloor (IZR v / IZR (2 ^ (- e)))). symmetry. apply Zfloor_div. apply Z.pow_nonzero; lia.
Qed.

(** ** Exact cases and error bounds *)
Lemma fmt_dyadic m e : Z.abs m < 2 ^ 53 -> -1074 <= e -> generic_format radix2 fx (IZR m * bpow radix2 e).
Proof.
  intros Hm He. change fx with (FLT_exp (-1074) 53). apply generic_format_FLT.
  apply (FLT_spec radix2 (-1074) 53 _ {| Fnum := m; Fexp := e |}); cbn; auto.
Qed.
Lemma rnd_fmt x : generic_format radix2 fx x -> rnd x = x.
Proof. intros H. apply round_generic; auto with typeclass_instances. Qed.
Lemma half53 : (/ 2 * bpow radix2 (-53 + 1))%R = bpow radix2 (-53).
Proof. rewrite bpow_plus, bpow_1. change (IZR radix2) with 2%R. lra. Qed.
Lemma rnd_rel x : (bpow radix2 (-1022) <= Rabs x)%R -> exists e, (Rabs e <= bpow radix2 (-53))%R /\ rnd x = (x * (1 + e))%R.
Proof.
  intros H. destruct (relative_error_N_FLT_ex radix2 (-1074) 53 Hprec (fun t => negb (Z.even t)) x) as (e & E1 & E2).
  - exact H.
  - exists e. split; [|exact E2]. rewrite <- half53. exact E1.
Qed.
Lemma rnd_sum a b : generic_format radix2 fx a -> generic_format radix2 fx b ->
  exists e, (Rabs e <= bpow radix2 (-53))%R /\ rnd (a + b) = ((a + b) * (1 + e))%R.
Proof.
  intros Ha Hb. destruct (FLT_plus_error_N_ex radix2 (-1074) 53 (fun t => negb (Z.even t)) a b Ha Hb) as (e & E1 & E2).
  exists e. split; [|exact E2]. apply Rle_trans with (1 := E1). unfold u_ro.
  assert (P : (0 < bpow radix2 (-53))%R) by apply bpow_gt_0.
  change (/ 2 * bpow radix2 (- (53) + 1))%R with (/ 2 * bpow radix2 (-53 + 1))%R. rewrite half53.
  apply Rmult_le_reg_r with (1 + bpow radix2 (-53))%R; [lra|]. unfold Rdiv. rewrite Rmult_assoc, Rinv_l by lra. nra.
Qed.
Lemma rnd_diff a b : generic_format radix2 fx a -> generic_format radix2 fx b ->
  exists e, (Rabs e <= bpow radix2 (-53))%R /\ rnd (a - b) = ((a - b) * (1 + e))%R.
Proof. intros Ha Hb. apply rnd_sum; auto. now apply generic_format_opp. Qed.
Lemma rnd0 : rnd 0 = 0%R.
Proof. apply round_0; auto with typeclass_instances. Qed.

Lemma bpow_IZR e : 0 <= e -> bpow radix2 e = IZR (2 ^ e).
Proof. intros H. now rewrite <- (IZR_Zpower radix2). Qed.
Lemma bpow_neg e : 0 <= e -> bpow radix2 (- e) = (/ IZR (2 ^ e))%R.
Proof. intros H. now rewrite bpow_opp, bpow_IZR. Qed.
Lemma fmt_Z z : Z.abs z < 2 ^ 53 -> generic_format radix2 fx (IZR z).
Proof. intros H. replace (IZR z) with (IZR z * bpow radix2 0)%R by (cbn; ring). apply fmt_dyadic; lia. Qed.
Lemma big : (bpow radix2 60 < bpow radix2 1024)%R.
Proof. apply bpow_lt. lia. Qed.
Lemma lt_big x : (Rabs x <= bpow radix2 60)%R -> (Rabs x < bpow radix2 1024)%R.
Proof. intros. pose proof big. lra. Qed.
Lemma Fin_Zx z : Z.abs z < 2 ^ 53 -> Fin (f_ofZ z) (IZR z).
Proof.
  intros H. rewrite <- (rnd_fmt (IZR z)) by now apply fmt_Z. apply Fin_Z. rewrite rnd_fmt by now apply fmt_Z.
  apply lt_big. rewrite bpow_IZR by lia. rewrite <- abs_IZR. apply IZR_le. lia.
Qed.
