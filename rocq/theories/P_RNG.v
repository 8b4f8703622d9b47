(** Proofs about RNG.v *)
From Coq Require Import ZArith Lia Bool Reals Lra ZifyBool.
From Verif Require Import Base Num NumR RNG.
Open Scope Z_scope.

Lemma s32_range x : - 2^31 <= s32 x < 2^31.
Proof. unfold s32. pose proof (Z.mod_pos_bound x (2^32)).
  cbv zeta. destruct (x mod 2 ^ 32 <? 2 ^ 31) eqn:E; lia. Qed.
Lemma s32_id x : - 2^31 <= x < 2^31 -> s32 x = x.
Proof.
  intros H. unfold s32. cbv zeta. destruct (Z.ltb_spec x 0).
  - assert (E : x mod 2^32 = x + 2^32).
    { symmetry. apply Z.mod_unique with (q := -1); lia. }
    rewrite E. destruct (x + 2 ^ 32 <? 2 ^ 31) eqn:E2; lia.
  - rewrite Z.mod_small by lia. destruct (x <? 2 ^ 31) eqn:E2; lia.
Qed.
Lemma s32_inj x y : 0 <= x < 2^32 -> 0 <= y < 2^32 -> s32 x = s32 y -> x = y.
Proof.
  intros Hx Hy. unfold s32. cbv zeta. rewrite !Z.mod_small by assumption.
  destruct (x <? 2 ^ 31) eqn:E1; destruct (y <? 2 ^ 31) eqn:E2; lia.
Qed.

Lemma urn_R x : @urn_of NumR x = (IZR (s32 x + 2^31) / IZR (2^32))%R.
Proof.
  change (IZR (s32 x) * (IZR 1 / IZR (2^32)) + IZR 1 / IZR 2 = IZR (s32 x + 2^31) / IZR (2^32))%R.
  rewrite plus_IZR. replace (IZR (2^31)) with (IZR (2^32) / 2)%R.
  2: { change (2^32) with (2 * 2^31). rewrite mult_IZR. field. }
  field. apply IZR_neq. discriminate.
Qed.
Lemma urn_R_range x : (0 <= @urn_of NumR x < 1)%R.
Proof.
  rewrite urn_R. pose proof (s32_range x) as H.
  assert (0 <= IZR (s32 x + 2^31))%R by (apply IZR_le; lia).
  assert (IZR (s32 x + 2^31) < IZR (2^32))%R by (apply IZR_lt; lia).
  assert (P : (0 < IZR (2^32))%R) by (apply IZR_lt; lia).
  split.
  - apply Rmult_le_pos; auto. left. now apply Rinv_0_lt_compat.
  - apply (Rmult_lt_reg_r (IZR (2^32))); auto. unfold Rdiv. rewrite Rmult_assoc, Rinv_l; lra.
Qed.

Lemma irn_spec a b x :
  - 2^31 <= a -> a <= b -> b < 2^31 -> b - a + 1 < 2^31 -> 0 <= x ->
  irn_of a b x = Ok (a + x mod (b - a + 1)).
Proof.
  intros Ha Hab Hb Hr Hx. unfold irn_of.
  assert (E : int_ok (b - a) && int_ok (b - a + 1) = true) by (unfold int_ok; lia).
  rewrite E. simpl negb. cbv iota.
  assert (Em : u64 (b - a + 1) = b - a + 1) by (unfold u64; apply Z.mod_small; lia).
  rewrite Em. cbv zeta. destruct (b - a + 1 =? 0) eqn:E0; [lia|].
  f_equal. pose proof (Z.mod_pos_bound x (b - a + 1)) as Hm.
  set (m := x mod (b - a + 1)) in *.
  unfold u64. rewrite Z.add_mod_idemp_r by lia.
  unfold s32. cbv zeta.
  assert (E1 : ((m + a) mod 2 ^ 64) mod 2 ^ 32 = (m + a) mod 2^32).
  { rewrite <- Znumtheory.Zmod_div_mod; try lia. exists (2^32). lia. }
  rewrite E1. fold (s32 (m + a)). rewrite s32_id; lia.
Qed.
Lemma irn_01 x : 0 <= x -> exists y, irn_of 0 1 x = Ok y /\ (y = 0 \/ y = 1).
Proof.
  intros H. exists (x mod 2). rewrite irn_spec by lia. split; [f_equal; lia|].
  pose proof (Z.mod_pos_bound x 2). lia.
Qed.
Lemma irn_ok a b x : - 2^31 <= a -> a <= b -> b < 2^31 -> b - a + 1 < 2^31 -> 0 <= x ->
  exists y, irn_of a b x = Ok y /\ a <= y <= b.
Proof.
  intros. exists (a + x mod (b - a + 1)). rewrite irn_spec by assumption. split; auto.
  pose proof (Z.mod_pos_bound x (b - a + 1)). lia.
Qed.
Lemma u32_range x : 0 <= u32 x < 2^32.
Proof. unfold u32. apply Z.mod_pos_bound. lia. Qed.

Lemma pow2_32 : IZR (2^32) = (2 ^ 32)%R.
Proof. change (2^32) with (2 ^ Z.of_nat 32). rewrite <- (pow_IZR 2 32). reflexivity. Qed.

Lemma s32_onto j : 0 <= j < 2^32 -> exists x, 0 <= x < 2^32 /\ s32 x + 2^31 = j.
Proof.
  intros H. exists ((j - 2^31) mod 2^32). split.
  - apply Z.mod_pos_bound. lia.
  - unfold s32. cbv zeta. rewrite Z.mod_mod by lia.
    destruct (Z.ltb_spec j (2^31)).
    + replace ((j - 2^31) mod 2^32) with (j + 2^31).
      2: { apply Z.mod_unique with (q := -1); lia. }
      destruct (Z.ltb_spec (j + 2^31) (2^31)); lia.
    + rewrite Z.mod_small by lia. destruct (Z.ltb_spec (j - 2^31) (2^31)); lia.
Qed.

Lemma urn_grid :
  (forall x : Z, 0 <= x < 2^32 ->
     exists j : Z, 0 <= j < 2^32 /\ @urn_of NumR x = (IZR j / 2 ^ 32)%R /\ (0 <= @urn_of NumR x < 1)%R)
  /\ (forall j : Z, 0 <= j < 2^32 ->
     exists x : Z, 0 <= x < 2^32 /\ @urn_of NumR x = (IZR j / 2 ^ 32)%R)
  /\ (forall x y : Z, 0 <= x < 2^32 -> 0 <= y < 2^32 ->
     @urn_of NumR x = @urn_of NumR y -> x = y).
Proof.
  split; [|split].
  - intros x H. exists (s32 x + 2^31). split; [pose proof (s32_range x); lia|].
    split; [|apply urn_R_range]. rewrite urn_R. now rewrite <- pow2_32.
  - intros j H. destruct (s32_onto j H) as [x [H1 H2]]. exists x. split; auto.
    rewrite urn_R, H2. now rewrite <- pow2_32.
  - intros x y Hx Hy E. rewrite !urn_R in E. apply s32_inj; auto.
    assert (IZR (s32 x + 2 ^ 31) = IZR (s32 y + 2 ^ 31)).
    { apply (Rmult_eq_reg_r (/ IZR (2^32))%R); [exact E|]. apply Rinv_neq_0_compat, IZR_neq. discriminate. }
    apply eq_IZR in H. lia.
Qed.

Lemma irn_range :
  forall a b : Z, - 2^31 <= a -> b < 2^31 ->
   (a <= b -> b - a + 1 < 2^31 ->
     (forall x, 0 <= x < 2^32 -> exists y, irn_of a b x = Ok y /\ a <= y <= b) /\
     (forall y, a <= y <= b -> exists x, 0 <= x < 2^32 /\ irn_of a b x = Ok y)) /\
   (b = a - 1 -> forall x, irn_of a b x = UB).
Proof.
  intros a b Ha Hb. split.
  - intros H1 H2. split.
    + intros x Hx. apply irn_ok; lia.
    + intros y Hy. exists (y - a). split; [lia|]. rewrite irn_spec by lia.
      rewrite Z.mod_small by lia. f_equal. lia.
  - intros -> x. unfold irn_of. replace (a - 1 - a) with (-1) by lia. reflexivity.
Qed.
