(** Proofs about Complex.v in exact arithmetic, by comparison with Coquelicot's C *)
From Coq Require Import ZArith Reals Lra Lia Psatz.
From Coquelicot Require Import Complex.
From Verif Require Import Base Num NumR Complex.
Open Scope R_scope.

Notation cR := (@cplx NumR).
Definition toC (z : cR) : C := ((re z : R), (im z : R)).
Lemma mkC_eq (a b c d : R) : a = b -> c = d -> @mkC NumR a c = @mkC NumR b d.
Proof. now intros -> ->. Qed.
Definition ofC (z : C) : cR := @mkC NumR (fst z) (snd z).

Lemma toC_ofC z : toC (ofC z) = z.
Proof. destruct z; reflexivity. Qed.
Lemma ofC_toC z : ofC (toC z) = z.
Proof. destruct z; reflexivity. Qed.
Lemma toC_inj a b : toC a = toC b -> a = b.
Proof. intros H. rewrite <- (ofC_toC a), H. apply ofC_toC. Qed.

Lemma toC_cadd a b : toC (cadd a b) = Cplus (toC a) (toC b).
Proof. reflexivity. Qed.
Lemma toC_csub a b : toC (csub a b) = Cminus (toC a) (toC b).
Proof. destruct a, b; unfold toC, csub, Cminus, Cplus, Copp; simpl. f_equal; ring. Qed.
Lemma toC_cmul a b : toC (cmul a b) = Cmult (toC a) (toC b).
Proof. reflexivity. Qed.
Lemma mod2_pos (b : cR) : toC b <> RtoC 0 -> 0 < @mod2 NumR b.
Proof.
  destruct b as [x y]. intros H. change (0 < x * x + y * y).
  destruct (Req_dec x 0) as [->|Hx].
  - destruct (Req_dec y 0) as [->|Hy].
    + exfalso. apply H. reflexivity.
    + nra.
  - nra.
Qed.
Lemma toC_cdiv a b : toC b <> RtoC 0 -> toC (cdiv a b) = Cdiv (toC a) (toC b).
Proof.
  intros H. pose proof (mod2_pos b H) as P. destruct a as [x y], b as [u v].
  change (0 < u * u + v * v) in P.
  unfold toC, cdiv, Cdiv, Cinv, Cmult. cbn [re im fst snd].
  change (((x * u + y * v) / (u * u + v * v), (y * u - x * v) / (u * u + v * v)) =
   (x * (u / (u ^ 2 + v ^ 2)) - y * (- v / (u ^ 2 + v ^ 2)),
    x * (- v / (u ^ 2 + v ^ 2)) + y * (u / (u ^ 2 + v ^ 2)))).
  f_equal; field; nra.
Qed.
Lemma toC_cofr x : toC (@cofr NumR x) = RtoC x.
Proof. reflexivity. Qed.
Lemma cmul_self_eq (a : cR) : cmul_self a = cmul a a.
Proof. reflexivity. Qed.
Lemma cdiv_self_eq (a : cR) : toC a <> RtoC 0 -> cdiv_self a = cdiv a a.
Proof.
  intros H. apply toC_inj. rewrite toC_cdiv by auto. unfold Cdiv. rewrite Cinv_r by auto. reflexivity.
Qed.
Lemma cdiv_r_eq (a : cR) (x : R) : x <> 0 -> @cdiv_r NumR a x = cdiv a (@cofr NumR x).
Proof.
  intros H. apply toC_inj. rewrite toC_cdiv.
  2: { intros E. apply H. exact (RtoC_inj _ _ E). }
  destruct a as [u v]. change ((u / x, v / x) = Cdiv (u, v) (RtoC x)).
  unfold Cdiv, Cinv, Cmult, RtoC. cbn [fst snd]. f_equal; field; auto.
Qed.
Lemma rmul_c_eq (x : R) (a : cR) : @rmul_c NumR x a = cmul (@cofr NumR x) a.
Proof.
  destruct a as [u v]; change (@real NumR) with R in u, v. unfold rmul_c, cmul, cofr. cbn [re im]. unfold r0.
  change (@mkC NumR (u * x) (v * x) = @mkC NumR (x * u - 0 * v) (x * v + 0 * u)). apply mkC_eq; ring.
Qed.

Lemma complex_field :
  (forall z : C, exists! a : cR, toC a = z) /\
  (forall a b : cR, toC (cadd a b) = Cplus (toC a) (toC b) /\
     toC (csub a b) = Cminus (toC a) (toC b) /\
     toC (cmul a b) = Cmult (toC a) (toC b) /\
     (toC b <> RtoC 0 -> toC (cdiv a b) = Cdiv (toC a) (toC b)) /\
     toC (cneg a) = Copp (toC a) /\ toC (conj a) = Cconj (toC a) /\
     @cmod NumR a = Cmod (toC a)) /\
  (forall a : cR, cmul_self a = cmul a a /\ (toC a <> RtoC 0 -> cdiv_self a = cdiv a a)) /\
  (forall (a : cR) (x : R),
     @rmul_c NumR x a = cmul (@cofr NumR x) a /\ @cmul_r NumR a x = cmul a (@cofr NumR x) /\
     (x <> 0 -> @cdiv_r NumR a x = cdiv a (@cofr NumR x)) /\
     @cadd_assign_r NumR a x = cadd a (@cofr NumR x) /\
     @csub_assign_r NumR a x = csub a (@cofr NumR x) /\
     (toC a <> RtoC 0 -> @rdiv_c NumR x a = cdiv (@cofr NumR x) a)).
Proof.
  split; [|split; [|split]].
  - intros z. exists (ofC z). split; [apply toC_ofC|]. intros b <-. apply ofC_toC.
  - intros a b. split; [apply toC_cadd|]. split; [apply toC_csub|]. split; [apply toC_cmul|].
    split; [apply toC_cdiv|]. split; [reflexivity|]. split; [reflexivity|].
    destruct a as [x y]. change (R_sqrt.sqrt (x * x + y * y) = Cmod (x, y)). unfold Cmod. cbn [fst snd].
    f_equal. ring.
  - intros a. split; [reflexivity|apply cdiv_self_eq].
  - intros a x. split; [apply rmul_c_eq|]. split; [|split; [apply cdiv_r_eq|split; [|split]]].
    + destruct a as [u v]; change (@real NumR) with R in u, v. unfold cmul_r, cmul, cofr, r0. cbn [re im].
      change (@mkC NumR (u * x) (v * x) = @mkC NumR (u * x - v * 0) (u * 0 + v * x)). apply mkC_eq; ring.
    + destruct a as [u v]; change (@real NumR) with R in u, v. unfold cadd_assign_r, cadd, cofr, r0. cbn [re im].
      change (@mkC NumR (u + x) v = @mkC NumR (u + x) (v + 0)). apply mkC_eq; ring.
    + destruct a as [u v]; change (@real NumR) with R in u, v. unfold csub_assign_r, csub, cofr, r0. cbn [re im].
      change (@mkC NumR (u - x) v = @mkC NumR (u - x) (v - 0)). apply mkC_eq; ring.
    + intros H. pose proof (mod2_pos a H) as P. destruct a as [u v]. change (0 < u * u + v * v) in P.
      unfold rdiv_c, cdiv, cofr, r0, r1, mod2. cbn [re im].
      change (@mkC NumR (x * u * (1 / (u * u + v * v))) (- x * v * (1 / (u * u + v * v))) =
              @mkC NumR ((x * u + 0 * v) / (u * u + v * v)) ((0 * u - x * v) / (u * u + v * v))).
      apply mkC_eq; field; lra.
Qed.

Lemma mixed_add_refuted : exists (x : R) (z : cR),
  @radd_c NumR x z <> cadd (@cofr NumR x) z /\ @cadd_r NumR z x <> cadd z (@cofr NumR x) /\
  @csub_r NumR z x <> csub z (@cofr NumR x) /\ @rsub_c NumR x z <> csub (@cofr NumR x) z.
Proof.
  exists 1, (@mkC NumR 0 0).
  assert (K : forall a b c d : R, c <> d \/ a <> b -> @mkC NumR a c <> @mkC NumR b d).
  { intros a b c d H E. injection E as E1 E2. tauto. }
  unfold radd_c, cadd_r, csub_r, rsub_c, cadd, csub, cofr, r0. cbn [re im].
  repeat split; apply K.
  - left. change (0 + 1 <> 0 + 0). lra.
  - left. change (0 + 1 <> 0 + 0). lra.
  - left. change (0 + 1 <> 0 - 0). lra.
  - left. change (0 - 1 <> 0 - 0). lra.
Qed.

Lemma pow_refuted :
  (forall (z : cR) (u : R), u <> 0 -> @cpow_r NumR z u = Some (@cofr NumR 0)) /\
  exists z : cR, @cpow_r NumR z 1 <> Some z /\ @cpow_r NumR z 2 <> Some (cmul z z).
Proof.
  assert (A : forall (z : cR) (u : R), u <> 0 -> @cpow_r NumR z u = Some (@cofr NumR 0)).
  { intros z u H. unfold cpow_r, cis0, cofr, r0. cbn [re im].
    change (@reqb NumR (rofZ 0) (rofZ 0)) with (Reqb 0 0).
    assert (Reqb 0 0 = true) as -> by (apply Reqb_spec; reflexivity). cbn [andb].
    change (@reqb NumR u (rofZ 0)) with (Reqb u 0).
    assert (Reqb u 0 = false) as -> by (now apply Reqb_false). reflexivity. }
  split; auto. exists (@mkC NumR 1 0). split; rewrite A by lra; intros E;
    apply (f_equal (fun o : option cR => match o with Some c => re c | None => r0 end)) in E.
  - change (0 = 1) in E. lra.
  - change (0 = 1 * 1 - 0 * 0) in E. lra.
Qed.

Lemma cis0_toC (z : cR) : @cis0 NumR z = true <-> toC z = RtoC 0.
Proof.
  destruct z as [x y]. unfold cis0, toC, RtoC. cbn [re im].
  change (@reqb NumR x r0) with (Reqb x 0). change (@reqb NumR y r0) with (Reqb y 0).
  rewrite Bool.andb_true_iff, !Reqb_spec. split.
  - intros [-> ->]. reflexivity.
  - intros E. injection E as -> ->. auto.
Qed.
Lemma cmod_Cmod (a : cR) : @cmod NumR a = Cmod (toC a).
Proof. apply complex_field; exact a. Qed.
Lemma phase_nz (z : cR) : toC z <> RtoC 0 -> toC (phase z) = Cdiv (toC z) (RtoC (Cmod (toC z))).
Proof.
  intros H. unfold phase. destruct (@cis0 NumR z) eqn:E.
  - apply cis0_toC in E. contradiction.
  - rewrite cmod_Cmod. assert (Cmod (toC z) <> 0).
    { intros E0. apply H. now apply Cmod_eq_0. }
    rewrite cdiv_r_eq by auto. rewrite toC_cdiv.
    + reflexivity.
    + intros E1. apply RtoC_inj in E1. contradiction.
Qed.
Lemma phase_zero (z : cR) : toC z = RtoC 0 -> toC (phase z) = RtoC 0.
Proof. intros H. unfold phase. apply cis0_toC in H. rewrite H. reflexivity. Qed.

Lemma sqr_sum_eq0 x y : x * x + y * y = 0 -> x = 0 /\ y = 0.
Proof. intros. split; nra. Qed.

Lemma csqrt_ok (z : cR) : cmul (csqrt z) (csqrt z) = z /\ 0 <= (re (csqrt z) : R).
Proof.
  destruct z as [x y]; change (@real NumR) with R in x, y. unfold csqrt, cmod, mod2. cbn [re im].
  change (@rsqrt NumR (@radd NumR (@rmul NumR x x) (@rmul NumR y y))) with (R_sqrt.sqrt (x * x + y * y)).
  set (g := R_sqrt.sqrt (x * x + y * y)).
  assert (G0 : 0 <= g) by apply sqrt_pos.
  assert (G2 : g * g = x * x + y * y) by (apply sqrt_sqrt; nra).
  change (@reqb NumR g r0) with (Reqb g 0).
  destruct (Reqb g 0) eqn:E.
  - apply Reqb_spec in E. assert (x = 0 /\ y = 0) as [-> ->] by (apply sqr_sum_eq0; nra).
    cbn [re im cmul]. split.
    + unfold cmul. cbn [re im]. change (@mkC NumR (0 * 0 - 0 * 0) (0 * 0 + 0 * 0) = @mkC NumR 0 0).
      apply mkC_eq; ring.
    + change (0 <= 0). lra.
  - apply Reqb_false in E. assert (GP : 0 < g) by lra.
    change (@rltb NumR r0 x) with (Rltb 0 x).
    change (@half NumR) with (1 / 2). unfold half.
    destruct (Rltb 0 x) eqn:Ex.
    + apply Rltb_spec in Ex. cbn [re im].
      change (@rsqrt NumR (@rmul NumR (@rdiv NumR (@rofZ NumR 1) (@rofZ NumR 2)) (@radd NumR g x))) with (R_sqrt.sqrt (1 / 2 * (g + x))).
      set (r := R_sqrt.sqrt (1 / 2 * (g + x))).
      assert (R2 : r * r = 1 / 2 * (g + x)) by (apply sqrt_sqrt; nra).
      assert (RP : 0 < r) by (apply sqrt_lt_R0; nra).
      split; [|change (0 <= r); lra].
      unfold cmul. cbn [re im].
      change (@mkC NumR (r * r - (1 / 2 * y / r) * (1 / 2 * y / r)) (r * (1 / 2 * y / r) + (1 / 2 * y / r) * r) = @mkC NumR x y).
      apply mkC_eq.
      * assert (A : (1 / 2 * y / r) * (1 / 2 * y / r) = (y * y / 4) / (r * r)) by (field; lra).
        rewrite A, R2. replace (y * y) with (g * g - x * x) by lra.
        field. lra.
      * field. lra.
    + apply Rltb_false in Ex. cbn [re im].
      change (@rsqrt NumR (@rmul NumR (@rdiv NumR (@rofZ NumR 1) (@rofZ NumR 2)) (@rsub NumR g x))) with (R_sqrt.sqrt (1 / 2 * (g - x))).
      set (i0 := R_sqrt.sqrt (1 / 2 * (g - x))).
      assert (R2 : i0 * i0 = 1 / 2 * (g - x)) by (apply sqrt_sqrt; nra).
      assert (RP : 0 < i0) by (apply sqrt_lt_R0; nra).
      change (@rltb NumR y r0) with (Rltb y 0).
      set (i := if Rltb y 0 then @rneg NumR i0 else i0).
      assert (HI : exists j : R, i = j /\ j * j = 1 / 2 * (g - x) /\ j <> 0 /\ 0 <= y / j).
      { unfold i. destruct (Rltb y 0) eqn:Ey.
        - apply Rltb_spec in Ey. exists (- i0). split; [reflexivity|]. split; [nra|]. split; [nra|].
          replace (y / - i0) with ((- y) * / i0) by (field; lra).
          apply Rmult_le_pos; [lra|]. left. now apply Rinv_0_lt_compat.
        - apply Rltb_false in Ey. exists i0. split; [reflexivity|]. split; [nra|]. split; [nra|].
          apply Rmult_le_pos; [lra|]. left. now apply Rinv_0_lt_compat. }
      change (cmul (@mkC NumR (1 / 2 * y / i) i) (@mkC NumR (1 / 2 * y / i) i) = @mkC NumR x y
              /\ 0 <= 1 / 2 * y / i). clearbody i. destruct HI as [j [Ej [J2 [J0 JP]]]]. rewrite Ej. clear Ej i.
      split.
      * unfold cmul. cbn [re im].
        change (@mkC NumR ((1 / 2 * y / j) * (1 / 2 * y / j) - j * j) ((1 / 2 * y / j) * j + j * (1 / 2 * y / j)) = @mkC NumR x y).
        apply mkC_eq.
        -- assert (A : (1 / 2 * y / j) * (1 / 2 * y / j) = (y * y / 4) / (j * j)) by (field; lra).
           rewrite A, J2. replace (y * y) with (g * g - x * x) by lra. field.
           intros E0. apply J0. nra.
        -- field. lra.
      * change (0 <= 1 / 2 * y / j). replace (1 / 2 * y / j) with (1 / 2 * (y / j)) by (field; lra). lra.
Qed.

Lemma phase_sqrt : forall z : cR,
  (toC z <> RtoC 0 -> Cmod (toC (phase z)) = 1 /\ toC z = Cmult (RtoC (Cmod (toC z))) (toC (phase z))) /\
  (toC z = RtoC 0 -> toC (phase z) = RtoC 0) /\
  Cmult (toC (csqrt z)) (toC (csqrt z)) = toC z /\ 0 <= fst (toC (csqrt z)).
Proof.
  intros z. split; [|split].
  - intros H. assert (K : Cmod (toC z) <> 0) by (intros E0; apply H; now apply Cmod_eq_0).
    assert (KC : RtoC (Cmod (toC z)) <> RtoC 0) by (intros E1; apply RtoC_inj in E1; contradiction).
    rewrite phase_nz by auto. split.
    + rewrite Cmod_div by auto. rewrite Cmod_R. rewrite Rabs_pos_eq by apply Cmod_ge_0. field. exact K.
    + field. exact KC.
  - apply phase_zero.
  - destruct (csqrt_ok z) as [A B]. split; [|exact B]. rewrite <- toC_cmul. now rewrite A.
Qed.
