(** * Results on complex arithmetic (C44-C47), exact arithmetic.
    The specification is Coquelicot's field of complex numbers [C]. *)
From Coq Require Import ZArith Reals Lra.
From Coquelicot Require Import Complex.
From Verif Require Import Base Num NumR Complex P_Complex.
Open Scope R_scope.

(** ** C44 The operations are those of the field C; aliased in-place forms agree. *)
Theorem C44_complex_field :
  (forall z : C, exists! a : cR, toC a = z) /\
  (forall a b : cR, toC (cadd a b) = Cplus (toC a) (toC b) /\
     toC (csub a b) = Cminus (toC a) (toC b) /\
     toC (cmul a b) = Cmult (toC a) (toC b) /\
     (toC b <> RtoC 0 -> toC (cdiv a b) = Cdiv (toC a) (toC b)) /\
     toC (cneg a) = Copp (toC a) /\ toC (conj a) = Cconj (toC a) /\
     @cmod NumR a = Cmod (toC a)) /\
  (forall a : cR, cmul_self a = cmul a a /\ (toC a <> RtoC 0 -> cdiv_self a = cdiv a a)) /\
  (forall (a : cR) (x : R),
     @rmul_c NumR x a = cmul (@cofr NumR x) a /\ @cmul_r NumR a x = cmul a (@cofr NumR x) /\
     (x <> 0 -> @cdiv_r NumR a x = cdiv a (@cofr NumR x)) /\
     @cadd_assign_r NumR a x = cadd a (@cofr NumR x) /\
     @csub_assign_r NumR a x = csub a (@cofr NumR x) /\
     (toC a <> RtoC 0 -> @rdiv_c NumR x a = cdiv (@cofr NumR x) a)).
Proof. exact complex_field. Qed.
Print Assumptions C44_complex_field.
Example C44_case : toC (@mkC NumR 3 4) <> RtoC 0 /\ cmul (@mkC NumR 3 4) (@mkC NumR 0 1) = @mkC NumR (-4) 3.
Proof.
  split.
  - intros E. apply (f_equal fst) in E. simpl in E. lra.
  - unfold cmul. cbn [re im]. change (@mkC NumR (3*0-4*1) (3*1+4*0) = @mkC NumR (-4) 3). apply mkC_eq; lra.
Qed.

(** ** C45 is false: the mixed operators touch the imaginary part, z-x adds. *)
Theorem C45_mixed_add_refuted : exists (x : R) (z : cR),
  @radd_c NumR x z <> cadd (@cofr NumR x) z /\ @cadd_r NumR z x <> cadd z (@cofr NumR x) /\
  @csub_r NumR z x <> csub z (@cofr NumR x) /\ @rsub_c NumR x z <> csub (@cofr NumR x) z.
Proof. exact mixed_add_refuted. Qed.
Print Assumptions C45_mixed_add_refuted.

(** ** C46 is false: pow(z,u) is 0 for every z and every u <> 0. *)
Theorem C46_pow_refuted :
  (forall (z : cR) (u : R), u <> 0 -> @cpow_r NumR z u = Some (@cofr NumR 0)) /\
  exists z : cR, @cpow_r NumR z 1 <> Some z /\ @cpow_r NumR z 2 <> Some (cmul z z).
Proof. exact pow_refuted. Qed.
Print Assumptions C46_pow_refuted.

(** ** C47 phase has modulus one; sqrt is the principal square root. *)
Theorem C47_phase_sqrt : forall z : cR,
  (toC z <> RtoC 0 -> Cmod (toC (phase z)) = 1 /\ toC z = Cmult (RtoC (Cmod (toC z))) (toC (phase z))) /\
  (toC z = RtoC 0 -> toC (phase z) = RtoC 0) /\
  Cmult (toC (csqrt z)) (toC (csqrt z)) = toC z /\ 0 <= fst (toC (csqrt z)).
Proof. exact phase_sqrt. Qed.
Print Assumptions C47_phase_sqrt.
Example C47_case : toC (@mkC NumR (-3) (-4)) <> RtoC 0.
Proof. intros E. apply (f_equal fst) in E. simpl in E. lra. Qed.
