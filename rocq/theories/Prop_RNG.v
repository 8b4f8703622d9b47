(** * Results on the random helpers (C31, C32) *)
From Coq Require Import ZArith Lia Reals.
From Verif Require Import Base Num NumR RNG P_RNG.
Open Scope Z_scope.

(** ** C31 urn() is in [0,1), on a grid of 2^32 equally spaced values, injectively. *)
Theorem C31_urn_unit_interval :
  (forall x : Z, 0 <= x < 2^32 ->
     exists j : Z, 0 <= j < 2^32 /\ @urn_of NumR x = (IZR j / 2 ^ 32)%R /\ (0 <= @urn_of NumR x < 1)%R)
  /\ (forall j : Z, 0 <= j < 2^32 ->
     exists x : Z, 0 <= x < 2^32 /\ @urn_of NumR x = (IZR j / 2 ^ 32)%R)
  /\ (forall x y : Z, 0 <= x < 2^32 -> 0 <= y < 2^32 ->
     @urn_of NumR x = @urn_of NumR y -> x = y).
Proof. exact urn_grid. Qed.
Print Assumptions C31_urn_unit_interval.
Example C31_case : @urn_of NumR (2^31) = 0%R /\ @urn_of NumR 0 = (1/2)%R.
Proof. split; rewrite urn_R; cbn; Lra.lra. Qed.

(** ** C32 irn(a,b): value a + (word mod (b-a+1)); onto [a,b]; b = a-1 divides by zero;
    an int overflow of the range is UB. *)
Theorem C32_irn_range :
  forall a b : Z, - 2^31 <= a -> b < 2^31 ->
   (a <= b -> b - a + 1 < 2^31 ->
     (forall x, 0 <= x < 2^32 -> exists y, irn_of a b x = Ok y /\ a <= y <= b) /\
     (forall y, a <= y <= b -> exists x, 0 <= x < 2^32 /\ irn_of a b x = Ok y)) /\
   (b = a - 1 -> forall x, irn_of a b x = UB).
Proof. exact irn_range. Qed.
Print Assumptions C32_irn_range.
Example C32_case : irn_of (-10000) 10000 (2^32 - 1) = Ok (-10000 + (2^32-1) mod 20001)
                   /\ irn_of 0 (-1) 7 = UB.
Proof. split; reflexivity. Qed.
