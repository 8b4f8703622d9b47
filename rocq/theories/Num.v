(** * The arithmetic interface standing for C++ [real] (= double)

    [Num] is a record of operations without laws. Code-level definitions are
    written over an arbitrary [Num]; theorems that need laws are stated for the
    instance [NumR] (exact real arithmetic, NumR.v); executions use [NumF] (IEEE
    binary64, NumF.v). *)
From Coq Require Import ZArith.
From Verif Require Import Base.

Class Num := {
  real : Type;
  rofZ : Z -> real;                 (* int -> double conversion *)
  radd : real -> real -> real;
  rsub : real -> real -> real;
  rmul : real -> real -> real;
  rdiv : real -> real -> real;
  rneg : real -> real;
  rsqrt : real -> real;
  rltb : real -> real -> bool;      (* x < y *)
  rleb : real -> real -> bool;      (* x <= y *)
  reqb : real -> real -> bool;      (* x == y *)
  rfloor : real -> Z                (* (int) floor(x) *)
}.

Declare Scope num_scope.
Delimit Scope num_scope with num.
Infix "+" := radd : num_scope.
Infix "-" := rsub : num_scope.
Infix "*" := rmul : num_scope.
Infix "/" := rdiv : num_scope.
