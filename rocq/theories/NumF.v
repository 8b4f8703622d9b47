(** * IEEE binary64: the executable instance of [Num]

    Operations of [Coq.Floats.SpecFloat] with precision 53 and emax 1024, rounding to
    nearest even. This is the specification of hardware doubles in the standard library;
    it uses no axiom and no primitive. *)
From Coq Require Import ZArith Floats.SpecFloat.
From Verif Require Import Base Num.
Open Scope Z_scope.

Definition F64 := spec_float.
Definition f_ofZ (z : Z) : F64 := binary_normalize 53 1024 z 0 false.
(** (int) floor(x); the conversion of an infinity or NaN to int is undefined in C++,
    here it gives 0. No theorem uses that case. *)
Definition f_floor (x : F64) : Z :=
  match x with
  | S754_finite s m e =>
      let v := if s then Z.neg m else Z.pos m in
      if 0 <=? e then v * 2 ^ e else v / 2 ^ (- e)
  | _ => 0
  end.

Definition NumF : Num := {|
  real := F64; rofZ := f_ofZ;
  radd := SFadd 53 1024; rsub := SFsub 53 1024; rmul := SFmul 53 1024;
  rdiv := SFdiv 53 1024; rneg := SFopp; rsqrt := SFsqrt 53 1024;
  rltb := SFltb; rleb := SFleb; reqb := SFeqb; rfloor := f_floor |}.
