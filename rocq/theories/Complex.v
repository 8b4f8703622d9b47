(** * Complex numbers. /repo/src/utility/complex.h, /repo/src/utility/complex.cpp

    A value of class Complex is its pair (Re, Im). Methods that assign through [this]
    are modelled as functions returning the new value; the aliasing forms [c *= c],
    [c /= c] are separate definitions because the C++ treats them specially. *)
From Coq Require Import ZArith Bool.
From Verif Require Import Base Num.

Section Complex.
Context {N : Num}.
Local Open Scope num_scope.

(** complex.h:24-31 *)
Record cplx := mkC { re : real; im : real }.

Definition r0 : real := rofZ 0.
Definition r1 : real := rofZ 1.

(** implicit conversion [Complex(real re, real im = 0.0)], complex.cpp:17-21 *)
Definition cofr (x : real) : cplx := mkC x r0.
Definition c0 : cplx := cofr r0.
Definition c1 : cplx := cofr r1.

(** operator+=(Complex), operator+(Complex,Complex): complex.cpp:45-50,130-133 *)
Definition cadd (a b : cplx) : cplx := mkC (re a + re b) (im a + im b).
(** operator-=(Complex), operator-(Complex,Complex): complex.cpp:58-63,150-153 *)
Definition csub (a b : cplx) : cplx := mkC (re a - re b) (im a - im b).
(** operator*=(Complex), operator*(Complex,Complex): complex.cpp:71-78,170-173 *)
Definition cmul (a b : cplx) : cplx :=
  mkC (re a * re b - im a * im b) (re a * im b + im a * re b).
(** [c *= c] (argument aliases this), complex.cpp:71-78. Re is overwritten before
    [c.Im] and [Im] are read, but [re] and [cre] were saved. *)
Definition cmul_self (a : cplx) : cplx :=
  let re0 := re a in
  let cre := re a in
  let re' := re a * re a - im a * im a in
  let im' := re0 * im a + im a * cre in
  mkC re' im'.
(** [mod2], complex.h:88-91 *)
Definition mod2 (a : cplx) : real := re a * re a + im a * im a.
(** operator/=(Complex) with distinct operands, operator/(Complex,Complex):
    complex.cpp:87-100,185-188 *)
Definition cdiv (a b : cplx) : cplx :=
  let m := mod2 b in
  mkC ((re a * re b + im a * im b) / m) ((im a * re b - re a * im b) / m).
(** [c /= c]: complex.cpp:89-92 *)
Definition cdiv_self (a : cplx) : cplx := mkC r1 r0.

(** in-place forms with a real operand: complex.cpp:52-56,65-69,80-85,102-107 *)
Definition cadd_assign_r (a : cplx) (d : real) : cplx := mkC (re a + d) (im a).
Definition csub_assign_r (a : cplx) (d : real) : cplx := mkC (re a - d) (im a).
Definition cmul_assign_r (a : cplx) (d : real) : cplx := mkC (re a * d) (im a * d).
Definition cdiv_assign_r (a : cplx) (d : real) : cplx := mkC (re a / d) (im a / d).

(** operator+(real,Complex), operator+(Complex,real): complex.cpp:135-143 *)
Definition radd_c (x : real) (c : cplx) : cplx := mkC (re c + x) (im c + x).
Definition cadd_r (c : cplx) (x : real) : cplx := mkC (re c + x) (im c + x).
(** operator-(real,Complex), operator-(Complex,real): complex.cpp:155-163 *)
Definition rsub_c (x : real) (c : cplx) : cplx := mkC (re c - x) (im c - x).
Definition csub_r (c : cplx) (x : real) : cplx := mkC (re c + x) (im c + x).
(** unary minus: complex.cpp:165-168 *)
Definition cneg (c : cplx) : cplx := mkC (rneg (re c)) (rneg (im c)).
(** operator*(real,Complex), operator*(Complex,real): complex.cpp:175-183 *)
Definition rmul_c (x : real) (c : cplx) : cplx := mkC (re c * x) (im c * x).
Definition cmul_r (c : cplx) (x : real) : cplx := mkC (re c * x) (im c * x).
(** operator/(real,Complex): complex.cpp:190-195 (defined but not declared in the
    header, so other files convert the real and use [cdiv]) *)
Definition rdiv_c (x : real) (y : cplx) : cplx :=
  let f := r1 / (re y * re y + im y * im y) in
  mkC (x * re y * f) (rneg x * im y * f).
(** operator/(Complex,real): complex.cpp:197-200 *)
Definition cdiv_r (c : cplx) (x : real) : cplx := mkC (re c / x) (im c / x).

(** IsZero, conjugate: complex.h:60-63,82-85 *)
Definition cis0 (c : cplx) : bool := reqb (re c) r0 && reqb (im c) r0.
Definition conj (c : cplx) : cplx := mkC (re c) (rneg (im c)).
(** mod: complex.h:94-97 *)
Definition cmod (c : cplx) : real := rsqrt (mod2 c).
(** phase: complex.h:104-109 *)
Definition phase (c : cplx) : cplx := if cis0 c then cofr r0 else cdiv_r c (cmod c).
(** sqrt: complex.h:117-132 *)
Definition half : real := rofZ 1 / rofZ 2.
Definition csqrt (x : cplx) : cplx :=
  let mag := cmod x in
  if reqb mag r0 then mkC r0 r0
  else if rltb r0 (re x) then
    let r := rsqrt (half * (mag + re x)) in mkC r (half * im x / r)
  else
    let i0 := rsqrt (half * (mag - re x)) in
    let i := if rltb (im x) r0 then rneg i0 else i0 in
    mkC (half * im x / i) i.
(** pow(Complex,real): complex.h:152-159. [IsZero(0.0)] tests the constant, so the
    second branch is dead; it needs log/exp and is left out ([None]). *)
Definition cpow_r (z : cplx) (u : real) : option cplx :=
  if cis0 (cofr r0) then Some (if reqb u r0 then cofr r1 else cofr r0) else None.
(** arg: complex.h:99-102, with [atan2] a parameter *)
Definition carg (atan2 : real -> real -> real) (c : cplx) : real :=
  if negb (reqb (im c) r0) then atan2 (im c) (re c) else r0.
End Complex.
