(** * The kernel and the grids from which basis functions in imaginary time are made.
    /repo/basis.py 23-44; dyson/weight.py (IndexToTau). *)
Require Import Reals.
Local Open Scope R_scope.

(** BoseKernel, 23-30, over the real numbers; at w = 0 the code divides by zero. *)
Definition BoseKernel (w t beta : R) : R :=
  let x := beta * w / 2 in
  let y := 2 * t / beta - 1 in
  if Rlt_dec 200 x then w * exp (- x * (y + 1))
  else if Rlt_dec x (-200) then - w * exp (x * (1 - y))
  else w * exp (- x * y) / (2 * sinh x).

(** linspace(-100,100,1000), 33-34 *)
Definition wGrid (i : nat) : R := -100 + INR i * (200 / 999).

(** 36-37: the i-th of linspace(0, Beta, Nt+1)[:-1], shifted *)
Definition tGrid (Nt : nat) (beta : R) (i : nat) : R := INR i * (beta / INR Nt) + 1 / INR Nt / 2.
