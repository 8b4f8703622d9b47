(** * The entry "<n_i>" of the Dyson job.  /repo/dyson/measure.py 115-117. *)
Require Import Reals List Arith.
From Coquelicot Require Complex.
Require Import Verif.PyWeight Verif.FirstOrder Verif.BareG.
Import ListNotations.
Import Coquelicot.Complex.
Local Open Scope R_scope.

(** 115 brings G, which 111 has brought to "R","T", to "K","T"; 117 sums the values
    extrapolated from the last two bins over all momenta and divides by Map.Vol.  L is the
    lattice size, bins the number of time bins, at least two; DOWN, UP are 0, 1. *)
Definition occupation (L : list nat) (bins : nat) (G : arr) (i : nat) : C :=
  let vol := fold_right Nat.mul 1%nat L in
  let g s k q := fftn L (fun r => G s i s i r (bins - k)%nat) q in
  Cdiv
    (csum vol (fun q =>
       Cminus (Cplus (Cminus (Cmult (RtoC (3/2)) (g 1 1 q)%nat) (Cmult (RtoC (1/2)) (g 1 2 q)%nat))
                     (Cmult (RtoC (3/2)) (g 0 1 q)%nat))
              (Cmult (RtoC (1/2)) (g 0 2 q)%nat)))
    (RtoC (INR vol)).
