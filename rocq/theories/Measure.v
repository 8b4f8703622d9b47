(** * Observables of the Dyson job: susceptibilities and magnetisation.
    /repo/dyson/measure.py 20-34, 36-37, 52-61, 68-87, 111-113; lattice.py 219-262. *)
Require Import Reals List Arith.
From Coquelicot Require Complex.
Require Import Verif.PyWeight Verif.FirstOrder Verif.BareG.
Import ListNotations.
Import Coquelicot.Complex.
Local Open Scope R_scope.

Definition dotR (u v : list R) : R := fold_right Rplus 0 (map (fun p => fst p * snd p) (combine u v)).

(** FourierTransformation with KType "Real" and no bound, lattice.py 219-262: [vec a b r] is
    GetRealVec of site r with IN sublattice a and OUT sublattice b, any function here.  The points are
    summed by site and sublattice, in the code by LatIndex; the sum is the same. *)
Definition fourier (nsub vol : nat) (vec : nat -> nat -> nat -> list R) (D : nat -> nat -> nat -> C) (K : list R) : C :=
  Cdiv (csum nsub (fun a => csum vol (fun r => csum nsub (fun b =>
          Cmult (D a b r) (cexp (0, - dotR (vec a b r) K)))))) (RtoC (INR nsub)).

(** Chi.Data[0,a,0,b,r,t] in the time domain; index 0 of the frequency domain is the sum over the bins
    (weight.py 265-273, 299-306: the additional phase is 1 there, and Chi is "Symmetric"). *)
Definition chi := nat -> nat -> nat -> nat -> C.
Inductive domain := T | W.
Definition first (bins : nat) (d : domain) (X : chi) (a b r : nat) : C :=
  match d with T => X a b r 0%nat | W => csum bins (fun t => X a b r t) end.

(** The argument and the result of FourierTransformation at lines 27, 56 and 82 *)
Definition measured (beta : R) (bins nsub vol : nat) vec (d : domain) (X : chi) (K : list R) : C :=
  fourier nsub vol vec (fun a b r => Cmult (first bins d X a b r) (RtoC (beta / INR bins))) K.

(** 24-31: Chi is in the frequency domain *)
Definition UnifChi beta bins nsub vol vec (dim : nat) (X : chi) : C :=
  measured beta bins nsub vol vec W X (repeat 0 dim).

(** 36-37, then 52-58: Chi was brought back to the time domain, and the line that would bring it to the
    frequency domain again is not there.  Lattices Chain, Square, Cubic, Checkerboard, ... *)
Definition StagChi beta bins nsub vol vec (dim : nat) (X : chi) : C :=
  measured beta bins nsub vol vec T X (repeat PI dim).

(** 68-84, Triangular: brought to the frequency domain first *)
Definition StagChiTriangular beta bins nsub vol vec (K : list R) (X : chi) : C :=
  measured beta bins nsub vol vec W X K.

(** 60 *)
Definition StagMag2 beta bins nsub vol vec (dim : nat) (X : chi) : C :=
  Cdiv (Cdiv (Cdiv (StagChi beta bins nsub vol vec dim X) (RtoC (INR vol))) (RtoC (INR nsub))) (RtoC beta).

(** 113, the entry "<Sz_i>"; DOWN, UP are 0, 1; at least two bins *)
Definition Sz (bins : nat) (G : arr) (i : nat) : C :=
  let g s k := G s i s i 0%nat (bins - k)%nat in
  Cmult (RtoC (-1/2))
    (Cplus (Cminus (Cminus (Cmult (RtoC (3/2)) (g 1 1)%nat) (Cmult (RtoC (1/2)) (g 1 2)%nat))
                   (Cmult (RtoC (3/2)) (g 0 1)%nat))
           (Cmult (RtoC (1/2)) (g 0 2)%nat)).
