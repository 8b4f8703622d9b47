(** * What is asked of the interaction and the transforms of one component. *)
Require Import Reals List Arith.
From Coquelicot Require Import Complex.
Require Import Verif.PyWeight Verif.Dyson.
Local Open Scope nat_scope.

(** Weight.FFT of one component: to momentum and frequency, and to momentum *)
Definition scalarKW (s : shape) (x : nat -> nat -> C) (k m : nat) : C :=
  pData (fftPlain s toKW (Plain (fun _ => x) false false)) 0 k m.
Definition scalarK (s : shape) (x : nat -> C) (k : nat) : C :=
  pData (fftPlain (noTau s) toKonly (Plain (fun _ r _ => x r) false false)) 0 k 0.

(** W0 couples Sz with Sz: the same for UP UP (3) and DOWN DOWN (0), the opposite between them, and
    nothing between them and the pairs that flip a spin (1, 2); the flattened index is row*4+column *)
Definition szForm (s : shape) (x : data) : Prop :=
  forall r, r < vol s ->
  x 0 r 0 = x 15 r 0 /\ x 12 r 0 = Copp (x 15 r 0) /\ x 3 r 0 = Copp (x 15 r 0) /\
  x 13 r 0 = RtoC 0 /\ x 14 r 0 = RtoC 0 /\ x 1 r 0 = RtoC 0 /\ x 2 r 0 = RtoC 0.

