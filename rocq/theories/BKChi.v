(** * The susceptibility from the three-point function on one sublattice.
    /repo/dyson/gamma3_calc.py 456-525, used in /repo/dyson/main.py 27-29. *)
Require Import Reals List Arith Bool.
From Coquelicot Require Import Complex.
Require Import Verif.PyWeight Verif.Dyson Verif.FirstOrder Verif.Vertex.
Import ListNotations.
Local Open Scope nat_scope.

(** BKPolar.Data[p,0,q,0,:,:]=x for a map with one sublattice: the flattened index is p*4+q *)
Definition setBlock (d : data) (p q : nat) (x : nat -> nat -> C) : data :=
  fun i r t => if i =? p * 4 + q then x r t else d i r t.

(** FullGGGammaG, 456-474: the diagonal of GGGammaG in time.  Spin2Index(UP,UP) and
    Spin2Index(DOWN,DOWN) are weight.py 80-81. *)
Definition bkPolar (v : vertex) : data :=
  let UPUP := spin2Index UP UP in
  let DOWNDOWN := spin2Index DOWN DOWN in
  let uu := fun r i => v UP r i i in
  let du := fun r i => v DOWN r i i in
  setBlock (setBlock (setBlock (setBlock dataZero UPUP UPUP uu)
    DOWNDOWN DOWNDOWN uu) DOWNDOWN UPUP du) UPUP DOWNDOWN du.

(** FullGGGammaG, 478-488.  [solve] is LUFactor with LUSolve; Check_Denorminator only logs (516-525) and
    the determinant, not used in main.py 28, is left out. *)
Definition bkChiTensor (solve : nat -> matrix -> matrix -> matrix) (s : shape) (W0 : plain) (v : vertex) : plain :=
  let p := pData (fftPlain s toKW (Plain (bkPolar v) false false)) in
  let w0 := pData (fftPlain (noTau s) toKonly W0) in
  Plain (ofMatrix 4 (fun k m => solve 4 (wDenorm 4 s w0 p k m) (fun a b => Copp (el 4 p k m a b)))) true true.

(** Calculate_Chi, 491-513, on one sublattice; calculator.py 186-209 is the same *)
Definition chiOne (x : plain) (k m : nat) : C :=
  calculateChi (fun a _ b _ k m => el 4 (pData x) k m a b) 0 0 k m.

(** Polar.Data of Polar_FirstOrder (calculator.py 60-79) on one sublattice, flattened likewise *)
Definition polarOne (N : nat) (G : arr) : data :=
  fun i r t => polarFirst 1 N G (i / 4) 0 (i mod 4) 0 r t.

(** The line that SimpleGG reads: site 0 of G *)
Definition lineOf (G : arr) : line := fun s t => G s 0 s 0 0 t.
