(** * EnforceSumRule in one version of the Dyson job.
    /repo/dyson/main.py 273-292, with Measure 21-25. *)
Require Import Reals List Arith Bool.
From Coquelicot Require Import Complex.
Require Import Verif.PyWeight Verif.Dyson Verif.FirstOrder.
Local Open Scope R_scope.

Definition toRT : request := (Some false, Some false).

(** np.sqrt of a complex number: the root in the right half-plane *)
Definition csqrt (z : C) : C :=
  (sqrt ((Cmod z + fst z) / 2),
   if Rlt_dec (snd z) 0 then - sqrt ((Cmod z - fst z) / 2) else sqrt ((Cmod z - fst z) / 2)).

Section Rule.
(** [solve] as in Dyson.v.  [p] is Polar.Data, in K, W since W_Dyson asked for it. *)
Variable solve : nat -> matrix -> matrix -> matrix.
Variables (nsub : nat) (s : shape) (W0 : plain) (G : arr).

(** ChiTensor of W_Dyson, 275 and 286, once FFT("R","T") was called on it *)
Definition connected (p : data) : arr :=
  let x := pData (fftPlain s toRT (snd (wDyson solve (4 * nsub) s W0 (Plain p true true)))) in
  fun a sa b sb r t => el (4 * nsub) x r t (a * nsub + sa)%nat (b * nsub + sb)%nat.

(** ChiTensor after Add_ChiTensor_ZerothOrder, 278 and 287 *)
Definition chiTensor (p : data) : arr := addChiZeroth (bins s) G (connected p).

(** Chi.Data[0,0,0,0,0,0], 279-280 and 288-289 *)
Definition chi0 (p : data) : C := calculateChi (chiTensor p) 0 0 0 0.

(** 283-285: PolarSumRule is Polar itself.  Simplification: Chi.Data[0,0,0,0,0,0] is not 0, where numpy
    goes on with nan. *)
Definition ratio (p : data) : C := csqrt (Cdiv (RtoC (3 / 4)) (chi0 p)).
Definition rescale (p : data) : data := fun i k m => Cmult (p i k m) (ratio p).

(** The loop, 282-290, at most [fuel] times; None when it goes on.  Simplification: DenorminatorTouchZero
    does not occur. *)
Fixpoint enforce (fuel : nat) (p : data) : option data :=
  if Rle_dec (Cmod (Cminus (chi0 p) (RtoC (3 / 4)))) (1 / 1000) then Some p
  else match fuel with O => None | S f => enforce f (rescale p) end.

(** Chi of Measure, 24-25, called at 323-325 with the ChiTensor of the loop, or with that of 275 when
    EnforceSumRule is off *)
Definition reported (on : bool) (p : data) (m n v t : nat) : C :=
  calculateChi (addChiZeroth (bins s) G (if on then chiTensor p else connected p)) m n v t.
End Rule.
