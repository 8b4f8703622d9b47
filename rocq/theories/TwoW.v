(** * AddTwoW_To_GammaW: two interaction lines are attached by Fourier transforms.
    /repo/dyson/gamma3_calc.py 205-233, 316-408. *)
Require Import Reals List Arith Bool ZArith.
From Coquelicot Require Import Complex.
Require Import Verif.PyWeight Verif.Vertex.
Import ListNotations.
Local Open Scope nat_scope.

(** Wtot[:,:,:,::Interval] with Interval = MaxTauBin/TauBin in whole numbers, 342-343: the bins that are
    kept; [None] is the ValueError of a step of zero (TauBin = 0 divides by zero first). *)
Definition kept (maxTau tiny : nat) : option (list nat) :=
  let k := maxTau / tiny in
  if (tiny =? 0) || (k =? 0) then None else Some (map (fun i => i * k) (seq 0 ((maxTau + k - 1) / k))).

(** Wtot, 334-344, as a function of the site and the number of the sample: the mean of the two bins that
    meet at the sample times the width of a step, and the instantaneous W0 at time 0.  [W r] is
    W.Data[UPUP,0,UPUP,0,r,:]. *)
Definition wtot (beta : R) (maxTau tiny : nat) (W : nat -> nat -> C) (W0 : nat -> C) (bin : nat) (r t : nat) : C :=
  Cplus (Cmult (wshift maxTau (W r) bin) (RtoC (beta / INR tiny))) (if t =? 0 then W0 r else RtoC 0).

(** 372-389 for the component s, as a function of two combined indices r*TauBin+t: FFTGammaW transforms
    over all axes, which is [fftn] over Lx, Ly, TauBin in both indices; Wtot is transformed likewise
    (347-354).  The result with the final sign (408); complex64 rounding left out. *)
Definition forth2 (L : list nat) (x : nat -> nat -> C) (k1 k2 : nat) : C :=
  fftn L (fun a => fftn L (x a) k2) k1.
Definition back2 (L : list nat) (y : nat -> nat -> C) (a b : nat) : C :=
  ifftn L (fun k1 => ifftn L (y k1) b) a.
Definition addTwoW (L : list nat) (s : nat) (w : nat -> C) (x : nat -> nat -> C) (a b : nat) : C :=
  let two := if s =? 0 then RtoC 1 else RtoC 2 in
  Cmult (RtoC (-1)) (back2 L (fun k1 k2 =>
    Cmult (Cmult (forth2 L x k1 k2) (Cmult (fftn L w k1) two)) (Cmult (fftn L w k2) two)) a b).
