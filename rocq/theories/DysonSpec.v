(* The discretised Dyson equations in space and time. *)
Require Import Reals List Arith Bool.
From Coquelicot Require Import Complex.
Require Import Verif.PyWeight Verif.PyWeightSpec Verif.Dyson.
Import ListNotations.
Local Open Scope R_scope.

(* X solves a X = b *)
Definition solves (n : nat) (a b X : matrix) : Prop :=
  forall i j, (i < n)%nat -> (j < n)%nat ->
  csum n (fun l => Cmult (a i l) (X l j)) = b i j.

(* a has an inverse. *)
Definition invertible (n : nat) (a : matrix) : Prop :=
  exists X, solves n a eye X /\ solves n X eye a.

(* The sum of two sites, each coordinate modulo the size of the lattice. *)
Fixpoint addSite (L : list nat) (r1 r2 : nat) : nat :=
  match L with
  | [] => 0%nat
  | l :: L =>
      let p := fold_right Nat.mul 1%nat L in
      (((r1 / p + r2 / p) mod l) * p + addSite L (r1 mod p) (r2 mod p))%nat
  end.

(* Going around Beta changes the sign of antisymmetric functions. *)
Definition around (s : shape) (t : nat) : C :=
  if isSymmetric s then RtoC 1 else RtoC ((-1) ^ (t / bins s)).

(* Matrix product and convolution over the lattice and the circle of time;
   the time bins t1 and t2 together reach the bin t1 + t2 + c. *)
Definition conv2 (n : nat) (s : shape) (c : nat) (x y : data) : data :=
  fun i r t =>
    csum n (fun l =>
    csum (vol s) (fun r1 => csum (vol s) (fun r2 =>
    csum (bins s) (fun t1 => csum (bins s) (fun t2 =>
      if Nat.eqb r (addSite (dims s) r1 r2) && Nat.eqb t ((t1 + t2 + c) mod bins s)
      then Cmult (around s (t1 + t2 + c))
             (Cmult (x ((i / n) * n + l)%nat r1 t1) (y (l * n + i mod n)%nat r2 t2))
      else RtoC 0))))).

(* The same with one function instantaneous: on the right, on the left. *)
Definition convR (n : nat) (s : shape) (x d : data) : data :=
  fun i r t =>
    csum n (fun l =>
    csum (vol s) (fun r1 => csum (vol s) (fun r2 =>
      if Nat.eqb r (addSite (dims s) r1 r2)
      then Cmult (x ((i / n) * n + l)%nat r1 t) (d (l * n + i mod n)%nat r2 0%nat)
      else RtoC 0))).
Definition convL (n : nat) (s : shape) (d x : data) : data :=
  fun i r t =>
    csum n (fun l =>
    csum (vol s) (fun r1 => csum (vol s) (fun r2 =>
      if Nat.eqb r (addSite (dims s) r1 r2)
      then Cmult (d ((i / n) * n + l)%nat r1 0%nat) (x (l * n + i mod n)%nat r2 t)
      else RtoC 0))).

(* Two functions given at the middle of their bins meet at the edge of a bin:
   the mean of the two bins there. *)
Definition convMean (n : nat) (s : shape) (x y : data) : data :=
  dataScale (1/2) (dataAdd (conv2 n s 0 x y) (conv2 n s 1 x y)).

(* Equal at the matrix elements of an n x n weight. *)
Definition sameIn (n : nat) (s : shape) (x y : data) : Prop :=
  forall i v t, (i < n * n)%nat -> (v < vol s)%nat -> (t < bins s)%nat ->
  x i v t = y i v t.

(* G = G0 + G0*Sigma*G + G0*SigmaDeltaT*G *)
Definition gEquation (n : nat) (s : shape) (g0 sd sg g : data) : Prop :=
  sameIn n s g
    (dataAdd g0
      (dataAdd
        (dataScale (step s * step s) (conv2 n s 1 (conv2 n s 0 g0 sg) g))
        (dataScale (step s) (convMean n s (convR n s g0 sd) g)))).

(* W = W0*Polar*W0 + W0*Polar*W *)
Definition wEquation (n : nat) (s : shape) (w0 p w : data) : Prop :=
  sameIn n s w
    (dataAdd (convR n s (convL n s w0 p) w0)
             (dataScale (step s) (convMean n s (convL n s w0 p) w))).

(* Chi = - Polar + W0*Polar*Chi *)
Definition chiEquation (n : nat) (s : shape) (w0 p chi : data) : Prop :=
  sameIn n s chi
    (dataAdd (dataScale (-1) p)
             (dataScale (step s) (convMean n s (convL n s w0 p) chi))).

(* The susceptibility as the sum of the chains - P, - P*W0*P, - P*W0*P*W0*P,
   ...: Chi = - P + P*W0*Chi *)
Definition chainEquation (n : nat) (s : shape) (w0 p chi : data) : Prop :=
  sameIn n s chi
    (dataAdd (dataScale (-1) p)
             (dataScale (step s) (convMean n s (convR n s p w0) chi))).

(* a solver that is right for matrices with an inverse *)
Definition goodSolver (solve : nat -> matrix -> matrix -> matrix) : Prop :=
  forall n a b, invertible n a -> solves n a b (solve n a b).

(* numpy's order: by real part, then by imaginary part *)
Definition lexLe (x y : C) : Prop := fst x < fst y \/ (fst x = fst y /\ snd x <= snd y).
