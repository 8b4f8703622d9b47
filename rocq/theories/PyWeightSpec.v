(* What the transforms of the class Weight stand for. *)
Require Import Reals List Arith Bool.
From Coquelicot Require Import Complex.
Require Import Verif.PyWeight.
Import ListNotations.
Local Open Scope R_scope.

(* A lattice with sites, at least one time bin, and Beta > 0. *)
Definition proper (s : shape) : Prop :=
  Forall (fun l => (0 < l)%nat) (dims s) /\ (0 < bins s)%nat /\ 0 < beta s.

(* Equal at every site and every time bin. *)
Definition same (s : shape) (x y : data) : Prop :=
  forall i v t, (v < vol s)%nat -> (t < bins s)%nat -> x i v t = y i v t.

(* The middle of time bin n; the Matsubara frequency m: even multiples of
   pi/Beta for symmetric functions of time, odd ones for antisymmetric. *)
Definition binTime (s : shape) (n : nat) : R :=
  (INR n + 1/2) * beta s / INR (bins s).
Definition matsubara (s : shape) (m : nat) : R :=
  (if isSymmetric s then 2 * INR m else 2 * INR m + 1) * PI / beta s.

(* Wave vector k times site r, both given by their index. *)
Definition kDotR (s : shape) (k r : nat) : R :=
  2 * PI * dotOver (dims s) (coords (dims s) k) (coords (dims s) r).

Definition toK (s : shape) (x : data) : data := fun i k t =>
  csum (vol s) (fun r => Cmult (x i r t) (cis (- kDotR s k r))).
Definition toW (s : shape) (x : data) : data := fun i v m =>
  csum (bins s) (fun n => Cmult (x i v n) (cis (- (matsubara s m * binTime s n)))).

(* The function x of site and time, seen in the given domains. *)
Definition seenIn (s : shape) (k w : bool) (x : data) : data :=
  let y := if k then toK s x else x in
  if w && hasTau s then toW s y else y.

(* A weight in its domains stands for the function x of site and time. *)
Definition standsFor (s : shape) (p : plain) (x : data) : Prop :=
  same s (pData p) (seenIn s (pK p) (pW p) x).

(* Weights merged so far and not taken back, the latest first, each with its
   ratio; their ratios added up, and their average. *)
Definition entry := (R * data)%type.
Definition ratios (b : list entry) : R := fold_right (fun e => Rplus (fst e)) 0 b.
Definition total (b : list entry) : data := fun i v t =>
  fold_right (fun e => Cplus (Cmult (RtoC (fst e)) (snd e i v t))) (RtoC 0) b.
Definition average (b : list entry) : data := fun i v t =>
  Cmult (RtoC (/ ratios b)) (total b i v t).

Definition asked (o : option bool) (b : bool) : bool :=
  match o with Some b' => b' | None => b end.

(* Calls in good order on a weight that starts in domains (k0, w0): any FFT at
   any time; Merge and RollBack always in the same time domain `home` (unless
   the weight does not depend on time); at most one RollBack per Merge, before
   the next Merge.  The indices are the domains reached, the weights merged
   and not taken back, and whether a RollBack is still due. *)
Inductive tidy (s : shape) (home k0 w0 : bool)
  : list wop -> bool -> bool -> list entry -> bool -> Prop :=
| tidy_start : tidy s home k0 w0 [] k0 w0 [] false
| tidy_fft : forall ops k w b due rq,
    tidy s home k0 w0 ops k w b due ->
    tidy s home k0 w0 (ops ++ [OFFT rq])
         (asked (fst rq) k) (asked (snd rq) w) b due
| tidy_merge : forall ops k w b due r new x,
    tidy s home k0 w0 ops k w b due ->
    hasTau s = false \/ w = home ->
    standsFor s new x ->
    tidy s home k0 w0 (ops ++ [OMerge (Some r) new]) k w ((r, x) :: b) true
| tidy_back : forall ops k w b e,
    tidy s home k0 w0 ops k w (e :: b) true ->
    hasTau s = false \/ w = home ->
    tidy s home k0 w0 (ops ++ [ORollBack]) k w b false.
