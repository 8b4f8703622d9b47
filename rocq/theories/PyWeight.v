(* The class Weight of dyson/weight.py: its Fourier transforms, Merge and
   RollBack.  Numbers are exact; numpy's fft, ifft, fftn and ifftn are the
   discrete Fourier sums of its documentation. *)
Require Import Reals List Arith Bool.
From Coquelicot Require Import Complex.
Import ListNotations.
Local Open Scope R_scope.

(* sum over 0..n-1 *)
Fixpoint csum (n : nat) (f : nat -> C) : C :=
  match n with
  | O => RtoC 0
  | S n => Cplus (csum n f) (f n)
  end.

(* exp(i x) *)
Definition cis (x : R) : C := (cos x, sin x).

(* What the constructor fixes, weight.py:121-169 (IndexMap: 17-32): whether
   the weight depends on time (SmoothT or DeltaT), whether it is symmetric,
   the lattice size L, MaxTauBin and Beta. *)
Record shape := Shape {
  hasTau : bool; isSymmetric : bool; dims : list nat; bins : nat; beta : R }.

(* self.Vol, weight.py:26-28 *)
Definition vol (s : shape) : nat := fold_right Nat.mul 1%nat (dims s).

(* self.Data: spin and sublattice indices (flattened), site index, time bin
   or frequency.  Without time the last index is not used. *)
Definition data := nat -> nat -> nat -> C.

(* The coordinates of a site index under numpy's reshape to the lattice size,
   weight.py:281-297 and 317-320: row-major. *)
Fixpoint coords (L : list nat) (i : nat) : list nat :=
  match L with
  | [] => []
  | _ :: L => let p := fold_right Nat.mul 1%nat L in (i / p)%nat :: coords L (i mod p)
  end.

(* sum of k_i r_i / L_i *)
Fixpoint dotOver (L k r : list nat) : R :=
  match L, k, r with
  | l :: L, a :: k, b :: r => INR a * INR b / INR l + dotOver L k r
  | _, _, _ => 0
  end.

(* np.fft.fft and np.fft.ifft of a function of n < N *)
Definition fft (N : nat) (x : nat -> C) (m : nat) : C :=
  csum N (fun n => Cmult (x n) (cis (- (2 * PI * (INR m * INR n / INR N))))).
Definition ifft (N : nat) (x : nat -> C) (n : nat) : C :=
  Cmult (RtoC (/ INR N))
    (csum N (fun m => Cmult (x m) (cis (2 * PI * (INR n * INR m / INR N))))).

(* np.fft.fftn and np.fft.ifftn over the lattice axes *)
Definition fftn (L : list nat) (x : nat -> C) (k : nat) : C :=
  csum (fold_right Nat.mul 1%nat L) (fun r =>
    Cmult (x r) (cis (- (2 * PI * dotOver L (coords L k) (coords L r))))).
Definition ifftn (L : list nat) (x : nat -> C) (r : nat) : C :=
  Cmult (RtoC (/ INR (fold_right Nat.mul 1%nat L)))
    (csum (fold_right Nat.mul 1%nat L) (fun k =>
       Cmult (x k) (cis (2 * PI * dotOver L (coords L r) (coords L k))))).

(* __fftSpace, weight.py:281-297, for Data and for AccuData alike *)
Definition spaceFwd (s : shape) (x : data) : data :=
  fun i k t => fftn (dims s) (fun r => x i r t) k.
Definition spaceBack (s : shape) (x : data) : data :=
  fun i r t => ifftn (dims s) (fun k => x i k t) r.

(* IndexToTau, weight.py:43-44 *)
Definition indexToTau (s : shape) (t : nat) : R :=
  (INR t + 0.5) * (beta s / INR (bins s)).

(* ChangeSymmetry, weight.py:219-231: for Data and AccuData alike *)
Definition changeSymmetry (s : shape) (b : R) (x : data) : data :=
  if isSymmetric s || negb (hasTau s) then x
  else fun i v t => Cmult (x i v t) (cis (- (b * PI * indexToTau s t / beta s))).

(* __AdditionalPhaseFactor, weight.py:299-315: for Data only *)
Definition extraPhase (s : shape) (b : R) (x : data) : data :=
  if hasTau s then
    fun i v m => Cmult (x i v m) (cis (- (b * PI * INR m / INR (bins s))))
  else x.

(* __fftTime, weight.py:265-279: Data *)
Definition timeFwd (s : shape) (x : data) : data :=
  if hasTau s then
    extraPhase s 1 (fun i v m => fft (bins s) (changeSymmetry s 1 x i v) m)
  else x.
Definition timeBack (s : shape) (x : data) : data :=
  if hasTau s then
    changeSymmetry s (-1)
      (fun i v n => ifft (bins s) (extraPhase s (-1) x i v) n)
  else x.

(* __fftTime, weight.py:265-279: AccuData *)
Definition accuTimeFwd (s : shape) (x : data) : data :=
  if hasTau s then (fun i v m => fft (bins s) (changeSymmetry s 1 x i v) m)
  else x.
Definition accuTimeBack (s : shape) (x : data) : data :=
  if hasTau s then
    changeSymmetry s (-1) (fun i v n => ifft (bins s) (x i v) n)
  else x.

(* Data with SpaceDomain (K or R) and TimeDomain (W or T) *)
Record plain := Plain { pData : data; pK : bool; pW : bool }.

(* a request to FFT: the space domain and the time domain asked for, if any
   (true: "K", "W"; false: "R", "T") *)
Definition request := (option bool * option bool)%type.

(* FFT, weight.py:206-218, given the transforms of space and time *)
Definition fftWith (sf sb tf tb : data -> data) (rq : request)
  (x : data) (k w : bool) : data * bool * bool :=
  let '(x, k) := match fst rq, k with
                 | Some false, true => (sb x, false)
                 | Some true, false => (sf x, true)
                 | _, _ => (x, k)
                 end in
  match snd rq, w with
  | Some false, true => (tb x, k, false)
  | Some true, false => (tf x, k, true)
  | _, _ => (x, k, w)
  end.

Definition fftPlain (s : shape) (rq : request) (p : plain) : plain :=
  let '(x, k, w) := fftWith (spaceFwd s) (spaceBack s) (timeFwd s) (timeBack s)
                            rq (pData p) (pK p) (pW p) in
  Plain x k w.

(* A Weight: Data and domains; AccuData and Norm once Merge was called;
   BackUpRatio and BackUpWeight likewise.  Simplification: BackUpWeight and
   newWeight.Data are copies here (in Python the same objects; Data is shared
   with BackUpWeight.Data while Norm is at most 1e-3). *)
Record weight := Weight {
  core : plain; accu : option (data * R); backUp : option (option R * plain) }.

Definition newWeight (p : plain) : weight := Weight p None None.

(* FFT of a Weight *)
Definition fftWeight (s : shape) (rq : request) (w : weight) : weight :=
  Weight (fftPlain s rq (core w))
    (match accu w with
     | None => None
     | Some (a, n) =>
         Some (fst (fst (fftWith (spaceFwd s) (spaceBack s)
                                 (accuTimeFwd s) (accuTimeBack s)
                                 rq a (pK (core w)) (pW (core w)))), n)
     end)
    (backUp w).

Definition dataAdd (x y : data) : data := fun i v t => Cplus (x i v t) (y i v t).
Definition dataScale (a : R) (x : data) : data :=
  fun i v t => Cmult (RtoC a) (x i v t).
Definition dataZero : data := fun _ _ _ => RtoC 0.

Definition domains (p : plain) : request := (Some (pK p), Some (pW p)).

(* Data = AccuData/Norm or the new data, weight.py:188-191, 201-204 *)
Definition shown (a : data) (n : R) (new : plain) (p : plain) : plain :=
  Plain (if Rlt_dec 1e-3 n then dataScale (/ n) a else pData new) (pK p) (pW p).

(* Merge, weight.py:176-191 *)
Definition merge (s : shape) (ratio : option R) (new : plain) (w : weight)
  : weight :=
  let new := fftPlain s (domains (core w)) new in
  let (a, n) := match accu w with Some an => an | None => (dataZero, 0) end in
  let (a, n) := match ratio with
                | Some r => (dataAdd a (dataScale r (pData new)), n + r)
                | None => (a, n)
                end in
  Weight (shown a n new (core w)) (Some (a, n)) (Some (ratio, new)).

(* RollBack, weight.py:192-204 *)
Definition rollBack (s : shape) (w : weight) : weight :=
  match backUp w, accu w with
  | Some (Some r, b), Some (a, n) =>
      let b := fftPlain s (domains (core w)) b in
      let n := n - r in
      let a := dataAdd a (dataScale (- r) (pData b)) in
      Weight (shown a n b (core w)) (Some (a, n)) (Some (Some r, b))
  | _, _ => w
  end.

Inductive wop :=
| OFFT (rq : request)
| OMerge (ratio : option R) (new : plain)
| ORollBack.

Definition wstep (s : shape) (w : weight) (o : wop) : weight :=
  match o with
  | OFFT rq => fftWeight s rq w
  | OMerge r new => merge s r new w
  | ORollBack => rollBack s w
  end.
Definition wrun (s : shape) (ops : list wop) (w : weight) : weight :=
  fold_left (wstep s) ops w.
