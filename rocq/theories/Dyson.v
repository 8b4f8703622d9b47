(* The two Dyson equations of dyson/calculator.py, G_Dyson and W_Dyson, and
   Check_Denorminator.  Numbers are exact. *)
Require Import Reals List Arith Bool.
From Coquelicot Require Import Complex.
Require Import Verif.PyWeight.
Import ListNotations.
Local Open Scope R_scope.

Definition matrix := nat -> nat -> C.

(* Data reshaped to [NSpin*NSub, NSpin*NSub, ...], weight.py:243-250 and
   323-325: the flattened index of (row, column) is row-major. *)
Definition el (n : nat) (x : data) (v t : nat) : matrix :=
  fun a b => x (a * n + b)%nat v t.
Definition ofMatrix (n : nat) (f : nat -> nat -> matrix) : data :=
  fun i v t => f v t (i / n)%nat (i mod n)%nat.

(* np.einsum("ijklv..,klmnv..->ijmnv..") at one v and t *)
Definition mm (n : nat) (a b : matrix) : matrix :=
  fun i j => csum n (fun l => Cmult (a i l) (b l j)).
(* np.eye reshaped *)
Definition eye : matrix := fun i j => if Nat.eqb i j then RtoC 1 else RtoC 0.

Definition toKW : request := (Some true, Some true).
Definition toKonly : request := (Some true, None).

(* The shape of a DeltaT weight on the same map *)
Definition noTau (s : shape) : shape :=
  Shape false (isSymmetric s) (dims s) (bins s) (beta s).

(* Beta/MaxTauBin *)
Definition step (s : shape) : R := beta s / INR (bins s).

Section Dyson.
(* weight.LUFactor and Weight.LUSolve (Fortran, dyson/solver): what they
   return for the matrix a and the right-hand side b at one v and t. *)
Variable solve : nat -> matrix -> matrix -> matrix.

(* G_Dyson, calculator.py:136-160: Denorm *)
Definition gDenorm (n : nat) (s : shape) (g0 sd sg : data) (v t : nat) : matrix :=
  let c := cos (PI * indexToTau s t / beta s) in
  fun a b =>
    Cminus (eye a b)
      (Cmult (RtoC (step s))
         (Cplus (Cmult (RtoC (step s)) (mm n (el n g0 v t) (el n sg v t) a b))
                (Cmult (mm n (el n g0 v t) (el n sd v 0) a b) (RtoC c)))).

(* G_Dyson, calculator.py:136-160.  Simplification: Check_Denorminator is
   checkFails below. *)
Definition gDyson (n : nat) (s : shape) (G0 SigmaDeltaT Sigma : plain) : plain :=
  let g0 := pData (fftPlain s toKW G0) in
  let sd := pData (fftPlain (noTau s) toKonly SigmaDeltaT) in
  let sg := pData (fftPlain s toKW Sigma) in
  Plain (ofMatrix n (fun v t => solve n (gDenorm n s g0 sd sg v t) (el n g0 v t)))
        true true.

(* Calculate_Denorminator, calculator.py:107-119 *)
Definition wDenorm (n : nat) (s : shape) (w0 p : data) (v t : nat) : matrix :=
  let c := cos (INR t * PI / INR (bins s)) in
  fun a b =>
    Cminus (eye a b)
      (Cmult (Cmult (mm n (el n w0 v 0) (el n p v t) a b) (RtoC (step s))) (RtoC c)).

(* W_Dyson, calculator.py:121-134: W and ChiTensor *)
Definition wDyson (n : nat) (s : shape) (W0 Polar : plain) : plain * plain :=
  let w0 := pData (fftPlain (noTau s) toKonly W0) in
  let p := pData (fftPlain s toKW Polar) in
  (Plain (ofMatrix n (fun v t =>
            solve n (wDenorm n s w0 p v t)
                  (mm n (mm n (el n w0 v 0) (el n p v t)) (el n w0 v 0)))) true true,
   Plain (ofMatrix n (fun v t =>
            solve n (wDenorm n s w0 p v t)
                  (fun a b => Copp (el n p v t a b)))) true true).
End Dyson.

(* numpy's order of complex numbers (min): the real part first *)
Definition below (x y : C) : bool :=
  if Rlt_dec (fst x) (fst y) then true
  else if Rlt_dec (fst y) (fst x) then false
  else if Rlt_dec (snd x) (snd y) then true else false.
Fixpoint smallest (x : C) (l : list C) : C :=
  match l with
  | [] => x
  | y :: l => smallest (if below y x then y else x) l
  end.

(* Check_Denorminator, calculator.py:219-227: whether DenorminatorTouchZero
   is raised, for the determinants d :: ds of all v and t. *)
Definition checkFails (d : C) (ds : list C) : bool :=
  let m := smallest d ds in
  if Rlt_dec (fst m) 0 then if Rlt_dec (snd m) 1e-4 then true else false
  else false.
