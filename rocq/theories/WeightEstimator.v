(** * Estimators of weight functions.
    /repo/src/module/weight/weight_estimator.cpp, weight_array.cpp, component_MC.cpp:117-131 *)
From Coq Require Import ZArith List Bool.
From Verif Require Import Base Num Complex Lattice IndexMap.
Import ListNotations.
Open Scope Z_scope.

Section WE.
Context {N : Num}.

(** ** WeightArray, weight_array.h:24-90: shape, [_Size] (uint) and the [_Size] entries.
    Only allocated arrays occur here: Allocate is the only producer below. *)
Record warray := mkWA { wa_shape : list Z; wa_data : list cplx }.
(** GetSize, weight_array.h:43 *)
Definition wa_size (a : warray) : Z := Z.of_nat (List.length (wa_data a)).
(** the product in Allocate, weight_array.cpp:52-55, and in ArrayObject::Size,
    pyarraywrapper.cpp:132-138 (uint) *)
Definition prod32 (s : list Z) : Z := fold_left (fun p x => u32 (p * x)) s 1.
(** Allocate, weight_array.cpp:46-62. The fresh entries are Complex(), i.e. 0 (complex.h:29).
    Failure of [new] is not modelled. *)
Definition waAllocate (s : list Z) : warray := mkWA s (repeat c0 (Z.to_nat (prod32 s))).
(** Assign(const Complex&), weight_array.cpp:21-27 *)
Definition waFill (c : cplx) (a : warray) : warray := mkWA (wa_shape a) (repeat c (List.length (wa_data a))).
(** Assign(const Complex*, size), weight_array.cpp:37-44: the caller gives the source entries *)
Definition waCopy (src : list cplx) (a : warray) : outcome warray :=
  if wa_size a <? Z.of_nat (List.length src) then UB
  else Ok (mkWA (wa_shape a) (src ++ skipn (List.length src) (wa_data a))).
(** operator*=(real), weight_array.h:68-74 *)
Definition waScale (x : real) (a : warray) : warray := mkWA (wa_shape a) (map (fun c => cmul_assign_r c x) (wa_data a)).
(** [a[i] += w], weight_array.h:45: operator[] is unchecked *)
Fixpoint lupd {A} (n : nat) (f : A -> A) (l : list A) : list A :=
  match l, n with [], _ => [] | x :: r, O => f x :: r | x :: r, S n => x :: lupd n f r end.
Definition waAdd (i : Z) (w : cplx) (a : warray) : outcome warray :=
  if (i <? 0) || (wa_size a <=? i) then UB else Ok (mkWA (wa_shape a) (lupd (Z.to_nat i) (fun c => cadd c w) (wa_data a))).

(** ** WeightEstimator, weight_estimator.h:20-46 *)
Record west := mkWE { we_beta : real; we_norm : real; we_nacc : real; we_accu : warray; we_wsize : Z }.

(** ClearStatistics, weight_estimator.cpp:58-62 *)
Definition weClear (e : west) : west := mkWE (we_beta e) (we_norm e) (rofZ 0) (waFill c0 (we_accu e)) (we_wsize e).
(** Allocate, weight_estimator.cpp:23-34; [order] converts to uint, the division is uint *)
Definition weAllocate (m : imap) (order : Z) (norm : real) : outcome west :=
  let b := im_beta m in
  let nf := rdiv (rdiv (rmul norm (rdiv (rofZ (im_maxtau m)) b)) b) (rofZ (Vol (im_lat m))) in
  let a := waAllocate (u32 order :: shape m) in
  if u32 order =? 0 then UB
  else Ok (weClear (mkWE b nf (rofZ 0) a (wa_size a / u32 order))).
(** Anneal, weight_estimator.cpp:36-43; pow(x, 2.0) is written x*x *)
Definition weAnneal (beta : real) (e : west) : west :=
  let q := rdiv beta (we_beta e) in
  mkWE (we_beta e) (we_norm e) (rmul (we_nacc e) (rmul q q)) (we_accu e) (we_wsize e).
(** MeasureNorm, weight_estimator.cpp:45-48 *)
Definition weMeasureNorm (x : real) (e : west) : west :=
  mkWE (we_beta e) (we_norm e) (radd (we_nacc e) x) (we_accu e) (we_wsize e).
(** Measure, weight_estimator.cpp:50-56: uint arithmetic; the DEBUGMODE test only logs *)
Definition weMeasure (i order : Z) (w : cplx) (e : west) : outcome west :=
  obind (waAdd (u32 ((order - 1) * we_wsize e + i)) w (we_accu e)) (fun a =>
  Ok (mkWE (we_beta e) (we_norm e) (we_nacc e) a (we_wsize e))).
(** SqueezeStatistics, weight_estimator.cpp:65-71 *)
Definition weSqueeze (f : real) (e : west) : outcome west :=
  if rltb (rofZ 0) f
  then Ok (mkWE (we_beta e) (we_norm e) (rdiv (we_nacc e) f) (waScale (rdiv (rofZ 1) f) (we_accu e)) (we_wsize e))
  else Abort.

(** the dictionary, weight_estimator.cpp:86-93; a NumPy array is its shape and its entries in row-major order *)
Record wfile := mkWF { wf_norm : real; wf_nacc : real; wf_shape : list Z; wf_data : list cplx }.
Definition weToDict (e : west) : wfile := mkWF (we_norm e) (we_nacc e) (wa_shape (we_accu e)) (wa_data (we_accu e)).
(** Equal(const uint*, const uint*, num), utility.h:39-46, utility.cpp:20-23; a vector shorter
    than the count is read past its end *)
Fixpoint eq_upto (n : nat) (a b : list Z) : outcome bool :=
  match n, a, b with
  | O, _, _ => Ok true
  | S n, x :: a, y :: b => if x =? y then eq_upto n a b else Ok false
  | S _, _, _ => UB
  end.
(** FromDict, weight_estimator.cpp:74-84: [arr.Size()] entries are copied *)
Definition weFromDict (f : wfile) (e : west) : outcome west :=
  obind (eq_upto (List.length (wa_shape (we_accu e)) - 1) (tl (wf_shape f)) (tl (wa_shape (we_accu e)))) (fun b =>
  if b then
    let n := Z.to_nat (prod32 (wf_shape f)) in
    if (List.length (wf_data f) <? n)%nat then UB
    else obind (waCopy (firstn n (wf_data f)) (waFill c0 (we_accu e))) (fun a =>
         Ok (mkWE (we_beta e) (wf_norm f) (wf_nacc f) a (we_wsize e)))
  else Abort).

(** ** SigmaClass::Measure and PolarClass::Measure, component_MC.cpp:119-131; the spin
    arguments are the table's spin indices *)
Definition sigmaMeasure (m : imap) (a b : Z) (rin rout : site) (tin tout : real) (order : Z) (w : cplx) (e : west) : outcome west :=
  obind (GetIndexSmooth m a b rin rout tin tout) (fun i =>
  weMeasure i order (cmul_r w (rofZ (TauSym m tin tout))) e).
Definition polarMeasure (m : imap) (a b : Z) (rin rout : site) (tin tout : real) (order : Z) (w : cplx) (e : west) : outcome west :=
  obind (GetIndexSmooth m a b rin rout tin tout) (fun i => weMeasure i order w e).
End WE.
