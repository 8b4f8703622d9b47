(** * Scalar estimators. /repo/src/estimator/estimator.h, estimator.cpp

    Only [Estimator<real>] is modelled; it is the only instance the simulation uses
    (markov_monitor.h:31-33). The array [_history] is represented by the list of its first
    [_end] entries: the entries behind [_end] are never read. *)
From Coq Require Import ZArith List Bool String.
From Verif Require Import Base Num.
Import ListNotations.
Open Scope Z_scope.

Section Estimator.
Context {N : Num}.

(** SIZE, estimator.h:17 *)
Definition HSIZE : Z := 10000.

(** estimator.h:38-50; [_value] is split into its two fields *)
Record est := mkEst {
  e_int : Z; e_cnt : Z; e_acc : real; e_norm : real; e_ratio : real;
  e_mean : real; e_err : real; e_hist : list real }.
(** [_end] *)
Definition e_end (e : est) : Z := Z.of_nat (List.length (e_hist e)).

Definition s_acc (e : est) x := mkEst (e_int e) (e_cnt e) x (e_norm e) (e_ratio e) (e_mean e) (e_err e) (e_hist e).
Definition s_norm (e : est) x := mkEst (e_int e) (e_cnt e) (e_acc e) x (e_ratio e) (e_mean e) (e_err e) (e_hist e).

(** ClearStatistics, estimator.cpp:87-97: [_value] is not touched *)
Definition Clear (e : est) : est :=
  mkEst 1 0 (rofZ 0) (rofZ 1) (rofZ 1) (e_mean e) (e_err e) [].
(** the constructors, estimator.cpp:73-85, with EstimateClass(), estimator.cpp:18-23 (value-initialised to 0) *)
Definition est_new : est := Clear (mkEst 0 0 (rofZ 0) (rofZ 0) (rofZ 0) (rofZ 0) (rofZ 0) []).
(** Measure, estimator.cpp:170-175 *)
Definition eMeasure (x : real) (e : est) : est := s_norm (s_acc e (radd (e_acc e) x)) (radd (e_norm e) (rofZ 1)).
(** SqueezeStatistics, estimator.cpp:99-105 *)
Definition eSqueeze (f : real) (e : est) : outcome est :=
  if rltb (rofZ 0) f then Ok (s_norm (s_acc e (rdiv (e_acc e) f)) (rdiv (e_norm e) f)) else Abort.

(** the compression loop, estimator.cpp:181-182: entry i becomes entry 2i *)
Fixpoint evens {A} (l : list A) : list A :=
  match l with x :: _ :: r => x :: evens r | _ => [] end.
(** AddStatistics, estimator.cpp:177-196; [_interval] and [_counter] are uint *)
Definition eAdd (e : est) : outcome est :=
  if e_end e =? HSIZE then
    Ok (mkEst (u32 (e_int e * 2)) (e_cnt e) (e_acc e) (e_norm e) (e_ratio e) (e_mean e) (e_err e) (evens (e_hist e)))
  else if e_end e <? HSIZE then
    let c := u32 (e_cnt e + 1) in
    if e_int e <=? c
    then Ok (mkEst (e_int e) 0 (e_acc e) (e_norm e) (e_ratio e) (e_mean e) (e_err e) (e_hist e ++ [rdiv (e_acc e) (e_norm e)]))
    else Ok (mkEst (e_int e) c (e_acc e) (e_norm e) (e_ratio e) (e_mean e) (e_err e) (e_hist e))
  else Abort.

(** MaxReal, MinReal, utility.h:23-24; ThrowRatio, estimator.cpp:109 *)
Definition MaxReal : real := rofZ (10 ^ 30).
Definition MinReal : real := rneg (rofZ (10 ^ 30)).
Definition ThrowRatio : real := rdiv (rofZ 1) (rofZ 3).
(** the search for minimum and maximum, estimator.cpp:117-128, over entries i, i+1, ... *)
Fixpoint minmax (i : Z) (l : list real) (mn mx : real) (mni mxi : Z) : real * real * Z * Z :=
  match l with
  | [] => (mn, mx, mni, mxi)
  | x :: r =>
      let '(mn, mni) := if rltb x mn then (x, i) else (mn, mni) in
      let '(mx, mxi) := if rltb mx x then (x, i) else (mx, mxi) in
      minmax (i + 1) r mn mx mni mxi
  end.
(** fabs, utility.cpp:25-28 *)
Definition e_abs (x : real) : real := if rleb (rofZ 0) x then x else rneg x.
(** _update, estimator.cpp:110-131 *)
Definition eUpdate (e : est) : est :=
  let m := rdiv (e_acc e) (e_norm e) in
  if e_end e =? 0 then mkEst (e_int e) (e_cnt e) (e_acc e) (e_norm e) (e_ratio e) m (e_err e) (e_hist e)
  else
    let i0 := rfloor (rmul (rofZ (e_end e)) ThrowRatio) in
    let '(mn, mx, mni, mxi) := minmax i0 (skipn (Z.to_nat i0) (e_hist e)) MaxReal MinReal 0 0 in
    mkEst (e_int e) (e_cnt e) (e_acc e) (e_norm e)
      (rmul (rdiv (rofZ (mxi - mni)) (rofZ (e_end e))) (rsub (rofZ 1) ThrowRatio))
      m (rdiv (e_abs (rsub mx mn)) (rofZ 2)) (e_hist e).
(** Estimate, estimator.cpp:198-203: updates, returns [_value] *)
Definition eEstimate (e : est) : real * real * est := let e := eUpdate e in (e_mean e, e_err e, e).
(** Value, Norm, estimator.cpp:205-215 *)
Definition eValue (e : est) : real := e_acc e.
Definition eNorm (e : est) : real := e_norm e.

(** the dictionary written by ToDict, estimator.cpp:238-251 *)
Record edict := mkED { ed_norm : real; ed_accu : real; ed_hist : list real; ed_mean : real; ed_err : real }.
Definition eToDict (e : est) : edict := mkED (e_norm e) (e_acc e) (e_hist e) (e_mean e) (e_err e).
(** FromDict, estimator.cpp:223-236: std::copy into [_history] without a length check *)
Definition eFromDict (f : edict) (e : est) : outcome est :=
  let e := Clear e in
  if HSIZE <? Z.of_nat (List.length (ed_hist f)) then UB
  else Ok (eUpdate (mkEst (e_int e) (e_cnt e) (ed_accu f) (ed_norm f) (e_ratio e) (e_mean e) (e_err e) (ed_hist f))).

(** ** EstimatorBundle, estimator.cpp:256-352: a vector and a map from names to indices *)
Record ebundle := mkEB { eb_vec : list (string * est); eb_map : string -> option nat }.
Definition eb_new : ebundle := mkEB [] (fun _ => None).
Definition upds {A} (m : string -> option A) (k : string) (x : A) : string -> option A :=
  fun j => if String.eqb j k then Some x else m j.
(** AddEstimator(name) with _MakeSureKeyNotExists, estimator.cpp:256-262,275-283 *)
Definition ebAdd (name : string) (b : ebundle) : outcome ebundle :=
  match eb_map b name with
  | Some _ => Abort
  | None => Ok (mkEB (eb_vec b ++ [(name, est_new)]) (upds (eb_map b) name (List.length (eb_vec b))))
  end.
(** operator[](int), estimator.cpp:320-324: no bounds check *)
Definition ebAt (i : Z) (b : ebundle) : outcome est :=
  if i <? 0 then UB else match nth_error (eb_vec b) (Z.to_nat i) with Some (_, e) => Ok e | None => UB end.
(** operator[](string), estimator.cpp:326-330: unordered_map::operator[] inserts 0 for a missing name *)
Definition ebLookup (name : string) (b : ebundle) : outcome (est * ebundle) :=
  match eb_map b name with
  | Some i => match nth_error (eb_vec b) i with Some (_, e) => Ok (e, b) | None => UB end
  | None => match nth_error (eb_vec b) 0 with Some (_, e) => Ok (e, mkEB (eb_vec b) (upds (eb_map b) name 0%nat)) | None => UB end
  end.
(** [bundle[i].Measure(x)] *)
Definition ebMeasure (i : Z) (x : real) (b : ebundle) : outcome ebundle :=
  obind (ebAt i b) (fun e =>
  Ok (mkEB (firstn (Z.to_nat i) (eb_vec b) ++
            (match nth_error (eb_vec b) (Z.to_nat i) with Some (n, _) => [(n, eMeasure x e)] | None => [] end) ++
            skipn (S (Z.to_nat i)) (eb_vec b)) (eb_map b))).
(** SqueezeStatistics and ClearStatistics of all members, estimator.cpp:337-349 *)
Fixpoint mapo {A B} (f : A -> outcome B) (l : list A) : outcome (list B) :=
  match l with [] => Ok [] | x :: r => obind (f x) (fun y => obind (mapo f r) (fun s => Ok (y :: s))) end.
Definition ebSqueeze (f : real) (b : ebundle) : outcome ebundle :=
  obind (mapo (fun p : string * est => obind (eSqueeze f (snd p)) (fun e => Ok (fst p, e))) (eb_vec b)) (fun v => Ok (mkEB v (eb_map b))).
Definition ebClear (b : ebundle) : ebundle := mkEB (map (fun p => (fst p, Clear (snd p))) (eb_vec b)) (eb_map b).
End Estimator.
