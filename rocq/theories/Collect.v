(* How the self-consistency program gathers the statistics of the jobs:
   dyson/collect.py.  Numbers are exact: doubles are taken as reals and
   complex doubles as pairs of reals. *)
Require Import Reals List Arith Bool Lra Lia.
From Coquelicot Require Import Complex.
Import ListNotations.
Local Open Scope R_scope.

(* The part of WeightAccu that belongs to one order: a number for every
   element (spin, sublattice and site indices together, flattened into one
   index) and every time bin.  estimator/weight_estimator.cpp writes
   WeightAccu with the order as its first axis. *)
Definition slab := nat -> nat -> C.

Definition slabAdd (x y : slab) : slab := fun e t => Cplus (x e t) (y e t).
Definition slabScale (a : R) (x : slab) : slab :=
  fun e t => Cmult (RtoC a) (x e t).
Definition slabZero : slab := fun _ _ => RtoC 0.

(* datamat = WeightDict[Name] with the keys 'Norm', 'NormAccu' and
   'WeightAccu' (collect.py:31-41); the same three are the attributes of a
   WeightEstimator. *)
Record stat := Stat { sNorm : R; sNormAccu : R; sAccu : list slab }.

(* numpy's `a += b` on arrays whose axes agree except perhaps the first
   (collect.py:35): equal lengths add elementwise, a first axis of length 1 on
   the right is broadcast, anything else raises ValueError and leaves `a`
   alone.  Simplification: the other axes always agree, that is all files
   come from jobs on the same lattice with the same number of time bins. *)
Definition plusInPlace (a b : list slab) : option (list slab) :=
  if Nat.eqb (length a) (length b) then
    Some (map (fun p => slabAdd (fst p) (snd p)) (combine a b))
  else match b with
       | [y] => Some (map (fun x => slabAdd x y) a)
       | _ => None
       end.

(* WeightEstimator.MergeFromDict, collect.py:31-41.  The estimator has no
   attribute Norm (None) until the first merge.  The flag is false when an
   exception is raised; the first component is what the estimator holds
   then.  The data are added before the Assert compares the norms. *)
Definition mergeFrom (e : option stat) (d : stat) : option stat * bool :=
  match e with
  | None => (Some d, true)
  | Some s =>
      match plusInPlace (sAccu s) (sAccu d) with
      | None => (Some s, false)
      | Some acc =>
          (Some (Stat (sNorm s) (sNormAccu s + sNormAccu d) acc),
           if Req_EM_T (sNorm s) (sNorm d) then true else false)
      end
  end.

(* What IO.LoadBigDict makes of one file (collect.py:179): None when it
   raises; otherwise the histograms of Sigma and Polar, where None stands for
   a missing key (KeyError). *)
Record file := File { fSigma : option stat; fPolar : option stat }.

(* The attempt to merge one file, collect.py:177-208 with runGamma3=False:
   the except clause only writes to the log, whatever was merged before the
   exception stays. *)
Definition mergePart (e : option stat) (d : option stat)
  : option stat * bool :=
  match d with
  | None => (e, false)
  | Some d => mergeFrom e d
  end.

Definition mergeFile (st : option stat * option stat) (f : option file)
  : option stat * option stat * bool :=
  match f with
  | None => (st, false)
  | Some f =>
      let (s, ok) := mergePart (fst st) (fSigma f) in
      if ok then
        let (p, ok) := mergePart (snd st) (fPolar f) in ((s, p), ok)
      else ((s, snd st), false)
  end.

(* The loop over the files, collect.py:175-209, with the number of
   successes. *)
Fixpoint mergeFiles (st : option stat * option stat) (n : nat)
         (fs : list (option file)) : option stat * option stat * nat :=
  match fs with
  | [] => (st, n)
  | f :: fs =>
      let (st, ok) := mergeFile st f in
      mergeFiles st (if ok then S n else n) fs
  end.

(* CollectStatis, collect.py:152-221 with runGamma3=False.  None stands for
   CollectStatisFailure: no file, or fewer than AcceptRatio=0.75 of them
   merged.  The order of the list is the order of os.listdir, which Python
   leaves open. *)
Definition collectStatis (fs : list (option file))
  : option (option stat * option stat) :=
  match fs with
  | [] => None
  | _ => let (st, n) := mergeFiles (None, None) 0 fs in
         if Rlt_dec (INR n / INR (length fs)) 0.75 then None else Some st
  end.

Section Update.

(* Smooth(x, y), collect.py:18-24: a least-squares spline of scipy.  For a
   function of the time bin it gives the average of abs(smooth) and
   abs(sigma), the only two numbers that matter (collect.py:65-72). *)
Variable smooth : (nat -> C) -> R * R.

(* The number of elements of one order and MaxTauBin. *)
Variables elements bins : nat.

(* np.allclose(y, 0.0, 1e-5), collect.py:64: every |y| is at most
   atol + rtol*0 with the default atol = 1e-8. *)
Definition negligible (y : nat -> C) : bool :=
  forallb (fun t => if Rle_dec (Cmod (y t)) 1e-8 then true else false)
          (seq 0 bins).

(* The inner loop, collect.py:58-76: Average starts at 0 for each order,
   RelativeError does not start at all -- it keeps what an earlier order left
   in it (None: not assigned yet). *)
Fixpoint scanElements (y : slab) (es : list nat) (avg : R) (err : option R)
  : option R :=
  match es with
  | [] => err
  | e :: es =>
      if negligible (y e) then scanElements y es avg err
      else
        let (a, s) := smooth (y e) in
        if Rlt_dec avg a then scanElements y es a (Some s)
        else scanElements y es avg err
  end.

(* What UpdateWeight ends with. *)
Inductive outcome (A : Type) :=
| Done (a : A)
| Failure     (* CollectStatisFailure: this version fails, the loop goes on *)
| Crash.      (* any other exception: main.py:314-317 ends the program *)
Arguments Done {A} _.
Arguments Failure {A}.
Arguments Crash {A}.

(* The loop over the orders, collect.py:56-88: the order it ends with.
   Reading RelativeError before it was assigned raises NameError. *)
Fixpoint acceptOrders (threshold : R) (accepted order : nat)
         (err : option R) (ys : list slab) : outcome nat :=
  match ys with
  | [] => Done order
  | y :: ys =>
      match scanElements y (seq 0 elements) 0 err with
      | None => Crash
      | Some e =>
          if (if Rlt_dec e threshold then true else false)
             || Nat.leb (S order) accepted
          then acceptOrders threshold accepted (S order) (Some e) ys
          else Done order
      end
  end.

(* np.sum(..., axis=0), collect.py:97. *)
Definition slabSum (ys : list slab) : slab := fold_right slabAdd slabZero ys.

(* WeightEstimator.UpdateWeight, collect.py:43-99, without the figure and
   the log.  The estimator after the call is returned as well: the
   accumulated data are destroyed.  An estimator into which nothing was
   merged has no attribute NormAccu (AttributeError), and one without any
   order leaves the variable `order` unassigned. *)
Definition updateOne (threshold : R) (accepted : nat) (e : option stat)
  : outcome (slab * nat) * option stat :=
  match e with
  | None => (Crash, None)
  | Some s =>
      if Rlt_dec (Rabs (sNormAccu s)) 1e-3 then (Failure, Some s)
      else
        let w := map (slabScale (1 / sNormAccu s * sNorm s)) (sAccu s) in
        let s' := Some (Stat (sNorm s) 0 w) in
        match w with
        | [] => (Crash, s')
        | _ => match acceptOrders threshold accepted 0 None w with
               | Done n => (Done (slabSum (firstn n w), n), s')
               | Failure => (Failure, s')
               | Crash => (Crash, s')
               end
        end
  end.

(* The module function UpdateWeight, collect.py:223-233.  The pair is
   OrderAccepted["Sigma"], OrderAccepted["Polar"]. *)
Definition updateBoth (threshold : R) (accepted : nat * nat)
  (st : option stat * option stat)
  : outcome (slab * slab * (nat * nat)) :=
  match fst (updateOne threshold (fst accepted) (fst st)) with
  | Failure => Failure
  | Crash => Crash
  | Done (sigma, n) =>
      match fst (updateOne threshold (snd accepted) (snd st)) with
      | Failure => Failure
      | Crash => Crash
      | Done (polar, m) =>
          if Nat.eqb n 0 || Nat.eqb m 0 then Failure
          else Done (sigma, polar, (n, m))
      end
  end.

(* One pass of the collecting branch of the main loop, dyson/main.py:248-252:
   collect, update, and remember the accepted orders only on success. *)
Definition collectPass (threshold : R) (accepted : nat * nat)
  (fs : list (option file)) : outcome (slab * slab * (nat * nat)) :=
  match collectStatis fs with
  | None => Failure
  | Some st => updateBoth threshold accepted st
  end.

(* Successive passes with the files found at each; a crash ends it.  The
   result is the accepted orders after every pass. *)
Fixpoint passes (threshold : R) (accepted : nat * nat)
  (runs : list (list (option file))) : list (nat * nat) :=
  match runs with
  | [] => []
  | fs :: runs =>
      match collectPass threshold accepted fs with
      | Crash => []
      | Failure => accepted :: passes threshold accepted runs
      | Done (_, _, now) => now :: passes threshold now runs
      end
  end.

End Update.

Arguments Done {A} _.
Arguments Failure {A}.
Arguments Crash {A}.
