(* The bookkeeping of the self-consistency loop, dyson/main.py:194-335, in the
   branch that collects statistics (248-257): what one version does to
   SigmaDeltaT and to Polar. *)
Require Import Reals List.
Require Import Verif.PyWeight.
Import ListNotations.
Local Open Scope R_scope.

(* How a version ends, with the weights computed in it: SigmaDeltaT from
   calc.SigmaDeltaT_FirstOrder (main.py:203) and Polar from the collected
   statistics (251).  Without EnforceSumRule.  Simplification: what other
   exceptions do (end of the program) is left out. *)
Inductive version :=
| VOk (sdt polar : plain)
| VCollectFail (sdt : plain)        (* CollectStatisFailure at 250 or 251 *)
| VGFail (sdt : plain)              (* DenorminatorTouchZero in G_Dyson, 256 *)
| VWFail (sdt polar : plain).       (* DenorminatorTouchZero in W_Dyson, 275 *)

(* ratio, main.py:199 *)
Definition ratioOf (v : nat) : R := INR v / (INR v + 10).

Definition toKonly : request := (Some true, None).
Definition toRonly : request := (Some false, None).
Definition toKW : request := (Some true, Some true).
Definition toRT : request := (Some false, Some false).

(* SigmaDeltaT: Merge (203), FFT("K") in G_Dyson (calculator.py:140), FFT("R")
   in Measure (main.py:42) or RollBack (299, 307). *)
Definition deltaOps (v : nat) (o : version) : list wop :=
  match o with
  | VOk d _ => [OMerge (Some (ratioOf v)) d; OFFT toKonly; OFFT toRonly]
  | VCollectFail d => [OMerge (Some (ratioOf v)) d; ORollBack]
  | VGFail d | VWFail d _ =>
      [OMerge (Some (ratioOf v)) d; OFFT toKonly; ORollBack]
  end.

(* Polar: Merge (260), FFT("K","W") in W_Dyson (calculator.py:125), FFT("R","T")
   in Measure (main.py:37) or RollBack (301, 309). *)
Definition polarOps (v : nat) (o : version) : list wop :=
  match o with
  | VOk _ p => [OMerge (Some (ratioOf v)) p; OFFT toKW; OFFT toRT]
  | VCollectFail _ | VGFail _ => [ORollBack]
  | VWFail _ p => [OMerge (Some (ratioOf v)) p; OFFT toKW; ORollBack]
  end.

(* The versions after version v; Version goes up by one each time, whatever
   the outcome (main.py:195). *)
Fixpoint loopOps (f : nat -> version -> list wop) (v : nat) (os : list version)
  : list wop :=
  match os with
  | [] => []
  | o :: os => f (S v) o ++ loopOps f (S v) os
  end.
