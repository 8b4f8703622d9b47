(** * Parameters and messages. /repo/src/module/parameter/parameter.h, parameter.cpp, message.h,
    message.cpp; the basis files of /repo/src/module/weight/weight.cpp *)
From Coq Require Import ZArith List Bool String.
From Verif Require Import Base Num Lattice Estimator PyDict.
Import ListNotations.
Open Scope string_scope.
Open Scope Z_scope.

Section Param.
Context {N : Num} {E : Type}.
(** the text form of std::mt19937 and its reader (rng.cpp:50-72), [seed], and str() of an object
    that is not a string *)
Context (show : E -> string) (read : string -> option E) (seedE : Z -> E) (strOf : py -> string).

(** Parameter and ParaMC, parameter.h:22-69. [T = 1.0/Beta] is derived (parameter.cpp:28, 46); the
    lattice is derived from L and NSublat (parameter.cpp:44). *)
Record para := mkPara {
  p_version : Z; p_beta : real; p_mtb : Z; p_mtbt : Z; p_order : Z; p_nsub : Z; p_L : list Z;
  p_counter : Z; p_toss : Z; p_sweep : Z; p_seed : Z; p_rng : E;
  p_wsr : real; p_pr : real; p_g3 : bool; p_ggr : real; p_gwr : real; p_orw : list real; p_otr : list real;
  p_tprint : Z; p_tdisk : Z; p_tmsg : Z; p_trew : Z }.
Definition p_lat (p : para) : lattice := mkLat (p_L p) (p_nsub p).

(** Parameter::_ToDict, parameter.cpp:50-64 *)
Definition baseToDict (p : para) : dict :=
  dOf [("Lattice", toDict (dOf [("L", toList PInt (p_L p)); ("NSublat", PInt (p_nsub p))]));
       ("Tau", toDict (dOf [("Beta", PFloat (p_beta p)); ("MaxTauBin", PInt (p_mtb p)); ("MaxTauBinTiny", PInt (p_mtbt p))]));
       ("Version", PInt (p_version p))].
(** ParaMC::ToDict, parameter.cpp:103-128: Seed is not written *)
Definition paraToDict (p : para) : dict :=
  let timer := dOf [("PrinterTimer", PInt (p_tprint p)); ("DiskWriterTimer", PInt (p_tdisk p));
                    ("MessageTimer", PInt (p_tmsg p)); ("ReweightTimer", PInt (p_trew p))] in
  let mk := dOf [("Toss", PInt (p_toss p)); ("Sweep", PInt (p_sweep p)); ("WormSpaceReweight", PFloat (p_wsr p));
    ("PolarReweight", PFloat (p_pr p)); ("runGamma3", PBool (p_g3 p)); ("GammaGReweight", PFloat (p_ggr p));
    ("GammaWReweight", PFloat (p_gwr p)); ("OrderReWeight", toList PFloat (p_orw p)); ("OrderTimeRatio", toList PFloat (p_otr p));
    ("Counter", PInt (p_counter p)); ("RNG", PStr (show (p_rng p))); ("Order", PInt (p_order p)); ("Timer", toDict timer)] in
  dupdate (baseToDict p) (dOf [("Markov", toDict mk)]).

(** Convert to RandomFactory, type_cast.cpp:111-120 *)
Definition cvRNG (o : py) : option E := read (match o with PStr s => s | _ => strOf o end).
(** ParaMC::FromDict, parameter.cpp:74-102, with Parameter::_FromDict, 31-49. Every member of the
    object is overwritten, so the old object is no argument. [size() >= Order + 1] compares as
    size_t. *)
Definition paraFromDict (m : dict) : outcome para :=
  obind (dGetOr cvInt "Version" 0 m) (fun version =>
  obind (dGet cvDict "Tau" m) (fun tau =>
  obind (dGet cvReal "Beta" tau) (fun beta =>
  obind (dGet cvUInt "MaxTauBin" tau) (fun mtb =>
  obind (dGet cvUInt "MaxTauBinTiny" tau) (fun mtbt =>
  obind (dGet cvDict "Lattice" m) (fun lt =>
  obind (dGet cvInt "NSublat" lt) (fun nsub =>
  obind (dGet (cvVec cvInt) "L" lt) (fun _ =>
  obind (dGet (cvList cvInt) "L" lt) (fun L =>
  if negb (Nat.eqb DIM (List.length L)) then Abort else
  obind (dGet cvDict "Markov" m) (fun k =>
  obind (dGet cvInt "Toss" k) (fun toss =>
  obind (dGet cvInt "Sweep" k) (fun sweep =>
  obind (dGet cvReal "WormSpaceReweight" k) (fun wsr =>
  obind (dGet cvReal "PolarReweight" k) (fun pr =>
  obind (dGet cvBool "runGamma3" k) (fun g3 =>
  obind (dGet cvReal "GammaGReweight" k) (fun ggr =>
  obind (dGet cvReal "GammaWReweight" k) (fun gwr =>
  obind (dGet (cvList cvReal) "OrderReWeight" k) (fun orw =>
  obind (dGet (cvList cvReal) "OrderTimeRatio" k) (fun otr =>
  obind (dGet cvInt "Order" k) (fun order =>
  obind (dGetOr cvLL "Counter" 0 k) (fun counter =>
  obind (dGetOr cvInt "Seed" 0 k) (fun seed =>
  obind (if dhas "RNG" k then dGet cvRNG "RNG" k else Ok (seedE seed)) (fun rng =>
  if negb (order <? 10) then Abort else
  if Z.of_nat (List.length orw) <? u64 (order + 1) then Abort else
  obind (dGet cvDict "Timer" k) (fun t =>
  obind (dGet cvInt "PrinterTimer" t) (fun t1 =>
  obind (dGet cvInt "DiskWriterTimer" t) (fun t2 =>
  obind (dGet cvInt "MessageTimer" t) (fun t3 =>
  obind (dGet cvInt "ReweightTimer" t) (fun t4 =>
  Ok (mkPara version beta mtb mtbt order nsub L counter toss sweep seed rng wsr pr g3 ggr gwr orw otr t1 t2 t3 t4))))))))))))))))))))))))))))).

(** ** Message, message.h:16-26 *)
Record message := mkMsg { ms_version : Z; ms_beta : real; ms_squeeze : real }.
(** Save, message.cpp:30-37 *)
Definition msgToDict (m : message) : dict :=
  dOf [("Beta", PFloat (ms_beta m)); ("Version", PInt (ms_version m)); ("SqueezeFactor", PFloat (ms_squeeze m))].
(** Load, message.cpp:12-28, of a file that evaluates to [o]; a missing file is handled by the caller *)
Definition msgLoad (o : py) : outcome message :=
  obind (dLoad o []) (fun m =>
  obind (dGet cvReal "Beta" m) (fun b =>
  obind (dGet cvInt "Version" m) (fun v =>
  obind (dGet cvReal "SqueezeFactor" m) (fun q => Ok (mkMsg v b q))))).
(** UpdateWithMessage, parameter.cpp:24-29 *)
Definition updateWith (ms : message) (p : para) : para :=
  mkPara (ms_version ms) (ms_beta ms) (p_mtb p) (p_mtbt p) (p_order p) (p_nsub p) (p_L p)
    (p_counter p) (p_toss p) (p_sweep p) (p_seed p) (p_rng p) (p_wsr p) (p_pr p) (p_g3 p) (p_ggr p) (p_gwr p)
    (p_orw p) (p_otr p) (p_tprint p) (p_tdisk p) (p_tmsg p) (p_trew p).

(** ** Weight::_LoadBasis, weight.cpp:183-201, of the two files' contents. Both are loaded into the
    same Dictionary. [1e-10] is the quotient 1/10^10. The function has no return statement; its
    result is never used. *)
Definition eps10 : real := rdiv (rofZ 1) (rofZ (10 ^ 10)).
Definition readBasis (beta : real) (m : dict) : outcome (list (list real)) :=
  obind (dGet cvReal "Beta" m) (fun b =>
  if negb (rltb (e_abs (rsub b beta)) eps10) then Abort else
  obind (dGet cvReal "MaxTauBin" m) (fun _ =>
  obind (dGet cvReal "Number" m) (fun _ =>
  dGet (cvList (cvList cvReal)) "Basis" m))).
Definition loadBasis (beta : real) (fermi bose : py) : outcome (list (list real) * list (list real)) :=
  obind (dLoad fermi []) (fun m =>
  obind (readBasis beta m) (fun F =>
  obind (dLoad bose m) (fun m' =>
  obind (readBasis beta m') (fun B => Ok (F, B))))).
End Param.
