(** * A diagram as Python dictionaries. /repo/src/module/diagram/diagram_IO.cpp:19-166

    DiagramIO.v carries a diagram in records; here each record is written into a Dictionary and
    read from one, with the conversions of PyDict.v. The C++ interleaves reading with Add: only
    the order of the effects before a failure differs. *)
From Coq Require Import ZArith List Bool String.
From Verif Require Import Base Num Lattice DiagramIO PyDict.
Import ListNotations.
Open Scope string_scope.
Open Scope Z_scope.

Section ConfigPy.
Context {N : Num}.

Definition pyName (n : nat) : py := PInt (Z.of_nat n).
(** _ToDict(vertex), diagram_IO.cpp:98-108 *)
Definition vToPy (x : vdict) : py := toDict (dOf [("Name", pyName (vd_name x)); ("Sublat", PInt (sub (vd_R x)));
  ("Coordi", toList PInt (coord (vd_R x))); ("Tau", PFloat (vd_T x)); ("SpinIn", PInt (spinZ (vd_in x))); ("SpinOut", PInt (spinZ (vd_out x)))]).
(** _ToDict(gLine), diagram_IO.cpp:39-48 *)
Definition gToPy (x : gdict) : py := toDict (dOf [("IN", pyName (gd_in x)); ("OUT", pyName (gd_out x)); ("K", PInt (gd_K x));
  ("IsMeasure", PBool (gd_meas x)); ("IsGGGammaG", PBool (gd_gg x))]).
(** _ToDict(wLine), diagram_IO.cpp:68-78 *)
Definition wToPy (x : wdict) : py := toDict (dOf [("IN", pyName (wd_in x)); ("OUT", pyName (wd_out x)); ("K", PInt (wd_K x));
  ("IsDelta", PBool (wd_delta x)); ("IsMeasure", PBool (wd_meas x)); ("IsWWGammaW", PBool (wd_ww x))]).
(** _ToDict(WormClass), diagram_IO.cpp:20-28 *)
Definition wormToPy (x : wormdict) : py := toDict (dOf [("Ira", pyName (wo_ira x)); ("Masha", pyName (wo_masha x)); ("dSpin", PInt (wo_ds x)); ("K", PInt (wo_K x))]).
(** ToDict, diagram_IO.cpp:122-140 *)
Definition confToPy (F : config) : dict :=
  dOf ([("Ver", toList vToPy (cf_v F)); ("G", toList gToPy (cf_g F)); ("W", toList wToPy (cf_w F))] ++
       match cf_worm F with Some x => [("Worm", wormToPy x)] | None => [] end ++ [("SignFermiLoop", PFloat (cf_sfl F))]).

(** a name read back is used as an index: a negative one is out of range *)
Definition rdName (k : string) (m : dict) : outcome nat :=
  obind (dGet cvInt k m) (fun z => if z <? 0 then UB else Ok (Z.to_nat z)).
(** [spin(x)]: a value outside the range of the enum is undefined *)
Definition rdSpin (k : string) (m : dict) : outcome spin :=
  obind (dGet cvInt k m) (fun z => if z =? 0 then Ok DOWN else if z =? 1 then Ok UP else UB).
(** _FromDict(vertex), diagram_IO.cpp:109-120 *)
Definition vOfPy (m : dict) : outcome vdict :=
  obind (rdName "Name" m) (fun n => obind (dGet cvInt "Sublat" m) (fun s => obind (dGet (cvVec cvInt) "Coordi" m) (fun co =>
  obind (dGet cvReal "Tau" m) (fun t => obind (rdSpin "SpinIn" m) (fun a => obind (rdSpin "SpinOut" m) (fun b =>
  Ok (mkVD n (mkSite s co) t a b))))))).
(** _FromDict(gLine), diagram_IO.cpp:49-66 *)
Definition gOfPy (m : dict) : outcome gdict :=
  obind (rdName "IN" m) (fun a => obind (rdName "OUT" m) (fun b => obind (dGet cvInt "K" m) (fun k =>
  obind (dGet cvBool "IsMeasure" m) (fun me => obind (dGet cvBool "IsGGGammaG" m) (fun gg => Ok (mkGD a b k me gg)))))).
(** _FromDict(wLine), diagram_IO.cpp:79-97 *)
Definition wOfPy (m : dict) : outcome wdict :=
  obind (rdName "IN" m) (fun a => obind (rdName "OUT" m) (fun b => obind (dGet cvInt "K" m) (fun k =>
  obind (dGet cvBool "IsDelta" m) (fun de => obind (dGet cvBool "IsMeasure" m) (fun me => obind (dGet cvBool "IsWWGammaW" m) (fun ww =>
  Ok (mkWD a b k de me ww))))))).
(** _FromDict(WormClass), diagram_IO.cpp:29-38 *)
Definition wormOfPy (m : dict) : outcome wormdict :=
  obind (rdName "Ira" m) (fun a => obind (rdName "Masha" m) (fun b => obind (dGet cvInt "dSpin" m) (fun s => obind (dGet cvInt "K" m) (fun k =>
  Ok (mkWoD a b s k))))).
(** the loops over lists of dictionaries, diagram_IO.cpp:151-156 *)
Fixpoint omapAll {A} (f : dict -> outcome A) (l : list dict) : outcome (list A) :=
  match l with [] => Ok [] | x :: r => obind (f x) (fun a => obind (omapAll f r) (fun q => Ok (a :: q))) end.
(** FromDict, diagram_IO.cpp:148-164 *)
Definition confOfPy (m : dict) : outcome config :=
  obind (dGet (cvList cvDict) "Ver" m) (fun vs => obind (omapAll vOfPy vs) (fun vs =>
  obind (dGet (cvList cvDict) "W" m) (fun ws => obind (omapAll wOfPy ws) (fun ws =>
  obind (dGet (cvList cvDict) "G" m) (fun gs => obind (omapAll gOfPy gs) (fun gs =>
  obind (if dhas "Worm" m then obind (dGet cvDict "Worm" m) (fun x => obind (wormOfPy x) (fun x => Ok (Some x))) else Ok None) (fun wo =>
  obind (dGet cvReal "SignFermiLoop" m) (fun s => Ok (mkConf vs gs ws wo s))))))))).
End ConfigPy.
