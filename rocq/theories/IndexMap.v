(** * Index map of the weight tables. /repo/src/module/weight/index_map.h, index_map.cpp *)
From Coq Require Import ZArith List Bool.
From Verif Require Import Base Num Complex Lattice.
Import ListNotations.
Open Scope Z_scope.

Section IndexMap.
Context {N : Num}.

(** index_map.h:37-60. [im_nsp] is 2 for IndexMapSPIN2 and 4 for IndexMapSPIN4;
    [im_sym] is [_TauSymmetryFactor] (1 or -1). *)
Record imap := mkIM {
  im_beta : real; im_maxtau : Z; im_lat : lattice; im_sym : Z; im_nsp : Z }.

(** _dBeta, _dBetaInverse: index_map.cpp:20-21 *)
Definition dBeta (m : imap) : real := rdiv (im_beta m) (rofZ (im_maxtau m)).
Definition dBetaInverse (m : imap) : real := rdiv (rofZ 1) (dBeta m).

(** _Shape: index_map.cpp:25-28,87-88,129-130; order SP1,SUB1,SP2,SUB2,VOL,TAU *)
Definition shape (m : imap) : list Z :=
  [im_nsp m; SublatVol (im_lat m); im_nsp m; SublatVol (im_lat m); Vol (im_lat m); im_maxtau m].

(** _UpdateCache, index_map.cpp:70-82 (uint arithmetic) *)
Fixpoint caches (shp : list Z) : list Z * Z :=
  match shp with
  | [] => ([], 1)
  | s :: r => let '(c, sz) := caches r in (sz :: c, u32 (sz * s))
  end.
Definition cacheSmooth (m : imap) := caches (shape m).
Definition cacheDelta (m : imap) := caches (firstn 5 (shape m)).

(** GetTauSymmetryFactor, index_map.cpp:31-34 *)
Definition TauSym (m : imap) (tin tout : real) : Z :=
  if rltb tin tout then 1 else im_sym m.

(** TauIndex(tau), index_map.cpp:36-52 (the range test only logs) *)
Definition TauIndex1 (m : imap) (tau : real) : Z :=
  if rltb tau (rofZ 0) then rfloor (rmul tau (dBetaInverse m)) + im_maxtau m
  else rfloor (rmul tau (dBetaInverse m)).
(** TauIndex(t_in,t_out), index_map.cpp:54-57 *)
Definition TauIndex (m : imap) (tin tout : real) : Z := TauIndex1 m (rsub tout tin).

(** IndexToTau, index_map.cpp:59-63 *)
Definition IndexToTau (m : imap) (bin : Z) : real :=
  radd (rmul (rofZ bin) (dBeta m)) (rdiv (dBeta m) (rofZ 2)).

Definition nthZ (l : list Z) (i : nat) : Z := nth i l 0.

(** GetIndex with times, index_map.cpp:102-112 and 150-158. [a], [b] are the spin
    indices of the two ends. Index arithmetic is uint, the check throws IndexInvalid. *)
Definition GetIndexSmooth (m : imap) (a b : Z) (rin rout : site) (tin tout : real) : outcome Z :=
  let '(c, sz) := cacheSmooth m in
  let cd := CoordiIndex (im_lat m) rin rout in
  let Index := u32 (a * nthZ c 0 + sub rin * nthZ c 1 + b * nthZ c 2 + sub rout * nthZ c 3
                    + cd * nthZ c 4 + TauIndex m tin tout) in
  if sz <=? Index then Abort else Ok Index.
(** GetIndex without times, index_map.cpp:114-124 and 160-169 *)
Definition GetIndexDelta (m : imap) (a b : Z) (rin rout : site) : outcome Z :=
  let '(c, sz) := cacheDelta m in
  let cd := CoordiIndex (im_lat m) rin rout in
  let Index := u32 (a * nthZ c 0 + sub rin * nthZ c 1 + b * nthZ c 2 + sub rout * nthZ c 3 + cd) in
  if sz <=? Index then Abort else Ok Index.

(** SPIN2: the spin index of an end is the spin itself (index_map.cpp:106-107).
    SPIN4: SpinIndex(Spin) = Spin[IN]*SPIN + Spin[OUT], index_map.cpp:145-148. *)
Definition spin4 (s : dir -> spin) : Z := spinZ (s IN) * 2 + spinZ (s OUT).

(** IndexMapSPIN2::SpinIndex and IsSameSpin, index_map.cpp:92-100 *)
Definition SpinIndex2 (a b : spin) : Z := spinZ a * 2 + spinZ b.
Definition IsSameSpin (i : Z) : bool := (i =? 0) || (i =? 2).
(** IndexMapSPIN4::SpinIndex(4 spins), index_map.cpp:135-138 *)
Definition SpinIndex4 (a b c d : spin) : Z := spinZ a * 8 + spinZ b * 4 + spinZ c * 2 + spinZ d.
End IndexMap.
