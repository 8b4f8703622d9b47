(** * Bundle<T>: a fixed pool of 20 objects with a permutation of names
    /repo/src/module/diagram/component_bundle.h, component_bundle.cpp

    A [T*] into [_component_bundle] is the slot number; 20 stands for a null or
    uninitialised pointer. [names p] is [_component_name[p]], [nm s] is
    [_component_bundle[s].Name]. The data fields of the objects live in Diagram.v. *)
From Coq Require Import ZArith List Bool Arith.
From Verif Require Import Base RNG.
Import ListNotations.

(** component_bundle.h:18, MAX_BUNDLE = 2 * MAX_ORDER, and convention.h: MAX_ORDER = 10 *)
Definition MAX_BUNDLE : nat := 20.
Definition NULLP : nat := 20.

Record bundle := mkB { names : nat -> nat; nm : nat -> nat; avail : nat }.

(** constructor, component_bundle.cpp:15-24 *)
Definition bundle_new : bundle := mkB (fun i => i) (fun i => i) 0.

(** T * Add(), component_bundle.cpp:32-45. The guard is [>], so with exactly 20 objects
    [_component_name[20]] is read: UB. *)
Definition badd (b : bundle) : outcome (nat * bundle) :=
  if (MAX_BUNDLE <? avail b)%nat then Abort
  else if (MAX_BUNDLE <=? avail b)%nat then UB
  else
    let address := names b (avail b) in
    Ok (address, mkB (names b) (upd (nm b) address (avail b)) (S (avail b))).

(** void Add(T* Target), component_bundle.cpp:47-54 *)
Definition badd_at (b : bundle) (t : nat) : outcome bundle :=
  if (MAX_BUNDLE <=? avail b)%nat then Abort
  else Ok (mkB (upd (names b) (avail b) t) (nm b) (S (avail b))).

(** Exist, component_bundle.cpp:125-132 *)
Definition bexist (b : bundle) (t : nat) : bool :=
  (t <? MAX_BUNDLE)%nat && (nm b t <? avail b)%nat.

(** the switch of names shared by both Remove functions,
    component_bundle.cpp:61-71 and 83-93 *)
Definition bswap (b : bundle) (name target : nat) : bundle :=
  let av := (avail b - 1)%nat in
  let last := names b av in
  let nm1 := upd (nm b) target av in
  let nm2 := upd nm1 last name in
  let na1 := upd (names b) name last in
  let na2 := upd na1 av target in
  mkB na2 nm2 av.

(** void Remove(name), component_bundle.cpp:56-72: only emptiness is checked *)
Definition bremove_name (b : bundle) (name : nat) : outcome bundle :=
  if (avail b =? 0)%nat then Abort
  else if (MAX_BUNDLE <=? name)%nat then UB
  else Ok (bswap b name (names b name)).

(** void Remove(T* ), component_bundle.cpp:74-94 *)
Definition bremove (b : bundle) (t : nat) : outcome bundle :=
  if negb (bexist b t) then Abort
  else if (avail b =? 0)%nat then Abort
  else Ok (bswap b (nm b t) t).

(** operator[] and operator(), component_bundle.cpp:96-110 (name is int; callers pass
    non-negative values) *)
Definition bat (b : bundle) (name : nat) : outcome nat :=
  if (avail b <=? name)%nat then Abort
  else if (MAX_BUNDLE <=? name)%nat then UB
  else Ok (names b name).

(** HowMany, component_bundle.cpp:112-116 *)
Definition bhowmany (b : bundle) : nat := avail b.

(** RandomPick, component_bundle.cpp:134-138, for the engine word [x] *)
Definition bpick (b : bundle) (x : Z) : outcome nat :=
  obind (irn_of 0 (Z.of_nat (avail b) - 1) x) (fun i =>
    if (0 <=? i)%Z && (i <? Z.of_nat MAX_BUNDLE)%Z then Ok (names b (Z.to_nat i)) else UB).
