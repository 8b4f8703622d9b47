(** * Lattice. /repo/src/lattice/lattice.h, lattice.cpp, /repo/src/utility/vector.h

    A [Vec<int>] (an array of D ints) is a list of integers; D is the length of the
    lattice size vector, so the theorems cover every compile-time dimension. [int]
    overflow of products is not modelled (the volume is assumed to fit). *)
From Coq Require Import ZArith List Bool.
From Verif Require Import Base.
Import ListNotations.
Open Scope Z_scope.

(** lattice.h:37-42; Vol is computed by [Initialize] *)
Record lattice := mkLat { Size : list Z; SublatVol : Z }.
(** lattice.h:19-22 *)
Record site := mkSite { sub : Z; coord : list Z }.

(** Vol, lattice.cpp:19-28 *)
Definition Vol (L : lattice) : Z := fold_left Z.mul (Size L) 1.

(** operator==(Vec<int>,Vec<int>), vector.cpp:51-57 *)
Fixpoint vec_eqb (a b : list Z) : bool :=
  match a, b with
  | [], [] => true
  | x :: a', y :: b' => (x =? y) && vec_eqb a' b'
  | _, _ => false
  end.
(** operator==(Site,Site), lattice.cpp:30-37 *)
Definition site_eqb (a b : site) : bool := (sub a =? sub b) && vec_eqb (coord a) (coord b).

(** Vec2Index, lattice.cpp:47-54: Index = vec[0]; Index = Index*Size[i] + vec[i] *)
Definition Vec2Index (L : lattice) (v : list Z) : Z :=
  fold_left (fun acc sv => acc * fst sv + snd sv) (combine (tl (Size L)) (tl v)) (hd 0 v).

(** Index2Vec, lattice.cpp:61-70. The loop runs from the last component down; here over
    the reversed size vector. C's % and / truncate; division by zero is UB. *)
Fixpoint index2vec_rev (rsize : list Z) (index : Z) : outcome (list Z) :=
  match rsize with
  | [] => UB
  | [_] => Ok [index]
  | s :: rest =>
      if s =? 0 then UB
      else obind (index2vec_rev rest (Z.quot index s)) (fun l => Ok (Z.rem index s :: l))
  end.
Definition Index2Vec (L : lattice) (index : Z) : outcome (list Z) :=
  obind (index2vec_rev (rev (Size L)) index) (fun l => Ok (rev l)).

(** one component of Shift, lattice.cpp:78-86 (two sequential ifs) *)
Definition shift1 (s x : Z) : Z :=
  let x1 := if x <? 0 then x + s else x in
  if x1 >=? s then x1 - s else x1.
Fixpoint map2 (f : Z -> Z -> Z) (a b : list Z) : list Z :=
  match a, b with x :: a', y :: b' => f x y :: map2 f a' b' | _, _ => [] end.
Definition LShift (L : lattice) (v : list Z) : list Z := map2 shift1 (Size L) v.

(** Vec operator-, vector.h:103-109; CoordiIndex, lattice.cpp:87-92 *)
Definition vec_sub (a b : list Z) : list Z := map2 Z.sub a b.
Definition CoordiIndex (L : lattice) (rin rout : site) : Z :=
  Vec2Index L (LShift L (vec_sub (coord rout) (coord rin))).

(** GetSublatIndex is declared (lattice.h:14) but not defined in the repository. *)

(** Coordinates inside the lattice and sublattice inside the unit cell. *)
Definition vec_ok (L : lattice) (v : list Z) : Prop :=
  Forall2 (fun s x => 0 <= x < s) (Size L) v.
Definition site_ok (L : lattice) (r : site) : Prop :=
  0 <= sub r < SublatVol L /\ vec_ok L (coord r).
