(** * Python values, their conversion to and from C++ values, and Dictionary.
    /repo/src/utility/pyglue/type_cast.h, type_cast.cpp, /repo/src/utility/dictionary.h,
    dictionary.cpp

    A Python object is a value here: sharing and reference counts are left out. The
    Python error that a failing PyLong_As* call leaves pending is not modelled. *)
From Coq Require Import ZArith List Bool String Ascii.
From Verif Require Import Base Num.
Import ListNotations.
Open Scope Z_scope.

Section PyDict.
Context {N : Num}.

(** the Python objects CastToPy creates and Convert inspects; int and long are one
    constructor (IsInt, type_cast.cpp:39-42, accepts both) *)
Inductive py : Type :=
| PNone | PBool (b : bool) | PInt (z : Z) | PFloat (x : real) | PStr (s : string)
| PList (l : list py) | PTup (l : list py) | PDict (l : list (string * py)).

(** ** Convert *)
(** IsInt, type_cast.cpp:39-42: PyInt_Check holds of True and False as well *)
Definition asInt (o : py) : option Z :=
  match o with PInt z => Some z | PBool b => Some (if b then 1 else 0) | _ => None end.
Definition in_s64 (z : Z) : bool := (- 2 ^ 63 <=? z) && (z <? 2 ^ 63).
(** PyLong_AsLong and PyLong_AsLongLong: out of range they return -1 *)
Definition asLong (z : Z) : Z := if in_s64 z then z else -1.
(** PyLong_AsUnsignedLong: out of range it returns (unsigned long)-1 *)
Definition asULong (z : Z) : Z := if (0 <=? z) && (z <? 2 ^ 64) then z else 2 ^ 64 - 1.
(** Convert to bool, type_cast.cpp:29-38 *)
Definition cvBool (o : py) : option bool := match o with PBool b => Some b | _ => None end.
(** Convert to int, type_cast.cpp:44-50: the long is cast to int *)
Definition cvInt (o : py) : option Z := option_map (fun z => s32 (asLong z)) (asInt o).
(** Convert to unsigned int, type_cast.cpp:51-57 *)
Definition cvUInt (o : py) : option Z := option_map (fun z => u32 (asULong z)) (asInt o).
(** Convert to long long, type_cast.cpp:72-78 *)
Definition cvLL (o : py) : option Z := option_map asLong (asInt o).
(** ConvertReal, type_cast.cpp:87-94; PyFloat_AsDouble of an int is the int -> double conversion
    (its failure beyond 2^1024 is not modelled) *)
Definition cvReal (o : py) : option real :=
  match o with PFloat x => Some x | _ => option_map rofZ (asInt o) end.
(** Convert to std::string, type_cast.cpp:14-28; unicode objects are not distinguished *)
Definition cvStr (o : py) : option string := match o with PStr s => Some s | _ => None end.
(** ConvertList, type_cast.h:118-131 *)
Fixpoint cvAll {A} (f : py -> option A) (l : list py) : option (list A) :=
  match l with
  | [] => Some []
  | x :: r => match f x with None => None | Some a => match cvAll f r with None => None | Some q => Some (a :: q) end end
  end.
Definition cvList {A} (f : py -> option A) (o : py) : option (list A) :=
  match o with PList l => cvAll f l | _ => None end.
(** Convert to Vec<T>, type_cast.h:51-66: at least D entries, the rest is ignored *)
Definition DIM : nat := 2.
Definition cvVec {A} (f : py -> option A) (o : py) : option (list A) :=
  match o with PList l => if (List.length l <? DIM)%nat then None else cvAll f (firstn DIM l) | _ => None end.
(** AddToTuple and Convert to std::tuple, type_cast.h:67-91, for a pair: the result of the
    conversion of the first component is not looked at; [a0], [b0] is what the tuple held before *)
Definition cvPair {A B} (f : py -> option A) (g : py -> option B) (a0 : A) (b0 : B) (o : py) : option (A * B) :=
  match o with
  | PTup [x; y] => match g y with None => None | Some b => Some (match f x with Some a => a | None => a0 end, b) end
  | _ => None
  end.

(** ** std::map<std::string, AnyObject>: an association list with distinct keys; its order is
    not observable here *)
Definition dict : Type := list (string * py).
Fixpoint dget (k : string) (m : dict) : option py :=
  match m with [] => None | (k', v) :: r => if String.eqb k k' then Some v else dget k r end.
Definition drem (k : string) (m : dict) : dict := filter (fun p => negb (String.eqb k (fst p))) m.
(** [m[k] = v], dictionary.cpp:27-30 *)
Definition dset (k : string) (v : py) (m : dict) : dict := (k, v) :: drem k m.
(** std::map::insert does nothing when the key is there *)
Definition dins (k : string) (v : py) (m : dict) : dict :=
  match dget k m with Some _ => m | None => (k, v) :: m end.
(** Update, dictionary.cpp:32-36 *)
Definition dupdate (d : dict) (m : dict) : dict := fold_left (fun a p => dset (fst p) (snd p) a) d m.
(** HasKey, dictionary.cpp:87-90 *)
Definition dhas (k : string) (m : dict) : bool := match dget k m with Some _ => true | None => false end.
(** Convert to std::map, type_cast.h:93-113: entries are [insert]ed into the map given *)
Definition cvMapInto (o : py) (m : dict) : option dict :=
  match o with PDict l => Some (fold_left (fun a p => dins (fst p) (snd p) a) l m) | _ => None end.
(** FromPy, dictionary.cpp:22-25, on a default-constructed Dictionary, as in Get<Dictionary> *)
Definition cvDict (o : py) : option dict := cvMapInto o [].
(** Load and BigLoad, dictionary.cpp:45-54 and 64-72, of a file that evaluates to [o] *)
Definition dLoad (o : py) (m : dict) : outcome dict := match cvMapInto o m with Some m => Ok m | None => Abort end.
(** Get, dictionary.h:50-64: KeyInvalid and "Fail to convert" both stop the program *)
Definition dGet {A} (f : py -> option A) (k : string) (m : dict) : outcome A :=
  match dget k m with None => Abort | Some o => match f o with None => Abort | Some a => Ok a end end.
(** GET_WITH_DEFAULT, dictionary.h:21-27 *)
Definition dGetOr {A} (f : py -> option A) (k : string) (a : A) (m : dict) : outcome A :=
  if dhas k m then dGet f k m else Ok a.

(** ** CastToPy, type_cast.cpp:138-207, type_cast.h:160-205. On LP64 every int, unsigned int and
    long long is representable as a Python integer. *)
Definition toList {A} (f : A -> py) (l : list A) : py := PList (map f l).
(** Dictionary::ToPy, dictionary.cpp:17-20 *)
Definition toDict (m : dict) : py := PDict m.
(** a sequence of assignments [m[k1] = v1; m[k2] = v2; ...] on an empty dictionary *)
Definition dOf (l : list (string * py)) : dict := fold_left (fun a p => dset (fst p) (snd p) a) l [].
End PyDict.
