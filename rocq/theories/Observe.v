(* The history of measured quantities kept by the Dyson program
   (dyson/measure.py 9-134): which entries one call of Measure appends, on every
   lattice, and what the lists hold after any number of calls. *)
From Coq Require Import Arith List Bool.
Import ListNotations.

(* The keys of the history.  Simplified: names instead of texts; "<Sz_{0}>" and
   "<n_{0}>" (lines 113 and 117) carry the sublattice. *)
Inductive name :=
| OneMinusJP | UnifChi | BKUnifChi | MagDensity | BKMagDensity
| Energy | SumRule | BKEnergy | BKSumRule
| StagChi | BKStagChi | StagMagDensity | BKStagMagDensity
| ChiX | VBS | Sz (i : nat) | Density (i : nat).

Definition name_eq_dec : forall a b : name, {a = b} + {a <> b}.
Proof. decide equality; apply Nat.eq_dec. Defined.

(* The lattice names Measure asks for (lines 52, 68, 89, 96, 105); OtherLattice
   is any name in none of the lists.  The eleven others are the lattices that
   dyson/lattice.py 18-203 can build; for any other name its lines 12-15 end the
   program before anything is measured. *)
Inductive lattice :=
| Chain | AssymetricTriangular | Square | Cubic | Checkerboard | Checkerboard3D
| ValenceBond | Triangular | Pyrochlore | Kagome | Honeycomb | OtherLattice.

Section History.
Context {V : Type}.

(* self.__History, measure.py 11: a dictionary of lists; a key that is absent
   and a key with an empty list are both the empty list here, which has_key at
   line 16 makes indistinguishable to Append. *)
Definition history := name -> list V.

Definition noHistory : history := fun _ => [].

(* measure.py 15-18 *)
Definition append (h : history) (n : name) (v : V) : history :=
  fun m => if name_eq_dec m n then h m ++ [v] else h m.

Definition appendAll (h : history) (ns : list name) (val : name -> V) : history :=
  fold_left (fun h n => append h n (val n)) ns h.

(* measure.py 21-49, before the lattice is asked for *)
Definition always : list name :=
  [OneMinusJP; UnifChi; BKUnifChi; MagDensity; BKMagDensity;
   Energy; SumRule; BKEnergy; BKSumRule].

(* measure.py 58-61 and 84-87 *)
Definition staggered : list name :=
  [StagChi; BKStagChi; StagMagDensity; BKStagMagDensity].

(* measure.py 52-109: None is the Assert of line 103.  Line 96 names Triangular
   again, which line 68 has already taken. *)
Definition special (l : lattice) : option (list name) :=
  match l with
  | Chain | AssymetricTriangular | Square | Cubic | Checkerboard | Checkerboard3D
  | Triangular => Some staggered
  | ValenceBond => Some (staggered ++ [VBS])
  | Pyrochlore => Some [UnifChi; ChiX]
  | Kagome | Honeycomb => Some []
  | OtherLattice => None
  end.

(* measure.py 111-117 *)
Definition perSublattice (nsub : nat) : list name :=
  map Sz (seq 0 nsub) ++ map Density (seq 0 nsub).

(* One call of Measure, measure.py 20-122.  val gives the numbers of this call;
   simplified: two entries with the same key in one call have the same value,
   which holds of lines 31 and 93, the zero momentum of the same Chi in "R","W".
   None: the exception of line 103 (the entries appended before it are lost with
   the program, since dyson/main.py 323-325 is in the else part of the try). *)
Definition measure (l : lattice) (nsub : nat) (val : name -> V) (h : history)
  : option history :=
  match special l with
  | None => None
  | Some ns => Some (appendAll h (always ++ ns ++ perSublattice nsub) val)
  end.

(* The calls of one run, one per successful turn (dyson/main.py 318-325). *)
Fixpoint measures (l : lattice) (nsub : nat) (vals : list (name -> V)) (h : history)
  : option history :=
  match vals with
  | [] => Some h
  | val :: vals' =>
      match measure l nsub val h with
      | None => None
      | Some h' => measures l nsub vals' h'
      end
  end.

End History.
