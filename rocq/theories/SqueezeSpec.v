(** What the tables of SymmetryMapping are to say. *)
Require Import ZArith List.
From Coquelicot Require Complex.
From Verif Require Import Squeeze.
Import ListNotations.
Import Coquelicot.Complex.
Local Open Scope Z_scope.

Definition onLattice (Lx Ly : Z) (p : Z * Z) : Prop := 0 <= fst p < Lx /\ 0 <= snd p < Ly.
Definition inside (Lx Ly : Z) (v : vec) : Prop := onLattice Lx Ly (fst v) /\ onLattice Lx Ly (snd v).

(** The mirrors of the two lattices: (a, b, c) sends (x, y) to (a x + b y, c y) *)
Definition moves (s : sym) : list (Z * Z * Z) :=
  match s with
  | Square => [(1, 0, 1); (-1, 0, 1); (-1, 0, -1); (1, 0, -1)]
  | Triangular => [(1, 0, 1); (-1, -1, 1); (-1, 0, -1); (1, 1, -1)]
  | NoMirror => [(1, 0, 1)]
  end.
Definition moved (Lx Ly : Z) (m : Z * Z * Z) (p q : Z * Z) : Prop :=
  let '(a, b, c) := m in
  (a * fst p + b * snd p - fst q) mod Lx = 0 /\ (c * snd p - snd q) mod Ly = 0.
(** One mirror sends both sites of v to those of u *)
Definition alike (s : sym) (Lx Ly : Z) (u v : vec) : Prop :=
  exists m, In m (moves s) /\ moved Lx Ly m (fst v) (fst u) /\ moved Lx Ly m (snd v) (snd u).
(** The mirrors make a group: always on a square lattice, on a triangular one when Lx = Ly. *)
Definition closed (s : sym) (Lx Ly : Z) : Prop := match s with Triangular => Lx = Ly | _ => True end.

(** A three-point function that the mirrors leave alone *)
Definition symmetric (s : sym) (Lx Ly : Z) (n : nat) (G : gammaW) : Prop :=
  forall sp u v t1 t2, inside Lx Ly u -> inside Lx Ly v -> alike s Lx Ly u v -> (t1 < n)%nat -> (t2 < n)%nat ->
    G sp u t1 t2 = G sp v t1 t2.
(** Exchange of the ends gives minus the conjugate *)
Definition exchanged (Lx Ly : Z) (n : nat) (G : gammaW) : Prop :=
  forall sp p q t1 t2, inside Lx Ly (p, q) -> (t1 < n)%nat -> (t2 < n)%nat ->
    G sp (p, q) t1 t2 = Copp (Cconj (G sp (q, p) t2 t1)).

(** Every pair of sites of [all] with every pair of times measured once, each with the weight G *)
Definition everything (n : nat) (all : list vec) (G : gammaW) : list (vec * (nat * nat) * C) :=
  map (fun e : vec * (nat * nat) => let '(v, (a, b)) := e in (v, (a, b), G 0%nat v a b))
    (list_prod all (list_prod (seq 0 n) (seq 0 n))).
