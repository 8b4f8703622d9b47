(** * Words for C134-C137: places in space, independent of the tables of neighbours. *)
Require Import Reals ZArith List Arith Bool.
From Coquelicot Require Complex.
Require Import Verif.BareModel.
Import ListNotations.
Local Open Scope R_scope.

Definition rsum (d : nat) (f : nat -> R) : R := fold_right Rplus 0 (map f (seq 0 d)).

(** Component c of the way from a site of sublattice i to the site of sublattice j that is v unit
    cells away: einsum(LatVec, v) + SubLatVec[j] - SubLatVec[i] (GetRealVec, lattice.py 294-300). *)
Definition comp (n : latName) (i j : nat) (v : list Z) (c : nat) : R :=
  rsum (Dim n) (fun k => IZR (nth k v 0%Z) * nth c (nth k (LatVec n) []) 0)
  + nth c (nth j (SubLatVec n) []) 0 - nth c (nth i (SubLatVec n) []) 0.

(** The square of its length. *)
Definition dist2 (n : latName) (i j : nat) (v : list Z) : R :=
  rsum (Dim n) (fun c => comp n i j v c * comp n i j v c).

(** On a torus only the remainders of the coordinates count. *)
Definition wrap (L v : list Z) : list Z := map (fun lv => (snd lv mod fst lv)%Z) (combine L v).

(** A torus of the lattice n that is at least m cells wide. *)
Definition torus (n : latName) (m : Z) (L : list Z) : Prop :=
  length L = Dim n /\ Forall (fun l => (m <= l)%Z) L.

(** The coordinates of a cell. *)
Definition cell (L c : list Z) : Prop :=
  Forall2 (fun l x => (0 <= x < l)%Z) L c.

(** How often c occurs. *)
Definition occ (c : list Z) (l : list (list Z)) : nat :=
  count_occ (list_eq_dec Z.eq_dec) l c.

(** The way from i to j passes a site halfway. *)
Definition through (n : latName) (i j : nat) (v : list Z) : Prop :=
  exists k u, (k < NSublat n)%nat /\ length u = Dim n /\
    forall c, (c < Dim n)%nat -> comp n i j v c = 2 * comp n i k u c.

(** The way back. *)
Definition back (L c : list Z) : list Z := wrap L (map Z.opp c).

(** The spin of a leg is 0 or 1; a vertex with spin s in and t out has index 2 s + t. *)
Definition vert (s t : nat) : nat := (2 * s + t)%nat.

(** The angle by which the wave of momentum K is turned on the way from i to j. *)
Definition angle (n : latName) (K : nat -> R) (i j : nat) (v : list Z) : R :=
  rsum (Dim n) (fun c => comp n i j v c * K c).

(** Two angles turn by the same amount. *)
Definition same_turn (x y : R) : Prop := exists z : Z, x - y = 2 * PI * IZR z.
