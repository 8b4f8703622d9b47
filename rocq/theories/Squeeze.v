(** * The compressed three-point function: tables of SymmetryMapping, CompressGammaW, UnCompressGammaW.
    /repo/dyson/gamma3_calc.py 612-747. *)
Require Import ZArith List Bool Arith Rdefinitions Raxioms.
From Coquelicot Require Complex.
Import ListNotations.
Import Coquelicot.Complex.
Local Open Scope nat_scope.

(** ** Times, 645-662 *)

(** "t1 is t2" of numbers from two calls of range: CPython 2 keeps one object for each number up to 256
    only. *)
Definition same (t1 t2 : nat) : bool := (t1 =? t2) && (t2 <=? 256).

Definition set2 {A} (f : nat -> nat -> A) (i j : nat) (x : A) : nat -> nat -> A :=
  fun a b => if (a =? i) && (b =? j) then x else f a b.

Record times := mkTimes {
  tauSqueeze : nat -> nat -> nat; tauSym : nat -> nat -> nat; tauFlag : nat -> nat -> nat;
  tauRestore : list (nat * nat); tauIndex : nat }.

Definition tauStep (s : times) (p : nat * nat) : times :=
  let (t1, t2) := p in
  let i := tauIndex s in
  let sq := set2 (tauSqueeze s) t1 t2 i in
  let sy := set2 (tauSym s) t1 t2 2 in
  let fl := tauFlag s in
  let '(sq, sy, fl) := if negb (same t1 t2) then (set2 sq t2 t1 i, set2 sy t2 t1 2, set2 fl t2 t1 1) else (sq, sy, fl) in
  let sy := if same t1 t2 then set2 sy t1 t1 1 else sy in
  mkTimes sq sy fl (tauRestore s ++ [(t1, t2)]) (S i).

Definition timePairs (n : nat) : list (nat * nat) :=
  flat_map (fun t1 => map (fun t2 => (t1, t2)) (seq t1 (n - t1))) (seq 0 n).

Definition timeMap (n : nat) : times :=
  fold_left tauStep (timePairs n) (mkTimes (fun _ _ => 0) (fun _ _ => 0) (fun _ _ => 0) [] 0).

(** ** Sites, 612-637, 664-693 *)
Local Open Scope Z_scope.

Definition getR (r L : Z) : Z :=
  if r <? 0 then (let r := r + L in if r <? 0 then r + L else r)
  else if L <=? r then (let r := r - L in if L <=? r then r - L else r)
  else r.

(** (x1, y1, x2, y2): a pair of sites *)
Definition vec : Type := ((Z * Z) * (Z * Z))%type.

(** "Triangular" in Symmetry, else "Square" in Symmetry, else neither *)
Inductive sym := Triangular | Square | NoMirror.

(** What the k-th line of MirrorR does with each of the two sites *)
Definition mirror (s : sym) (Lx Ly : Z) (k : nat) (p : Z * Z) : Z * Z :=
  let (x, y) := p in
  match s, k with
  | Triangular, 1%nat => (getR (- x - y) Lx, y)
  | Triangular, 2%nat => (getR (- x) Lx, getR (- y) Ly)
  | Triangular, 3%nat => (getR (x + y) Lx, getR (- y) Ly)
  | Square, 1%nat => (getR (- x) Lx, y)
  | Square, 2%nat => (getR (- x) Lx, getR (- y) Ly)
  | Square, 3%nat => (getR x Lx, getR (- y) Ly)
  | _, _ => (x, y)
  end.
Definition mirrorV (s : sym) (Lx Ly : Z) (k : nat) (v : vec) : vec :=
  (mirror s Lx Ly k (fst v), mirror s Lx Ly k (snd v)).

Definition eqP (p q : Z * Z) : bool := (fst p =? fst q) && (snd p =? snd q).
Definition eqV (u v : vec) : bool := eqP (fst u) (fst v) && eqP (snd u) (snd v).
Definition inV (v : vec) (l : list vec) : bool := existsb (eqV v) l.

(** The elements of the set, each once *)
Fixpoint distinct (l : list vec) : list vec :=
  match l with [] => [] | v :: l => if inV v l then distinct l else v :: distinct l end.
Definition MirrorR (s : sym) (Lx Ly : Z) (v : vec) : list vec :=
  distinct (map (fun k => mirrorV s Lx Ly k v) [0; 1; 2; 3]%nat).

(** sorted(Rlist)[0] *)
Definition lessV (u v : vec) : bool :=
  let '((a, b), (c, d)) := u in let '((a', b'), (c', d')) := v in
  (a <? a') || ((a =? a') && ((b <? b') || ((b =? b') && ((c <? c') || ((c =? c') && (d <? d')))))).
Definition least (v : vec) (l : list vec) : vec := fold_left (fun m u => if lessV u m then u else m) l v.

(** The tables are kept by coordinates: CoordiIndex numbers the sites of the lattice one to one (C128). *)
Record sites := mkSites {
  points : list vec; rSqueeze : vec -> nat; rSym : vec -> nat; rRestore : list vec; rIndex : nat }.
Definition siteStep (orbit : vec -> list vec) (s : sites) (v : vec) : sites :=
  if inV v (points s) then s else
  let O := orbit v in
  mkSites (O ++ points s)
    (fun u => if inV u O then rIndex s else rSqueeze s u)
    (fun u => if inV u O then length O else rSym s u)
    (rRestore s ++ [least v O]) (S (rIndex s)).

Definition range (L : Z) : list Z := map Z.of_nat (seq 0 (Z.to_nat L)).
Definition siteList (Lx Ly : Z) : list vec :=
  flat_map (fun x1 => flat_map (fun y1 => flat_map (fun x2 => map (fun y2 => ((x1, y1), (x2, y2)))
    (range Ly)) (range Lx)) (range Ly)) (range Lx).
Definition siteMap (s : sym) (Lx Ly : Z) : sites :=
  fold_left (siteStep (MirrorR s Lx Ly)) (siteList Lx Ly) (mkSites [] (fun _ => 0%nat) (fun _ => 0%nat) [] 0%nat).
Local Close Scope Z_scope.

(** ** The function, 700-747.  [G s v t1 t2] is GammaW[s,r1,r2,t1,t2] with as many bins as
    MaxTauBinTiny; rounding to complex64 is left out. *)
Definition gammaW := nat -> vec -> nat -> nat -> C.
Definition compact := nat -> nat -> nat -> C.

Definition compress (n : nat) (s : sym) (Lx Ly : Z) (G : gammaW) : compact :=
  fun sp i j =>
    match nth_error (rRestore (siteMap s Lx Ly)) i, nth_error (tauRestore (timeMap n)) j with
    | Some v, Some (t1, t2) => G sp v t1 t2
    | _, _ => RtoC (IZR 0)
    end.

Definition swapV (v : vec) : vec := (snd v, fst v).
Definition uncompress (n : nat) (s : sym) (Lx Ly : Z) (c : compact) : gammaW :=
  fun sp v t1 t2 =>
    let tau v := c sp (rSqueeze (siteMap s Lx Ly) v) (tauSqueeze (timeMap n) t1 t2) in
    if t1 <=? t2 then tau v else Copp (Cconj (tau (swapV v))).

(** GammaWClass::Weight for spin index 0, 1 or 5, /repo/src/module/weight/gamma3.cpp 295-341, on exact
    numbers: v is (coord_r1, coord_r2), both times already binned.  The function on machine numbers is
    [gwWeight] in Gamma3.v. *)
Definition read (n : nat) (s : sym) (Lx Ly : Z) (c : compact) : gammaW :=
  fun sp v t1 t2 =>
    let w := c sp (rSqueeze (siteMap s Lx Ly) v) (tauSqueeze (timeMap n) t1 t2) in
    if tauFlag (timeMap n) t1 t2 =? 0 then w else Copp (Cconj w).

(** GammaWClass::Measure for spin index 0 or 1, gamma3.cpp 378-412, on exact numbers: where it adds and
    what.  The function on machine numbers is [gwMeasure] in Gamma3.v. *)
Definition deposit (n : nat) (s : sym) (Lx Ly : Z) (v : vec) (t1 t2 : nat) (w : C) : (nat * nat) * C :=
  let w := Cdiv w (RtoC (INR (rSym (siteMap s Lx Ly) v * tauSym (timeMap n) t1 t2))) in
  ((rSqueeze (siteMap s Lx Ly) v, tauSqueeze (timeMap n) t1 t2),
   if tauFlag (timeMap n) t1 t2 =? 0 then w else Copp (Cconj w)).

(** _WeightAccu, zero after ClearStatistics, after a list of measurements *)
Definition accumulate (n : nat) (s : sym) (Lx Ly : Z) (l : list (vec * (nat * nat) * C)) : nat -> nat -> C :=
  fold_left (fun acc e => let '(v, (t1, t2), w) := e in
    let '((i, j), x) := deposit n s Lx Ly v t1 t2 w in
    fun a b => if (a =? i) && (b =? j) then Cplus (acc a b) x else acc a b) l (fun _ _ => RtoC (IZR 0)).
