(** * The lattices and spin models of Python.
    /repo/dyson/lattice.py 18-202 (tables of vectors), /repo/dyson/model.py 294-626 (__SpinModel).
    Floating point numbers are taken as real; [math.sqrt(3)] and [np.pi] as the exact numbers. *)
Require Import Reals ZArith List Arith Bool.
From Coquelicot Require Complex.
Require Import Verif.PyIndex Verif.FirstOrder.
Import ListNotations.
Import Coquelicot.Complex.
Local Open Scope R_scope.

(** The lattices that lattice.py knows (methods __Chain ... __Pyrochlore). *)
Inductive latName :=
  | Chain | Checkerboard | ValenceBond | Square | Triangular | AssymetricTriangular
  | Honeycomb | Kagome | Cubic | Checkerboard3D | Pyrochlore.

(** self.Dim, lattice.py 19, 32, 47, 62, 76, 92, 107, 125, 145, 162, 180 *)
Definition Dim (n : latName) : nat :=
  match n with
  | Chain => 1 | Cubic | Checkerboard3D | Pyrochlore => 3 | _ => 2
  end.

(** self.NSublat, the lines after next *)
Definition NSublat (n : latName) : nat :=
  match n with
  | Chain | Square | Triangular | Cubic => 1
  | Checkerboard | ValenceBond | Honeycomb | Checkerboard3D => 2
  | AssymetricTriangular | Kagome => 3
  | Pyrochlore => 4
  end.

(** self.LatVec *)
Definition LatVec (n : latName) : list (list R) :=
  match n with
  | Chain => [[1]]
  | Checkerboard => [[1; 1]; [1; -1]]
  | ValenceBond => [[1; 0]; [0; 2]]
  | Square => [[1; 0]; [0; 1]]
  | Triangular => [[1; 0]; [1/2; sqrt 3 / 2]]
  | AssymetricTriangular => [[1; 0]; [1/2; sqrt 3 * (1/2)]]
  | Honeycomb => [[0; 1]; [sqrt 3 / 2; -(1/2)]]
  | Kagome => [[1; 0]; [1/2; sqrt 3 / 2]]
  | Cubic => [[1; 0; 0]; [0; 1; 0]; [0; 0; 1]]
  | Checkerboard3D => [[1; 1; 0]; [1; -1; 0]; [1; 0; 1]]
  | Pyrochlore => [[0; 1/2; 1/2]; [1/2; 0; 1/2]; [1/2; 1/2; 0]]
  end.

(** self.SubLatVec *)
Definition SubLatVec (n : latName) : list (list R) :=
  match n with
  | Chain => [[0]]
  | Checkerboard => [[0; 0]; [1; 0]]
  | ValenceBond => [[0; 0]; [0; 1]]
  | Square | Triangular => [[0; 0]]
  | AssymetricTriangular => [[0; 0]; [1/2; 1/2 / sqrt 3]; [1/2; -(1/2) / sqrt 3]]
  | Honeycomb => [[0; 0]; [1 / 2 / sqrt 3; 1/2]]
  | Kagome => [[1/2; 0]; [1/4; sqrt 3 / 4]; [3/4; sqrt 3 / 4]]
  | Cubic => [[0; 0; 0]]
  | Checkerboard3D => [[0; 0; 0]; [1; 0; 0]]
  | Pyrochlore => [[0; 0; 0]; [0; 1/4; 1/4]; [1/4; 0; 1/4]; [1/4; 1/4; 0]]
  end.

(** self.ReciprocalLatVec *)
Definition ReciprocalLatVec (n : latName) : list (list R) :=
  match n with
  | Chain => [[2 * PI]]
  | Checkerboard => [[PI; -PI]; [PI; PI]]
  | ValenceBond => [[2 * PI; 0]; [0; PI]]
  | Square => [[2 * PI; 0]; [0; 2 * PI]]
  | Triangular | AssymetricTriangular =>
      [[2 * PI; - (2 * PI) / sqrt 3]; [0; 2 * (2 * PI) / sqrt 3]]
  | Honeycomb => [[2 * PI / sqrt 3; 2 * PI]; [2 * PI * 2 / sqrt 3; 0]]
  | Kagome => [[0; 2 * PI * 2 / sqrt 3]; [2 * PI; - (2 * PI) / sqrt 3]]
  | Cubic => [[2 * PI; 0; 0]; [0; 2 * PI; 0]; [0; 0; 2 * PI]]
  | Checkerboard3D => [[PI; PI; -PI]; [PI; -PI; -PI]; [0; 0; 2 * PI]]
  | Pyrochlore => [[2 * PI; -2 * PI; 2 * PI]; [2 * PI; 2 * PI; -2 * PI]; [-2 * PI; 2 * PI; 2 * PI]]
  end.

(** self.NearestNeighbor[i][j], as __SpinModel fills it: model.py 344, 363-364, 383-386, 415, 430,
    446-451, 462-463, 498-503, 536, 550-561, 603-606.  Pairs not mentioned keep the empty list. *)
Definition nearest (n : latName) (L : list Z) (i j : nat) : list (list Z) :=
  let Lx := nth 0 L 0%Z in let Ly := nth 1 L 0%Z in let Lz := nth 2 L 0%Z in
  (match n, i, j with
  | Chain, 0%nat, 0%nat => [[1]; [Lx - 1]]
  | Checkerboard, 0%nat, 1%nat => [[0; 0]; [0; Ly - 1]; [Lx - 1; 0]; [Lx - 1; Ly - 1]]
  | Checkerboard, 1%nat, 0%nat => [[0; 0]; [0; 1]; [1; 0]; [1; 1]]
  | ValenceBond, 0%nat, 1%nat => [[0; 0]]
  | ValenceBond, 1%nat, 0%nat => [[0; 0]]
  | ValenceBond, 0%nat, 0%nat => [[Lx - 1; 0]; [1; 0]]
  | ValenceBond, 1%nat, 1%nat => [[Lx - 1; 0]; [1; 0]]
  | Square, 0%nat, 0%nat => [[0; 1]; [1; 0]; [Lx - 1; 0]; [0; Ly - 1]]
  | Triangular, 0%nat, 0%nat => [[0; 1]; [1; 0]; [1; Ly - 1]; [0; Ly - 1]; [Lx - 1; 0]; [Lx - 1; 1]]
  | AssymetricTriangular, 0%nat, 1%nat => [[0; 0]; [0; Ly - 1]; [Lx - 1; 0]]
  | AssymetricTriangular, 0%nat, 2%nat => [[0; 0]; [Lx - 1; 1]; [Lx - 1; 0]]
  | AssymetricTriangular, 1%nat, 0%nat => [[0; 0]; [0; 1]; [1; 0]]
  | AssymetricTriangular, 1%nat, 2%nat => [[0; 0]; [0; 1]; [Lx - 1; 1]]
  | AssymetricTriangular, 2%nat, 0%nat => [[0; 0]; [1; 0]; [1; Ly - 1]]
  | AssymetricTriangular, 2%nat, 1%nat => [[0; 0]; [1; Ly - 1]; [0; Ly - 1]]
  | Honeycomb, 0%nat, 1%nat => [[0; 0]; [Lx - 1; 0]; [Lx - 1; Ly - 1]]
  | Honeycomb, 1%nat, 0%nat => [[0; 0]; [1; 0]; [1; 1]]
  | Kagome, 0%nat, 1%nat => [[0; 0]; [1; Ly - 1]]
  | Kagome, 0%nat, 2%nat => [[0; 0]; [0; Ly - 1]]
  | Kagome, 1%nat, 0%nat => [[0; 0]; [Lx - 1; 1]]
  | Kagome, 1%nat, 2%nat => [[0; 0]; [Lx - 1; 0]]
  | Kagome, 2%nat, 0%nat => [[0; 0]; [0; 1]]
  | Kagome, 2%nat, 1%nat => [[0; 0]; [1; 0]]
  | Cubic, 0%nat, 0%nat => [[1; 0; 0]; [0; 1; 0]; [0; 0; 1]; [Lx - 1; 0; 0]; [0; Ly - 1; 0]; [0; 0; Lz - 1]]
  | Pyrochlore, 0%nat, 1%nat => [[0; 0; 0]; [Lx - 1; 0; 0]]
  | Pyrochlore, 0%nat, 2%nat => [[0; 0; 0]; [0; Ly - 1; 0]]
  | Pyrochlore, 0%nat, 3%nat => [[0; 0; 0]; [0; 0; Lz - 1]]
  | Pyrochlore, 1%nat, 0%nat => [[0; 0; 0]; [1; 0; 0]]
  | Pyrochlore, 1%nat, 2%nat => [[0; 0; 0]; [1; Ly - 1; 0]]
  | Pyrochlore, 1%nat, 3%nat => [[0; 0; 0]; [1; 0; Lz - 1]]
  | Pyrochlore, 2%nat, 0%nat => [[0; 0; 0]; [0; 1; 0]]
  | Pyrochlore, 2%nat, 1%nat => [[0; 0; 0]; [Lx - 1; 1; 0]]
  | Pyrochlore, 2%nat, 3%nat => [[0; 0; 0]; [0; 1; Lz - 1]]
  | Pyrochlore, 3%nat, 0%nat => [[0; 0; 0]; [0; 0; 1]]
  | Pyrochlore, 3%nat, 1%nat => [[0; 0; 0]; [Lx - 1; 0; 1]]
  | Pyrochlore, 3%nat, 2%nat => [[0; 0; 0]; [0; Ly - 1; 1]]
  | Checkerboard3D, 0%nat, 1%nat =>
      [[0; 0; 0]; [0; Ly - 1; 0]; [Lx - 1; 0; 0]; [Lx - 1; Ly - 1; 0]; [Lx - 1; Ly - 1; 1]; [0; 0; Lz - 1]]
  | Checkerboard3D, 1%nat, 0%nat =>
      [[0; 0; 0]; [0; 1; 0]; [1; 0; 0]; [1; 1; 0]; [0; 0; 1]; [1; 1; Lz - 1]]
  | _, _, _ => []
  end)%Z.

(** self.NextNearestNeighbor[i][j]: model.py 345-348, 366-367, 388-389, 416, 431, 465-466, 505-510,
    537, 563-574, 608-615. *)
Definition nextNearestTable (n : latName) (L : list Z) (i j : nat) : list (list Z) :=
  let Lx := nth 0 L 0%Z in let Ly := nth 1 L 0%Z in let Lz := nth 2 L 0%Z in
  (match n, i, j with
  | Chain, 0%nat, 0%nat => if 2 <? Lx then [[2]; [Lx - 2]] else [[0]; [0]]
  | Checkerboard, 0%nat, 0%nat => [[0; 1]; [1; 0]; [0; Ly - 1]; [Lx - 1; 0]]
  | Checkerboard, 1%nat, 1%nat => [[0; 1]; [1; 0]; [0; Ly - 1]; [Lx - 1; 0]]
  | ValenceBond, 0%nat, 1%nat => [[0; Ly - 1]]
  | ValenceBond, 1%nat, 0%nat => [[0; 1]]
  | Square, 0%nat, 0%nat => [[1; 1]; [Lx - 1; 1]; [1; Ly - 1]; [Lx - 1; Ly - 1]]
  | Triangular, 0%nat, 0%nat =>
      [[1; 1]; [2; Ly - 1]; [1; Ly - 2]; [Lx - 1; Ly - 1]; [Lx - 2; 1]; [Lx - 1; 2]]
  | Honeycomb, 0%nat, 0%nat => [[1; 0]; [Lx - 1; 0]; [0; 1]; [0; Ly - 1]; [1; 1]; [Lx - 1; Ly - 1]]
  | Honeycomb, 1%nat, 1%nat => [[1; 0]; [Lx - 1; 0]; [0; 1]; [0; Ly - 1]; [1; 1]; [Lx - 1; Ly - 1]]
  | Kagome, 0%nat, 1%nat => [[1; 0]; [0; Ly - 1]]
  | Kagome, 0%nat, 2%nat => [[1; Ly - 1]; [Lx - 1; 0]]
  | Kagome, 1%nat, 0%nat => [[0; 1]; [Lx - 1; 0]]
  | Kagome, 1%nat, 2%nat => [[Lx - 1; 1]; [0; Ly - 1]]
  | Kagome, 2%nat, 0%nat => [[1; 0]; [Lx - 1; 1]]
  | Kagome, 2%nat, 1%nat => [[0; 1]; [1; Ly - 1]]
  | Pyrochlore, 0%nat, 1%nat => [[0; Ly - 1; 0]; [0; 0; Lz - 1]; [Lx - 1; 1; 0]; [Lx - 1; 0; 1]]
  | Pyrochlore, 0%nat, 2%nat => [[Lx - 1; 0; 0]; [0; 0; Lz - 1]; [1; Ly - 1; 0]; [0; Ly - 1; 1]]
  | Pyrochlore, 0%nat, 3%nat => [[Lx - 1; 0; 0]; [0; Ly - 1; 0]; [1; 0; Lz - 1]; [0; 1; Lz - 1]]
  | Pyrochlore, 1%nat, 0%nat => [[1; Ly - 1; 0]; [1; 0; Lz - 1]; [0; 0; 1]; [0; 1; 0]]
  | Pyrochlore, 1%nat, 2%nat => [[1; 0; 0]; [1; 0; Lz - 1]; [0; Ly - 1; 0]; [0; Ly - 1; 1]]
  | Pyrochlore, 1%nat, 3%nat => [[1; Ly - 1; 0]; [1; 0; 0]; [0; 0; Lz - 1]; [0; 1; Lz - 1]]
  | Pyrochlore, 2%nat, 0%nat => [[Lx - 1; 1; 0]; [0; 1; Lz - 1]; [1; 0; 0]; [0; 0; 1]]
  | Pyrochlore, 2%nat, 1%nat => [[0; 1; 0]; [0; 1; Lz - 1]; [Lx - 1; 0; 0]; [Lx - 1; 0; 1]]
  | Pyrochlore, 2%nat, 3%nat => [[0; 1; 0]; [Lx - 1; 1; 0]; [0; 0; Lz - 1]; [1; 0; Lz - 1]]
  | Pyrochlore, 3%nat, 0%nat => [[Lx - 1; 0; 1]; [0; Ly - 1; 1]; [1; 0; 0]; [0; 1; 0]]
  | Pyrochlore, 3%nat, 1%nat => [[0; 0; 1]; [0; Ly - 1; 1]; [Lx - 1; 0; 0]; [Lx - 1; 1; 0]]
  | Pyrochlore, 3%nat, 2%nat => [[0; 0; 1]; [Lx - 1; 0; 1]; [0; Ly - 1; 0]; [1; Ly - 1; 0]]
  | Checkerboard3D, 0%nat, 0%nat =>
      [[0; 1; 0]; [1; 0; 0]; [0; Ly - 1; 0]; [Lx - 1; 0; 0];
       [Lx - 1; Ly - 1; 1]; [0; 0; Lz - 1]; [1; 1; Lz - 1]; [0; 0; 1];
       [0; Ly - 1; 1]; [0; 1; Lz - 1]; [1; 0; Lz - 1]; [Lx - 1; 0; 1]]
  | Checkerboard3D, 1%nat, 1%nat =>
      [[0; 1; 0]; [1; 0; 0]; [0; Ly - 1; 0]; [Lx - 1; 0; 0];
       [Lx - 1; Ly - 1; 1]; [1; 1; Lz - 1]; [0; 0; Lz - 1]; [0; 0; 1];
       [1; 0; Lz - 1]; [0; 1; Lz - 1]; [Lx - 1; 0; 1]; [0; Ly - 1; 1]]
  | _, _, _ => []
  end)%Z.

(** self.NextNextNearestNeighbor[i][j]: model.py 512-514, 577-580 *)
Definition nextNextNearest (n : latName) (L : list Z) (i j : nat) : list (list Z) :=
  let Lx := nth 0 L 0%Z in let Ly := nth 1 L 0%Z in let Lz := nth 2 L 0%Z in
  (match n, i, j with
  | Kagome, 0%nat, 0%nat => [[1; 0]; [Lx - 1; 0]]
  | Kagome, 1%nat, 1%nat => [[0; 1]; [0; Ly - 1]]
  | Kagome, 2%nat, 2%nat => [[Lx - 1; 1]; [1; Ly - 1]]
  | Pyrochlore, 0%nat, 0%nat => [[1; 0; 0]; [0; 1; 0]; [0; 0; 1]; [Lx - 1; 0; 0]; [0; Ly - 1; 0]; [0; 0; Lz - 1]]
  | Pyrochlore, 1%nat, 1%nat =>
      [[Lx - 1; 0; 0]; [Lx - 1; 1; 0]; [Lx - 1; 0; 1]; [1; 0; 0]; [1; Ly - 1; 0]; [1; 0; Lz - 1]]
  | Pyrochlore, 2%nat, 2%nat =>
      [[0; Ly - 1; 0]; [1; Ly - 1; 0]; [0; Ly - 1; 1]; [0; 1; 0]; [Lx - 1; 1; 0]; [0; 1; Lz - 1]]
  | Pyrochlore, 3%nat, 3%nat =>
      [[0; 0; Lz - 1]; [1; 0; Lz - 1]; [0; 1; Lz - 1]; [0; 0; 1]; [Lx - 1; 0; 1]; [0; Ly - 1; 1]]
  | _, _, _ => []
  end)%Z.

(** Sx, Sy, Sz over the spin index 2*in+out and np.outer of them: model.py 298-306 *)
Definition Sx (a : nat) : C := Cmult (RtoC (1/2)) (nth a [RtoC 0; RtoC 1; RtoC 1; RtoC 0] (RtoC 0)).
Definition Sy (a : nat) : C := Cmult (RtoC (1/2)) (nth a [RtoC 0; Copp Ci; Ci; RtoC 0] (RtoC 0)).
Definition Sz (a : nat) : C := Cmult (RtoC (1/2)) (nth a [RtoC 1; RtoC 0; RtoC 0; RtoC (-1)] (RtoC 0)).
Definition outer (u v : nat -> C) (a b : nat) : C := Cmult (u a) (v b).
Definition SS (a b : nat) : C := Cplus (Cplus (outer Sx Sx a b) (outer Sy Sy a b)) (outer Sz Sz a b).

(** One statement [self.BareW.Data[:,i,:,j,self.__Map.CoordiIndex(e)] += J*M]: [None] if the index
    is beyond the last axis (IndexError).  Tables do not produce negative indices. *)
Record write := mkWrite { w_i : nat; w_j : nat; w_e : list Z; w_J : R; w_M : nat -> nat -> C }.

Definition doWrite (L : list Z) (w : write) (D : arrD) : option arrD :=
  let k := pyCoordiIndex L (w_e w) in
  if (k <? fold_right Z.mul 1 L)%Z then
    Some (fun a i b j r =>
      if Nat.eqb i (w_i w) && Nat.eqb j (w_j w) && Z.eqb (Z.of_nat r) k
      then Cplus (D a i b j r) (Cmult (RtoC (w_J w)) (w_M w a b)) else D a i b j r)
  else None.

(** The statements one after the other; an exception leaves what was done and is caught in Build
    (60-64).  The flag says whether all were done. *)
Fixpoint doWrites (L : list Z) (ws : list write) (D : arrD) : bool * arrD :=
  match ws with
  | [] => (true, D)
  | w :: rest => match doWrite L w D with Some D' => doWrites L rest D' | None => (false, D) end
  end.

(** The models: "Heisenberg" and "J1J2" use the lattice given, "Kitaev" replaces its name (97-105). *)
Inductive spinLat := OnLattice (n : latName) | KitaevHoneycomb.

(** The statements of one lattice in their order, model.py 340-624; J1, J2, J3 and J_perturbation[0]
    are the first entries of the list Interaction filled up with zeros (330-334).  On lattices with
    one sublattice all J1 bonds come first, on the others the loops over i and j are outside. *)
Definition shellWrites (tab : nat -> nat -> list (list Z)) (J : R) (i j : nat) : list write :=
  map (fun e => mkWrite i j e J SS) (tab i j).

Definition spinWrites (n : spinLat) (L : list Z) (Interaction : list R) : list write :=
  let J k := nth k Interaction 0 in
  let Lx := nth 0 L 0%Z in let Ly := nth 1 L 0%Z in
  match n with
  | KitaevHoneycomb =>
      [ mkWrite 0 1 [0; 0]%Z (J 0%nat) (outer Sx Sx); mkWrite 1 0 [0; 0]%Z (J 0%nat) (outer Sx Sx);
        mkWrite 0 1 [Lx - 1; 0]%Z (J 1%nat) (outer Sy Sy); mkWrite 1 0 [1; 0]%Z (J 1%nat) (outer Sy Sy);
        mkWrite 0 1 [Lx - 1; Ly - 1]%Z (J 2%nat) (outer Sz Sz); mkWrite 1 0 [1; 1]%Z (J 2%nat) (outer Sz Sz) ]
  | OnLattice n =>
      flat_map (fun i => flat_map (fun j =>
        shellWrites (nearest n L) (J 0%nat) i j ++ shellWrites (nextNearestTable n L) (J 1%nat) i j ++
        shellWrites (nextNextNearest n L) (J 2%nat) i j) (seq 0 (NSublat n))) (seq 0 (NSublat n)) ++
      match n with
      | ValenceBond => [ mkWrite 0 1 [0; 0]%Z (J 3%nat) SS; mkWrite 1 0 [0; 0]%Z (J 3%nat) SS ]
      | _ => []
      end
  end.

(** self.BareW after __SpinModel.  The chain raises ValueError if Lx < 2, before any statement
    (345-350). *)
Definition bareW (n : spinLat) (L : list Z) (Interaction : list R) : bool * arrD :=
  match n with
  | OnLattice Chain =>
      if (2 <=? nth 0 L 0)%Z then doWrites L (spinWrites n L Interaction) (fun _ _ _ _ _ => RtoC 0)
      else (false, fun _ _ _ _ _ => RtoC 0)
  | _ => doWrites L (spinWrites n L Interaction) (fun _ _ _ _ _ => RtoC 0)
  end.

(** The momentum that FourierTransformation makes of integers p (KType "Integer"), component c:
    KVec = sum_i ReciprocalLatVec[i,:]*p[i]/L[i], lattice.py 245-247; the same as in
    GetKVecAlongPath, 288-290. *)
Definition KVec (n : latName) (L p : list Z) (c : nat) : R :=
  fold_right Rplus 0
    (map (fun i => nth c (nth i (ReciprocalLatVec n) []) 0 * IZR (nth i p 0%Z) / IZR (nth i L 0%Z)) (seq 0 (Dim n))).
