(* How the weight tables of the Monte Carlo hold what Python computes, and what
   the first-order diagrams are in terms of the Monte Carlo's lines. *)
Require Import Reals ZArith List Arith Bool.
From Coquelicot Require Complex.
Require Import Verif.PyWeight Verif.DysonSpec Verif.FirstOrder.
From Verif Require Import Base Num NumR Complex Lattice P_Lattice IndexMap P_IndexMap Weights PyIndex.
Import ListNotations.
Local Open Scope R_scope.

(* a complex number of the C++ as one of Coquelicot *)
Definition toC (z : @cplx NumR) : Complex.C := (re z, im z).

(* The tables of a job: one lattice, Beta and number of bins; G antisymmetric
   with two spins, W symmetric with four. *)
Record jobTables (T : @tables NumR) : Prop := {
  jt_g : imap_ok (gmap T); jt_w : imap_ok (wmap T);
  jt_lat : im_lat (wmap T) = im_lat (gmap T);
  jt_beta : im_beta (wmap T) = im_beta (gmap T);
  jt_bins : im_maxtau (wmap T) = im_maxtau (gmap T);
  jt_nsp2 : im_nsp (gmap T) = 2%Z; jt_nsp4 : im_nsp (wmap T) = 4%Z;
  jt_sym : im_sym (gmap T) = (-1)%Z;
  jt_pos : 0 < (im_beta (gmap T) : R) }.

(* The memory of a numpy array of this shape is a table. *)
Definition holds (m : @imap NumR) (f : Z -> @cplx NumR) (d : arr) : Prop :=
  forall a sa b sb r t,
  (Z.of_nat a < im_nsp m)%Z -> (Z.of_nat sa < SublatVol (im_lat m))%Z ->
  (Z.of_nat b < im_nsp m)%Z -> (Z.of_nat sb < SublatVol (im_lat m))%Z ->
  (Z.of_nat r < Vol (im_lat m))%Z -> (Z.of_nat t < im_maxtau m)%Z ->
  toC (f (cOffset (pyShape (im_nsp m) (SublatVol (im_lat m)) (Size (im_lat m)) (im_maxtau m))
            [Z.of_nat a; Z.of_nat sa; Z.of_nat b; Z.of_nat sb; Z.of_nat r; Z.of_nat t]))
  = d a sa b sb r t.

Definition spinN (s : spin) : nat := match s with DOWN => 0 | UP => 1 end.
(* the two spins of a vertex *)
Definition ends (i o : spin) : dir -> spin := fun d => match d with IN => i | OUT => o end.

Definition noExt : @extpt NumR := mkExt (mkSite 0 []) (rofZ 0) DOWN.
(* the lines of the Monte Carlo between two vertices *)
Definition lineG (T : @tables NumR) (s : spin) (A B : site) (tA tB : R) : outcome cplx :=
  @GWeight NumR T A B tA tB s s false false noExt.
Definition lineW (T : @tables NumR) (sA sB : dir -> spin) (A B : site) (tA tB : R) : outcome cplx :=
  @WWeight NumR T A B tA tB sA sB false false false false noExt.

(* site and bin of Python for two vertices *)
Definition siteOf (T : @tables NumR) (A B : site) : nat := Z.to_nat (CoordiIndex (im_lat (gmap T)) A B).
Definition binOf (T : @tables NumR) (tA tB : R) : nat := Z.to_nat (@TauIndex NumR (gmap T) tA tB).
Definition onLattice (T : @tables NumR) (A : site) : Prop := site_ok (im_lat (gmap T)) A.
Definition inTime (T : @tables NumR) (t : R) : Prop := 0 <= t < im_beta (gmap T).
Definition subN (A : site) : nat := Z.to_nat (sub A).

(* G does not change when the displacement is reversed. *)
Definition evenG (T : @tables NumR) (G : arr) : Prop :=
  forall s a b r r' t,
  (Z.of_nat r < Vol (im_lat (gmap T)))%Z -> (Z.of_nat r' < Vol (im_lat (gmap T)))%Z ->
  addSite (map Z.to_nat (Size (im_lat (gmap T)))) r r' = 0%nat ->
  G s a s b r t = G s a s b r' t.
(* G from a to b is G from b to a backwards. *)
Definition reversibleG (T : @tables NumR) (G : arr) : Prop :=
  forall s a b r r' t,
  (s < 2)%nat -> (Z.of_nat a < SublatVol (im_lat (gmap T)))%Z -> (Z.of_nat b < SublatVol (im_lat (gmap T)))%Z ->
  (Z.of_nat r < Vol (im_lat (gmap T)))%Z -> (Z.of_nat r' < Vol (im_lat (gmap T)))%Z ->
  (Z.of_nat t < im_maxtau (gmap T))%Z ->
  addSite (map Z.to_nat (Size (im_lat (gmap T)))) r r' = 0%nat ->
  G s a s b r t = G s b s a r' t.
