(* C128: where the C++ keeps the weight between two vertices is where Python
   looks for it, and what a Python site index means on the C++ lattice. *)
Require Import Reals ZArith List Lia Lra.
Require Import Verif.PyWeight Verif.DysonSpec.
From Verif Require Import Base Num NumR Lattice P_Lattice IndexMap P_IndexMap PyIndex P_PyIndex.
Import ListNotations.
Local Open Scope Z_scope.

(* The element C++ addresses is the numpy element [spin in, sublattice in, spin
   out, sublattice out, site, time bin], site and bin being those of Python for
   the displacement and the two times. *)
Theorem C128_element : forall (m : @imap NumR) a b rin rout,
  imap_ok m -> (0 < (im_beta m : R))%R -> args_ok m a b rin rout ->
  (forall tin tout, (0 <= tin < im_beta m)%R -> (0 <= tout < im_beta m)%R ->
   @GetIndexSmooth NumR m a b rin rout tin tout
   = Ok (cOffset (pyShape (im_nsp m) (SublatVol (im_lat m)) (Size (im_lat m)) (im_maxtau m))
          [a; sub rin; b; sub rout;
           pyCoordiIndex (Size (im_lat m)) (disp (Size (im_lat m)) (coord rin) (coord rout));
           pyTauIndex (im_beta m) (im_maxtau m) tin tout])) /\
  @GetIndexDelta NumR m a b rin rout
  = Ok (cOffset (pyShapeDelta (im_nsp m) (SublatVol (im_lat m)) (Size (im_lat m)))
         [a; sub rin; b; sub rout;
          pyCoordiIndex (Size (im_lat m)) (disp (Size (im_lat m)) (coord rin) (coord rout))]).
Proof.
  intros m a b rin rout H B A. split; [|exact (element_delta m a b rin rout H A)].
  intros tin tout. exact (element_smooth m a b rin rout tin tout H B A).
Qed.
Print Assumptions C128_element.

Example C128_element_case :
  let m := @mkIM NumR 1%R 64 (mkLat [4; 3] 2) (-1) 4 in
  imap_ok m /\ (0 < (im_beta m : R))%R /\ args_ok m 3 2 (mkSite 1 [3; 0]) (mkSite 0 [1; 2]) /\
  @GetIndexDelta NumR m 3 2 (mkSite 1 [3; 0]) (mkSite 0 [1; 2]) = Ok 728.
Proof.
  split; [|split; [|split]].
  - constructor; simpl; try lia; try discriminate; repeat constructor; vm_compute; reflexivity.
  - simpl. lra.
  - repeat split; simpl; try lia; repeat constructor; lia.
  - reflexivity.
Qed.

(* The coordinates that the Fourier transform and IndexToCoordi give to the
   site index of two vertices are the displacement, modulo the lattice size;
   and adding sites in the Dyson equations is following one line after another. *)
Theorem C128_sites : forall L a b, Size L <> [] -> site_ok L a -> site_ok L b ->
  let sizes := map Z.to_nat (Size L) in
  let r := Z.to_nat (CoordiIndex L a b) in
  length (coords sizes r) = length (Size L) /\
  (forall j, (j < length (Size L))%nat ->
     Z.of_nat (nth j (coords sizes r) 0%nat)
     = (nth j (coord b) 0 - nth j (coord a) 0) mod nth j (Size L) 0) /\
  pyIndexToCoordi (Size L) (CoordiIndex L a b) = map Z.of_nat (coords sizes r) /\
  forall c, site_ok L c ->
    addSite sizes r (Z.to_nat (CoordiIndex L b c)) = Z.to_nat (CoordiIndex L a c).
Proof.
  intros L a b N A B. destruct (site_coords L a b N A B) as [S1 S2].
  split; [exact S1|]. split; [exact S2|]. split; [exact (py_sites L a b N A B)|].
  intros c C. exact (site_chain L a b c N A B C).
Qed.
Print Assumptions C128_sites.

Example C128_sites_case :
  let L := mkLat [4; 3] 2 in
  let a := mkSite 1 [3; 0] in let b := mkSite 0 [1; 2] in let c := mkSite 0 [0; 1] in
  Size L <> [] /\ site_ok L a /\ site_ok L b /\ site_ok L c /\
  CoordiIndex L a b = 8 /\ CoordiIndex L b c = 11 /\ CoordiIndex L a c = 4 /\
  coords [4%nat; 3%nat] 8 = [2%nat; 2%nat].
Proof.
  repeat split; simpl; try discriminate; try lia; repeat constructor; lia.
Qed.

(* Both turn every index back into the same coordinates. *)
Theorem C128_coordinates : forall L i, Size L <> [] -> Forall (fun s => 0 < s) (Size L) -> 0 <= i ->
  Index2Vec L i = Ok (pyIndexToCoordi (Size L) i).
Proof. exact py_index_same. Qed.
Print Assumptions C128_coordinates.

Example C128_coordinates_case : pyIndexToCoordi [4; 3] 8 = [2; 2] /\ pyIndexToCoordi [4; 3] 14 = [4; 2].
Proof. split; reflexivity. Qed.

(* And a bin stands for the same time. *)
Theorem C128_times : forall (m : @imap NumR) t,
  @IndexToTau NumR m t = pyIndexToTau (im_beta m) (im_maxtau m) t /\
  forall s n, im_beta m = beta s -> im_maxtau m = Z.of_nat (bins s) ->
    @IndexToTau NumR m (Z.of_nat n) = indexToTau s n.
Proof.
  intros m t. split; [exact (times_same m t)|].
  intros s n E1 E2. symmetry. exact (times_same_w s m n E1 E2).
Qed.
Print Assumptions C128_times.

Example C128_times_case :
  @IndexToTau NumR (@mkIM NumR 1%R 4 (mkLat [4; 3] 2) (-1) 4) 1 = (3/8)%R.
Proof. rewrite times_same. unfold pyIndexToTau. cbn [im_beta im_maxtau]. lra. Qed.
