(* C134-C137: the lattices, the bare interaction of the spin models, and the momenta. *)
Require Import Reals ZArith List Arith Bool Lra Lia.
From Coquelicot Require Complex.
Require Import Verif.FirstOrder Verif.PyIndex Verif.BareModel Verif.BareSpec.
Require Import Verif.P_Bare Verif.P_Bare2 Verif.P_Bare3 Verif.P_Bare4.
Import ListNotations.
Import Coquelicot.Complex.
Local Open Scope R_scope.

(* C134: on every lattice the tables of neighbours are, folded onto the torus,
   exactly the sites at the shortest and the second shortest distance, each
   once.  On the lattice of valence bonds the two tables together are the sites
   at the shortest distance; the cubic and the "assymetric" triangular lattice
   have no table of second neighbours. *)
Theorem C134_shells : forall n, exists e1 e2, 0 < e1 < e2 /\
  (forall i j v, (i < NSublat n)%nat -> (j < NSublat n)%nat -> length v = Dim n ->
     dist2 n i j v = 0 \/ dist2 n i j v = e1 \/ e2 <= dist2 n i j v) /\
  forall i j, (i < NSublat n)%nat -> (j < NSublat n)%nat -> exists V1 V2,
    NoDup (V1 ++ V2) /\
    (n <> ValenceBond -> forall v, In v V1 <-> length v = Dim n /\ dist2 n i j v = e1) /\
    (n <> ValenceBond -> n <> Cubic -> n <> AssymetricTriangular ->
       forall v, In v V2 <-> length v = Dim n /\ dist2 n i j v = e2) /\
    (n = ValenceBond -> forall v, In v (V1 ++ V2) <-> length v = Dim n /\ dist2 n i j v = e1) /\
    forall L, torus n 2 L -> (n = Triangular -> torus n 3 L) ->
      nearest n L i j = map (wrap L) V1 /\ nextNearestTable n L i j = map (wrap L) V2.
Proof. exact shells_law. Qed.
Print Assumptions C134_shells.

(* The third neighbours are the sites twice as far as the nearest: those with a
   site halfway on the pyrochlore lattice, those without on the kagome lattice. *)
Theorem C134_third : forall n i j, n = Kagome \/ n = Pyrochlore -> (i < NSublat n)%nat -> (j < NSublat n)%nat ->
  exists V, NoDup V /\ (forall L, torus n 2 L -> nextNextNearest n L i j = map (wrap L) V) /\
  forall v, In v V <-> length v = Dim n /\
    (n = Kagome -> dist2 n i j v = 1 /\ ~ through n i j v) /\
    (n = Pyrochlore -> dist2 n i j v = 1/2 /\ through n i j v).
Proof. exact third_law. Qed.
Print Assumptions C134_third.

Example C134_case :
  torus Triangular 3 [4; 3]%Z /\
  nearest Triangular [4; 3]%Z 0 0 = [[0; 1]; [1; 0]; [1; 2]; [0; 2]; [3; 0]; [3; 1]]%Z /\
  dist2 Triangular 0 0 [1; -1]%Z = 1 /\ wrap [4; 3]%Z [1; -1]%Z = [1; 2]%Z.
Proof.
  split; [split; [reflexivity|repeat constructor; lia]|]. split; [reflexivity|]. split; [|reflexivity].
  rewrite dist2_Q by (cbn; lia). cbn. field.
Qed.

(* C135: the spin models build, and the bare W between two cells is
   (J1 times the entries for that cell in the table of nearest neighbours, and
   so on) times S.S; on the lattice of valence bonds the fourth coupling is
   added within the cell. *)
Theorem C135_interaction : forall n L Interaction, torus n 2 L -> (n = Triangular -> torus n 3 L) ->
  let J k := nth k Interaction 0 in
  fst (bareW (OnLattice n) L Interaction) = true /\
  forall a i b j c, (i < NSublat n)%nat -> (j < NSublat n)%nat -> cell L c ->
  snd (bareW (OnLattice n) L Interaction) a i b j (Z.to_nat (pyCoordiIndex L c))
  = Cmult (RtoC
      (INR (occ c (nearest n L i j)) * J 0%nat + INR (occ c (nextNearestTable n L i j)) * J 1%nat
       + INR (occ c (nextNextNearest n L i j)) * J 2%nat
       + match n with
         | ValenceBond => if negb (Nat.eqb i j) && (if list_eq_dec Z.eq_dec c [0; 0]%Z then true else false) then J 3%nat else 0
         | _ => 0
         end)) (SS a b).
Proof. exact bareW_law. Qed.
Print Assumptions C135_interaction.

(* It looks the same from both ends. *)
Theorem C135_symmetric : forall n L Interaction, torus n 2 L -> (n = Triangular -> torus n 3 L) ->
  forall a i b j c, (i < NSublat n)%nat -> (j < NSublat n)%nat -> cell L c ->
  let W := snd (bareW (OnLattice n) L Interaction) in
  W a i b j (Z.to_nat (pyCoordiIndex L c)) = W b j a i (Z.to_nat (pyCoordiIndex L (back L c))).
Proof. exact symmetric_law. Qed.
Print Assumptions C135_symmetric.

Theorem C135_kitaev_symmetric : forall L Interaction, torus Honeycomb 2 L ->
  fst (bareW KitaevHoneycomb L Interaction) = true /\
  forall a i b j c, cell L c ->
  let W := snd (bareW KitaevHoneycomb L Interaction) in
  W a i b j (Z.to_nat (pyCoordiIndex L c)) = W b j a i (Z.to_nat (pyCoordiIndex L (back L c))).
Proof. exact kitaev_law. Qed.
Print Assumptions C135_kitaev_symmetric.

Example C135_case :
  torus Pyrochlore 2 [2; 3; 4]%Z /\ cell [2; 3; 4]%Z [1; 2; 0]%Z /\ back [2; 3; 4]%Z [1; 2; 0]%Z = [1; 1; 0]%Z /\
  occ [1; 2; 0]%Z (nearest Pyrochlore [2; 3; 4]%Z 1 2) = 1%nat /\ torus Honeycomb 2 [2; 3]%Z.
Proof.
  split; [split; [reflexivity|repeat constructor; lia]|]. split; [repeat constructor; lia|].
  split; [reflexivity|]. split; [reflexivity|]. split; [reflexivity|repeat constructor; lia].
Qed.

(* On a torus of width one it does not: the tables name cells outside. *)
Theorem C135_thin_refuted : exists L Interaction a i b j c,
  torus Square 1 L /\ cell L c /\
  let W := snd (bareW (OnLattice Square) L Interaction) in
  W a i b j (Z.to_nat (pyCoordiIndex L c)) = RtoC (1/2) /\
  W b j a i (Z.to_nat (pyCoordiIndex L (back L c))) = RtoC (1/4).
Proof. exact thin_refuted. Qed.
Print Assumptions C135_thin_refuted.

(* C136: S.S exchanges the spins of the two particles with weight one half and
   keeps them with weight minus one quarter, so it conserves the total spin. *)
Theorem C136_exchange : forall s t u v, (s < 2)%nat -> (t < 2)%nat -> (u < 2)%nat -> (v < 2)%nat ->
  SS (vert s t) (vert u v)
  = RtoC ((if Nat.eqb s v && Nat.eqb t u then 1/2 else 0) - (if Nat.eqb s t && Nat.eqb u v then 1/4 else 0)).
Proof. exact SS_swap. Qed.
Print Assumptions C136_exchange.

Theorem C136_conserved : forall s t u v, (s < 2)%nat -> (t < 2)%nat -> (u < 2)%nat -> (v < 2)%nat ->
  (s + u <> t + v)%nat -> SS (vert s t) (vert u v) = RtoC 0.
Proof.
  intros s t u v Hs Ht Hu Hv H. rewrite SS_swap by assumption.
  destruct (Nat.eqb_spec s v), (Nat.eqb_spec t u), (Nat.eqb_spec s t), (Nat.eqb_spec u v); try lia; cbn [andb];
    f_equal; lra.
Qed.
Print Assumptions C136_conserved.

Example C136_case : SS (vert 0 1) (vert 1 0) = RtoC (1/2) /\ (0 + 0 <> 1 + 1)%nat.
Proof. split; [rewrite SS_swap by lia; f_equal; cbn; lra|lia]. Qed.

(* The Kitaev model does not conserve it, which the updates of the Monte Carlo
   take for granted. *)
Theorem C136_kitaev_refuted : exists L Interaction s t u v i j r,
  torus Honeycomb 3 L /\ (s + u <> t + v)%nat /\
  fst (bareW KitaevHoneycomb L Interaction) = true /\
  snd (bareW KitaevHoneycomb L Interaction) (vert s t) i (vert u v) j r = RtoC (1/4).
Proof. exact kitaev_refuted. Qed.
Print Assumptions C136_kitaev_refuted.

(* C137: the waves of FourierTransformation fit the torus, whatever cell stands
   for a site -- unless the lattice is one of three and the torus is not a
   cube. *)
Theorem C137_waves : forall n L p i j v w, torus n 1 L ->
  (n <> Checkerboard /\ n <> Kagome /\ n <> Pyrochlore \/ exists l, forall m, (m < Dim n)%nat -> nth m L 0%Z = l) ->
  length v = Dim n -> length w = Dim n -> wrap L v = wrap L w ->
  same_turn (angle n (KVec n L p) i j v) (angle n (KVec n L p) i j w).
Proof. exact turn_law. Qed.
Print Assumptions C137_waves.

Example C137_case : torus Honeycomb 1 [4; 2]%Z /\ wrap [4; 2]%Z [5; -1]%Z = wrap [4; 2]%Z [1; 1]%Z /\
  exists l, forall m, (m < Dim Kagome)%nat -> nth m [3; 3]%Z 0%Z = l.
Proof.
  split; [split; [reflexivity|repeat constructor; lia]|]. split; [reflexivity|].
  exists 3%Z. intros [|[|m]] H; try reflexivity. cbn in H. lia.
Qed.

(* On the others the reciprocal vectors are listed in another order than the
   lattice vectors. *)
Theorem C137_waves_refuted : exists L p v w,
  torus Checkerboard 2 L /\ length p = 2%nat /\ length v = 2%nat /\ length w = 2%nat /\ wrap L v = wrap L w /\
  ~ same_turn (angle Checkerboard (KVec Checkerboard L p) 0 0 v) (angle Checkerboard (KVec Checkerboard L p) 0 0 w).
Proof. exact turn_refuted. Qed.
Print Assumptions C137_waves_refuted.
