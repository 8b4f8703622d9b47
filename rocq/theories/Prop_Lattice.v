(** * Results on the lattice (C33, C34), in any dimension >= 1 *)
From Coq Require Import ZArith List Lia.
From Verif Require Import Base Lattice P_Lattice.
Import ListNotations.
Open Scope Z_scope.

(** ** C33 Lattice index is a bijection between in-range vectors and 0..Vol-1 *)
Theorem C33_lattice_bijection : forall L, Size L <> [] -> Forall (fun s => 0 < s) (Size L) ->
  (forall v, vec_ok L v -> 0 <= Vec2Index L v < Vol L /\ Index2Vec L (Vec2Index L v) = Ok v) /\
  (forall i, 0 <= i < Vol L ->
     exists v, vec_ok L v /\ Index2Vec L i = Ok v /\ Vec2Index L v = i).
Proof. exact lattice_bijection. Qed.
Print Assumptions C33_lattice_bijection.
Example C33_case : let L := mkLat [3; 4; 5] 2 in
  Vol L = 60 /\ vec_ok L [2; 1; 4] /\ Vec2Index L [2; 1; 4] = 49 /\ Index2Vec L 49 = Ok [2; 1; 4].
Proof. repeat split; repeat constructor; lia. Qed.

(** ** C34 CoordiIndex(a,b) is the index of the displacement b-a modulo the size.
    [disp] is the componentwise displacement modulo the lattice size and [trans] a common
    translation; both are specification functions (P_Lattice.v), not taken from the code. *)
Theorem C34_coordi_index : forall L, Size L <> [] ->
  forall a b, vec_ok L (coord a) -> vec_ok L (coord b) ->
  (0 <= CoordiIndex L a b < Vol L /\ Index2Vec L (CoordiIndex L a b) = Ok (disp (Size L) (coord a) (coord b))) /\
  (CoordiIndex L a b = 0 <-> coord a = coord b) /\
  (forall a' b', vec_ok L (coord a') -> vec_ok L (coord b') ->
     (CoordiIndex L a b = CoordiIndex L a' b' <->
      disp (Size L) (coord a) (coord b) = disp (Size L) (coord a') (coord b'))) /\
  (forall t sa sb, length t = length (Size L) ->
     CoordiIndex L (mkSite sa (trans (Size L) t (coord a))) (mkSite sb (trans (Size L) t (coord b)))
     = CoordiIndex L a b).
Proof. exact coordi_spec. Qed.
Print Assumptions C34_coordi_index.
Example C34_case : let L := mkLat [3; 4] 1 in
  vec_ok L [2; 1] /\ vec_ok L [0; 3] /\
  CoordiIndex L (mkSite 0 [2; 1]) (mkSite 0 [0; 3]) = 6 /\ disp [3; 4] [2; 1] [0; 3] = [1; 2].
Proof. repeat split; repeat constructor; lia. Qed.
