Require Import ZArith List Bool Arith Lia Reals Lra.
From Coquelicot Require Complex.
From Verif Require Import Squeeze SqueezeSpec P_Squeeze.
Import ListNotations.
Import Coquelicot.Complex.
Local Open Scope nat_scope.

Lemma tau_restore n t1 t2 : t1 < n -> t2 < n ->
  nth_error (tauRestore (timeMap n)) (tauSqueeze (timeMap n) t1 t2) = Some (Nat.min t1 t2, Nat.max t1 t2).
Proof. intros H1 H2. apply (time_inv n t1 t2 H1 H2). Qed.
Lemma tau_unordered n t1 t2 u1 u2 : t1 < n -> t2 < n -> u1 < n -> u2 < n ->
  (tauSqueeze (timeMap n) t1 t2 = tauSqueeze (timeMap n) u1 u2 <-> (t1 = u1 /\ t2 = u2) \/ (t1 = u2 /\ t2 = u1)).
Proof.
  intros H1 H2 H3 H4. split.
  - intros E. assert (A := tau_restore n t1 t2 H1 H2). rewrite E, (tau_restore n u1 u2 H3 H4) in A. injection A. lia.
  - intros [[-> ->]|[-> ->]]; [reflexivity|]. symmetry. apply (time_inv n u2 u1); assumption.
Qed.
Lemma tau_factors n t1 t2 : n <= 257 -> t1 < n -> t2 < n ->
  tauSym (timeMap n) t1 t2 = (if t1 =? t2 then 1 else 2) /\ tauFlag (timeMap n) t1 t2 = (if t2 <? t1 then 1 else 0).
Proof.
  intros N H1 H2. destruct (time_inv n t1 t2 H1 H2) as (_ & _ & -> & ->). unfold same.
  destruct (Nat.leb_spec t2 256); [|lia]. rewrite andb_true_r.
  destruct (Nat.eqb_spec t1 t2), (Nat.ltb_spec t1 t2), (Nat.ltb_spec t2 t1); split; try reflexivity; lia.
Qed.
Lemma tau_identity n t : 256 < t -> t < n -> tauSym (timeMap n) t t = 2 /\ tauFlag (timeMap n) t t = 1.
Proof.
  intros H1 H2. destruct (time_inv n t t H2 H2) as (_ & _ & -> & ->). unfold same. rewrite Nat.ltb_irrefl.
  destruct (Nat.leb_spec t 256); [lia|]. now rewrite andb_false_r.
Qed.
Lemma tau_identity_ex : exists n t, t < n /\ ~ (tauSym (timeMap n) t t = 1 /\ tauFlag (timeMap n) t t = 0).
Proof. exists (S (Z.to_nat 257)), (Z.to_nat 257). split; [lia|]. destruct (tau_identity (S (Z.to_nat 257)) (Z.to_nat 257)) as [-> _]; [lia|lia|lia]. Qed.

(** A triangular lattice of 4 by 2 *)
Lemma triangular_overlap : exists Lx Ly u v, inside Lx Ly u /\ inside Lx Ly v /\ alike Triangular Lx Ly u v /\
  rSqueeze (siteMap Triangular Lx Ly) u <> rSqueeze (siteMap Triangular Lx Ly) v.
Proof.
  exists 4%Z, 2%Z, ((0, 0), (1, 1))%Z, ((0, 0), (0, 1))%Z. unfold inside, onLattice. cbn [fst snd].
  split; [lia|]. split; [lia|]. split.
  - exists (1, 1, -1)%Z. split; [simpl; tauto|]. repeat split; reflexivity.
  - vm_compute. discriminate.
Qed.
Lemma triangular_count : exists Lx Ly v, inside Lx Ly v /\ rSym (siteMap Triangular Lx Ly) v = 3 /\
  forall u, inside Lx Ly u -> rSqueeze (siteMap Triangular Lx Ly) u = rSqueeze (siteMap Triangular Lx Ly) v -> u = v.
Proof.
  exists 4%Z, 2%Z, ((0, 0), (0, 1))%Z. split; [unfold inside, onLattice; cbn [fst snd]; lia|]. split; [vm_compute; reflexivity|].
  intros u Hu E. apply siteList_in in Hu.
  assert (A : forallb (fun u => implb (rSqueeze (siteMap Triangular 4 2) u =? rSqueeze (siteMap Triangular 4 2) ((0, 0), (0, 1))%Z) (eqV u ((0, 0), (0, 1))%Z)) (siteList 4 2) = true) by (vm_compute; reflexivity).
  rewrite forallb_forall in A. specialize (A u Hu). rewrite E, Nat.eqb_refl in A. now apply eqV_spec.
Qed.

Lemma alike_swap s Lx Ly u v : alike s Lx Ly u v -> alike s Lx Ly (swapV u) (swapV v).
Proof. intros (m & Hm & A & B). exists m. destruct u, v. split; [exact Hm|]. split; assumption. Qed.
Lemma inside_swapV Lx Ly v : inside Lx Ly v -> inside Lx Ly (swapV v).
Proof. destruct v. apply inside_swap. Qed.
Lemma uncompress_symmetric n s Lx Ly c : closed s Lx Ly -> symmetric s Lx Ly n (uncompress n s Lx Ly c).
Proof.
  intros C sp u v t1 t2 U V A _ _. unfold uncompress.
  assert (E1 : rSqueeze (siteMap s Lx Ly) u = rSqueeze (siteMap s Lx Ly) v) by now apply squeeze_alike.
  assert (E2 : rSqueeze (siteMap s Lx Ly) (swapV u) = rSqueeze (siteMap s Lx Ly) (swapV v))
    by (apply squeeze_alike; try apply inside_swapV; try assumption; now apply alike_swap).
  now rewrite E1, E2.
Qed.
Lemma opp_conj_invol z : Copp (Cconj (Copp (Cconj z))) = z.
Proof. destruct z as [a b]. unfold Copp, Cconj. cbn [fst snd]. apply injective_projections; cbn [fst snd]; ring. Qed.
Lemma uncompress_exchanged n s Lx Ly c sp p q t1 t2 : t1 < n -> t2 < n -> t1 <> t2 ->
  uncompress n s Lx Ly c sp (p, q) t1 t2 = Copp (Cconj (uncompress n s Lx Ly c sp (q, p) t2 t1)).
Proof.
  intros H1 H2 N. unfold uncompress, swapV. cbn [fst snd]. destruct (time_inv n t1 t2 H1 H2) as (_ & -> & _).
  destruct (Nat.leb_spec t1 t2), (Nat.leb_spec t2 t1); try lia; [|reflexivity]. now rewrite opp_conj_invol.
Qed.
Lemma uncompress_diagonal : exists n s Lx Ly c, closed s Lx Ly /\ ~ exchanged Lx Ly n (uncompress n s Lx Ly c).
Proof.
  exists 1, Square, 1%Z, 1%Z, (fun _ _ _ => RtoC 1). split; [exact I|]. intros X.
  specialize (X 0 (0, 0)%Z (0, 0)%Z 0 0). unfold uncompress in X. cbn [Nat.leb] in X.
  assert (D : inside 1 1 ((0, 0), (0, 0))%Z) by (unfold inside, onLattice; cbn [fst snd]; lia).
  specialize (X D (Nat.lt_0_succ 0) (Nat.lt_0_succ 0)). apply (f_equal fst) in X. cbn in X. lra.
Qed.

(** A function on the square lattice of 2 by 2 *)
Definition v0 : vec := ((0, 0), (1, 0))%Z.
Definition G0 : gammaW := fun _ v t1 t2 =>
  if eqV v v0 && (t1 =? 1) && (t2 =? 0) then RtoC 1 else if eqV v (swapV v0) && (t1 =? 0) && (t2 =? 1) then RtoC (-1) else RtoC 0.
Lemma eqV_swap p q v : eqV (p, q) (swapV v) = eqV (q, p) v.
Proof. destruct v as [a b]. unfold eqV, swapV. cbn [fst snd]. apply andb_comm. Qed.
Lemma alike_2 u v : inside 2 2 u -> inside 2 2 v -> alike Square 2 2 u v -> u = v.
Proof.
  intros U V A. apply alike_spec in A; try assumption; [|exact I]. apply siteList_in in V. apply siteList_in in U.
  assert (B : forallb (fun v => forallb (fun u => eqV u v) (MirrorR Square 2 2 v)) (siteList 2 2) = true) by (vm_compute; reflexivity).
  rewrite forallb_forall in B. specialize (B v V). rewrite forallb_forall in B. now apply eqV_spec, B.
Qed.
Lemma G0_symmetric : symmetric Square 2 2 2 G0.
Proof. intros sp u v t1 t2 U V A _ _. now rewrite (alike_2 u v U V A). Qed.
Lemma G0_exchanged : exchanged 2 2 2 G0.
Proof.
  intros sp p q t1 t2 _ _ _. unfold G0. rewrite !eqV_swap.
  destruct (eqV (p, q) v0) eqn:E1, (eqV (q, p) v0) eqn:E2.
  - apply eqV_spec in E1, E2. unfold v0 in *. injection E1 as -> ->. discriminate.
  - destruct (Nat.eqb_spec t1 1), (Nat.eqb_spec t2 0); subst; cbn; try (destruct (t2 =? 0)); try (destruct (t1 =? 1)); cbn;
      unfold Copp, Cconj, RtoC; cbn [fst snd]; apply injective_projections; cbn [fst snd]; ring.
  - destruct (Nat.eqb_spec t1 0), (Nat.eqb_spec t2 1); subst; cbn; try (destruct (t2 =? 1)); try (destruct (t1 =? 0)); cbn;
      unfold Copp, Cconj, RtoC; cbn [fst snd]; apply injective_projections; cbn [fst snd]; ring.
  - cbn. unfold Copp, Cconj, RtoC; cbn [fst snd]; apply injective_projections; cbn [fst snd]; ring.
Qed.
Lemma read_differs : exists n s Lx Ly G sp v t1 t2,
  closed s Lx Ly /\ n <= 257 /\ symmetric s Lx Ly n G /\ exchanged Lx Ly n G /\ inside Lx Ly v /\ t1 < n /\ t2 < n /\
  read n s Lx Ly (compress n s Lx Ly G) sp v t1 t2 <> G sp v t1 t2.
Proof.
  exists 2, Square, 2%Z, 2%Z, G0, 0, v0, 1, 0.
  assert (D : inside 2 2 v0) by (unfold v0, inside, onLattice; cbn [fst snd]; lia).
  split; [exact I|]. split; [lia|]. split; [apply G0_symmetric|]. split; [apply G0_exchanged|]. split; [exact D|].
  split; [lia|]. split; [lia|]. unfold read. rewrite compress_at; [|exact I|exact D|apply G0_symmetric|lia|lia].
  replace (tauFlag (timeMap 2) 1 0 =? 0) with false by reflexivity.
  cbn. intros E. apply (f_equal fst) in E. cbn in E. lra.
Qed.
