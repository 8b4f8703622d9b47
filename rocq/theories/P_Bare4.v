(** * Proofs for C135-C137: the Kitaev model, thin tori, reciprocal vectors. *)
Require Import Reals ZArith List Arith Bool Lra Lia Psatz Permutation.
From Coquelicot Require Complex.
Require Import Verif.FirstOrder Verif.BareModel Verif.BareSpec Verif.P_Bare Verif.P_Bare2 Verif.P_Bare3.
Require Import Verif.PyIndex Verif.P_PyIndex.
Import ListNotations.
Import Coquelicot.Complex.
Local Open Scope R_scope.

Lemma flip_eqb L e c : Forall (fun l => (1 <= l)%Z) L -> cell L e -> cell L c ->
  zl_eqb e c = zl_eqb (back L e) (back L c).
Proof.
  intros F He Hc. apply eq_true_iff_eq. rewrite !zl_eqb_eq. split; [now intros ->|].
  intros H. rewrite <- (back_back L e F He), H. now apply back_back.
Qed.

Lemma part_flip L c a i b j i' j' e e' J M : Forall (fun l => (1 <= l)%Z) L -> cell L e -> cell L c ->
  e' = back L e -> (forall a b, M a b = M b a) ->
  part L c a i b j (mkWrite i' j' e J M) = part L (back L c) b j a i (mkWrite j' i' e' J M).
Proof.
  intros F He Hc -> HM. unfold part, hit. cbn [w_i w_j w_e w_J w_M].
  rewrite (flip_eqb L e c F He Hc), (HM a b), (andb_comm (Nat.eqb i i')). reflexivity.
Qed.

Lemma outer_sym u a b : outer u u a b = outer u u b a.
Proof. unfold outer. apply Cmult_comm. Qed.

Lemma kitaev_law L Interaction : torus Honeycomb 2 L ->
  fst (bareW KitaevHoneycomb L Interaction) = true /\
  forall a i b j c, cell L c ->
  let W := snd (bareW KitaevHoneycomb L Interaction) in
  W a i b j (Z.to_nat (pyCoordiIndex L c)) = W b j a i (Z.to_nat (pyCoordiIndex L (back L c))).
Proof.
  intros HL. pose proof (torus_pos _ 2 L ltac:(lia) HL) as F. pose proof (torus_nil _ 2 L HL) as N.
  destruct HL as [E F2]. destruct L as [|lx [|ly [|]]]; try discriminate E.
  inversion_clear F2 as [|? ? F3 F4]. inversion_clear F4 as [|? ? F5 F6].
  set (L := [lx; ly]) in *.
  assert (HW : Forall (fun w => cell L (w_e w)) (spinWrites KitaevHoneycomb L Interaction)).
  { unfold L. cbn [spinWrites nth]. repeat constructor; cbn; lia. }
  destruct (doWrites_ok L _ (fun _ _ _ _ _ => RtoC 0) N HW) as [A B].
  split; [exact A|]. intros a i b j c Hc W. unfold W, bareW. rewrite (B a i b j c Hc).
  rewrite (B b j a i (back L c) (back_cell L c F Hc)). f_equal.
  pose proof (Forall_inv HW) as H1. pose proof (Forall_inv_tail HW) as T1.
  pose proof (Forall_inv T1) as H2. pose proof (Forall_inv_tail T1) as T2.
  pose proof (Forall_inv T2) as H3. pose proof (Forall_inv_tail T2) as T3.
  pose proof (Forall_inv T3) as H4. pose proof (Forall_inv_tail T3) as T4.
  pose proof (Forall_inv T4) as H5. pose proof (Forall_inv_tail T4) as T5. pose proof (Forall_inv T5) as H6.
  cbn [w_e] in H1, H2, H3, H4, H5, H6.
  assert (Z0 : back L [0; 0]%Z = [0; 0]%Z) by (unfold L; cbn -[Z.modulo]; now rewrite !Zmod_0_l).
  assert (Z1 : back L [1; 0]%Z = [lx - 1; 0]%Z) by (unfold L; cbn -[Z.modulo]; now rewrite Zmod_0_l, wrapm1 by lia).
  assert (Z2 : back L [1; 1]%Z = [lx - 1; ly - 1]%Z) by (unfold L; cbn -[Z.modulo]; now rewrite !wrapm1 by lia).
  assert (Z3 : back L [lx - 1; 0]%Z = [1; 0]%Z).
  { rewrite <- Z1. apply back_back; [exact F|exact H4]. }
  assert (Z4 : back L [lx - 1; ly - 1]%Z = [1; 1]%Z).
  { rewrite <- Z2. apply back_back; [exact F|exact H6]. }
  cbn [spinWrites map csums fold_right]. change (nth 0 L 0%Z) with lx. change (nth 1 L 0%Z) with ly.
  change (nth 0 L 0%Z) with lx in *. change (nth 1 L 0%Z) with ly in *.
  rewrite (part_flip L c a i b j _ _ _ _ _ _ F H1 Hc (eq_sym Z0) (outer_sym Sx)).
  rewrite (part_flip L c a i b j _ _ _ _ _ _ F H2 Hc (eq_sym Z0) (outer_sym Sx)).
  rewrite (part_flip L c a i b j _ _ _ _ _ _ F H3 Hc (eq_sym Z3) (outer_sym Sy)).
  rewrite (part_flip L c a i b j _ _ _ _ _ _ F H4 Hc (eq_sym Z1) (outer_sym Sy)).
  rewrite (part_flip L c a i b j _ _ _ _ _ _ F H5 Hc (eq_sym Z4) (outer_sym Sz)).
  rewrite (part_flip L c a i b j _ _ _ _ _ _ F H6 Hc (eq_sym Z2) (outer_sym Sz)).
  ring.
Qed.

Lemma kitaev_refuted : exists L Interaction s t u v i j r,
  torus Honeycomb 3 L /\ (s + u <> t + v)%nat /\
  fst (bareW KitaevHoneycomb L Interaction) = true /\
  snd (bareW KitaevHoneycomb L Interaction) (vert s t) i (vert u v) j r = RtoC (1/4).
Proof.
  exists [3; 3]%Z, [1], 0%nat, 1%nat, 0%nat, 1%nat, 0%nat, 1%nat, 0%nat.
  split; [split; [reflexivity|repeat constructor; lia]|]. split; [lia|]. split; [reflexivity|].
  cbn -[Cplus Cmult Sx Sy Sz RtoC outer]. unfold outer, Sx. cbn [nth].
  apply injective_projections; cbn; field.
Qed.

Lemma thin_refuted : exists L Interaction a i b j c,
  torus Square 1 L /\ cell L c /\
  let W := snd (bareW (OnLattice Square) L Interaction) in
  W a i b j (Z.to_nat (pyCoordiIndex L c)) = RtoC (1/2) /\
  W b j a i (Z.to_nat (pyCoordiIndex L (back L c))) = RtoC (1/4).
Proof.
  exists [4; 1]%Z, [1], 0%nat, 0%nat, 0%nat, 0%nat, [1; 0]%Z.
  split; [split; [reflexivity|repeat constructor; lia]|].
  split; [repeat constructor; lia|].
  assert (S0 : SS 0 0 = RtoC (1/4)) by (unfold SS, outer, Sx, Sy, Sz; cbn [nth]; apply injective_projections; cbn; field).
  cbv zeta. change (Z.to_nat (pyCoordiIndex [4; 1]%Z [1; 0]%Z)) with 1%nat.
  change (Z.to_nat (pyCoordiIndex [4; 1]%Z (back [4; 1]%Z [1; 0]%Z))) with 3%nat.
  cbn -[Cplus Cmult SS RtoC]. rewrite S0. split; apply injective_projections; cbn; field.
Qed.

(** ** Momenta *)

Definition dual (n : latName) : Prop := n <> Checkerboard /\ n <> Kagome /\ n <> Pyrochlore.

(** Which reciprocal vector belongs to the lattice vector m. *)
Definition partner (n : latName) (m : nat) : nat :=
  match n, m with
  | Checkerboard, 0%nat | Kagome, 0%nat => 1%nat
  | Checkerboard, _ | Kagome, _ => 0%nat
  | Pyrochlore, 0%nat => 2%nat
  | Pyrochlore, S m => m
  | _, m => m
  end.

Lemma recip n m k : (m < Dim n)%nat -> (k < Dim n)%nat ->
  rsum (Dim n) (fun c => nth c (nth k (ReciprocalLatVec n) []) 0 * nth c (nth m (LatVec n) []) 0)
  = if Nat.eqb k (partner n m) then 2 * PI else 0.
Proof.
  intros Hm Hk. pose proof s3 as T. pose proof s3_pos.
  destruct n; cbn in Hm, Hk;
  (destruct m as [|[|[|m]]]; try (exfalso; lia));
  (destruct k as [|[|[|k]]]; try (exfalso; lia));
  unfold rsum; cbn -[IZR PI sqrt]; field; lra.
Qed.

Lemma rsum_ext d f g : (forall c, (c < d)%nat -> f c = g c) -> rsum d f = rsum d g.
Proof.
  intros H. unfold rsum. f_equal. apply map_ext_in. intros c Hc. apply in_seq in Hc. apply H. lia.
Qed.

Lemma rsum_swap d e (f : nat -> nat -> R) :
  rsum d (fun c => rsum e (fun k => f c k)) = rsum e (fun k => rsum d (fun c => f c k)).
Proof.
  unfold rsum. induction (seq 0 d) as [|c l IH]; cbn [map fold_right].
  - induction (seq 0 e) as [|k m IH]; cbn [map fold_right]; [reflexivity|]. rewrite <- IH. ring.
  - rewrite IH. clear IH. induction (seq 0 e) as [|k m IH]; cbn [map fold_right]; [ring|]. rewrite <- IH. ring.
Qed.

Lemma rsum_scale d a f : rsum d (fun c => a * f c) = a * rsum d f.
Proof. unfold rsum. induction (seq 0 d) as [|c l IH]; cbn [map fold_right]; [ring|]. rewrite IH. ring. Qed.

Lemma rsum_pick d k (f : nat -> R) z : (k < d)%nat ->
  rsum d (fun c => f c * (if Nat.eqb c k then z else 0)) = f k * z.
Proof.
  intros Hk. unfold rsum.
  assert (G : forall m b, fold_right Rplus 0 (map (fun c => f c * (if Nat.eqb c k then z else 0)) (seq b m))
    = if Nat.leb b k && Nat.ltb k (b + m) then f k * z else 0).
  { induction m as [|m IH]; intros b; cbn [seq map fold_right].
    - replace (Nat.leb b k && Nat.ltb k (b + 0)) with false; [reflexivity|]. symmetry. apply not_true_iff_false.
      rewrite andb_true_iff, Nat.leb_le, Nat.ltb_lt. lia.
    - rewrite IH. destruct (Nat.eqb_spec b k).
      + subst b. replace (Nat.leb (S k) k) with false by (symmetry; apply Nat.leb_gt; lia).
        replace (Nat.leb k k) with true by (symmetry; apply Nat.leb_le; lia).
        replace (Nat.ltb k (k + S m)) with true by (symmetry; apply Nat.ltb_lt; lia). cbn [andb]. ring.
      + replace (Nat.leb (S b) k && Nat.ltb k (S b + m)) with (Nat.leb b k && Nat.ltb k (b + S m)); [ring|].
        apply eq_true_iff_eq. rewrite !andb_true_iff, !Nat.leb_le, !Nat.ltb_lt. lia. }
  rewrite G. replace (Nat.leb 0 k && Nat.ltb k (0 + d)) with true; [reflexivity|].
  symmetry. rewrite andb_true_iff, Nat.leb_le, Nat.ltb_lt. lia.
Qed.

Lemma partner_lt n m : (m < Dim n)%nat -> (partner n m < Dim n)%nat.
Proof. intros H. destruct n; cbn in *; destruct m as [|[|[|m]]]; cbn; lia. Qed.

(** K turns by 2 pi p/L of the partner along each lattice vector. *)
Lemma K_dot n L p m : (m < Dim n)%nat ->
  rsum (Dim n) (fun c => nth c (nth m (LatVec n) []) 0 * KVec n L p c)
  = 2 * PI * (IZR (nth (partner n m) p 0%Z) / IZR (nth (partner n m) L 0%Z)).
Proof.
  intros Hm. unfold KVec.
  transitivity (rsum (Dim n) (fun i => (IZR (nth i p 0%Z) / IZR (nth i L 0%Z)) *
    rsum (Dim n) (fun c => nth c (nth i (ReciprocalLatVec n) []) 0 * nth c (nth m (LatVec n) []) 0))).
  - rewrite (rsum_ext _ _ (fun c => rsum (Dim n) (fun i => (IZR (nth i p 0%Z) / IZR (nth i L 0%Z)) *
      (nth c (nth i (ReciprocalLatVec n) []) 0 * nth c (nth m (LatVec n) []) 0)))).
    + rewrite rsum_swap. apply rsum_ext. intros i _. apply rsum_scale.
    + intros c _. change (fold_right Rplus 0 (map ?f (seq 0 ?d))) with (rsum d f). rewrite <- rsum_scale.
      apply rsum_ext. intros i _. unfold Rdiv. ring.
  - rewrite (rsum_ext _ _ (fun i => (IZR (nth i p 0%Z) / IZR (nth i L 0%Z)) * (if Nat.eqb i (partner n m) then 2 * PI else 0))).
    + rewrite rsum_pick by (now apply partner_lt). ring.
    + intros i Hi. now rewrite recip.
Qed.

Lemma angle_diff n L p i j v w :
  angle n (KVec n L p) i j v - angle n (KVec n L p) i j w
  = rsum (Dim n) (fun m => IZR (nth m v 0%Z - nth m w 0%Z) * (2 * PI * (IZR (nth (partner n m) p 0%Z) / IZR (nth (partner n m) L 0%Z)))).
Proof.
  rewrite (rsum_ext _ (fun m => _ * _) (fun m => IZR (nth m v 0%Z - nth m w 0%Z) *
    rsum (Dim n) (fun c => nth c (nth m (LatVec n) []) 0 * KVec n L p c))).
  2:{ intros m Hm. now rewrite K_dot. }
  rewrite (rsum_ext _ _ (fun m => rsum (Dim n) (fun c => IZR (nth m v 0%Z - nth m w 0%Z) * (nth c (nth m (LatVec n) []) 0 * KVec n L p c)))).
  2:{ intros m _. now rewrite rsum_scale. }
  rewrite rsum_swap. unfold angle.
  assert (S2 : forall d f g, rsum d f - rsum d g = rsum d (fun c => f c - g c)).
  { intros d f g. unfold rsum. induction (seq 0 d) as [|c l IH]; cbn [map fold_right]; [ring|]. rewrite <- IH. ring. }
  rewrite S2. apply rsum_ext. intros c _. unfold comp.
  transitivity ((rsum (Dim n) (fun k => IZR (nth k v 0%Z) * nth c (nth k (LatVec n) []) 0)
    - rsum (Dim n) (fun k => IZR (nth k w 0%Z) * nth c (nth k (LatVec n) []) 0)) * KVec n L p c); [ring|].
  rewrite S2, Rmult_comm, <- rsum_scale. apply rsum_ext. intros k _. rewrite minus_IZR. ring.
Qed.

Lemma wrap_nth L : forall v w m, length v = length L -> length w = length L -> (m < length L)%nat ->
  wrap L v = wrap L w -> (nth m v 0 mod nth m L 0 = nth m w 0 mod nth m L 0)%Z.
Proof.
  induction L as [|l L IH]; intros [|x v] [|y w] m Hv Hw Hm E; try discriminate; cbn in Hm; [lia|].
  cbn in E. injection E as E1 E2. destruct m as [|m]; [exact E1|]. cbn. apply IH; try lia; try assumption;
  [now injection Hv|now injection Hw].
Qed.

Lemma turn_law n L p i j v w : torus n 1 L -> (dual n \/ exists l, forall m, (m < Dim n)%nat -> nth m L 0%Z = l) ->
  length v = Dim n -> length w = Dim n -> wrap L v = wrap L w ->
  same_turn (angle n (KVec n L p) i j v) (angle n (KVec n L p) i j w).
Proof.
  intros [HL F] HD Hv Hw E. unfold same_turn. rewrite angle_diff.
  assert (K : forall m, (m < Dim n)%nat -> exists q, (nth m v 0 - nth m w 0 = q * nth (partner n m) L 0)%Z /\ (1 <= nth (partner n m) L 0)%Z).
  { intros m Hm. assert (EL : nth (partner n m) L 0%Z = nth m L 0%Z).
    { destruct HD as [(A & B & D)|[l Hl]].
      - destruct n; try congruence; reflexivity.
      - rewrite !Hl; [reflexivity|exact Hm|now apply partner_lt]. }
    assert (P : (1 <= nth m L 0)%Z).
    { rewrite Forall_forall in F. apply F. apply nth_In. rewrite HL. exact Hm. }
    rewrite EL. pose proof (wrap_nth L v w m ltac:(lia) ltac:(lia) ltac:(lia) E) as M.
    exists (nth m v 0 / nth m L 0 - nth m w 0 / nth m L 0)%Z. split; [|exact P].
    rewrite (Z.div_mod (nth m v 0%Z) (nth m L 0%Z)) at 1 by lia.
    rewrite (Z.div_mod (nth m w 0%Z) (nth m L 0%Z)) at 1 by lia. rewrite M. ring. }
  assert (G : forall d, (d <= Dim n)%nat -> exists z : Z,
    rsum d (fun m => IZR (nth m v 0%Z - nth m w 0%Z) * (2 * PI * (IZR (nth (partner n m) p 0%Z) / IZR (nth (partner n m) L 0%Z))))
    = 2 * PI * IZR z).
  { induction d as [|d IH]; intros Hd.
    - exists 0%Z. unfold rsum. cbn. ring.
    - destruct (IH ltac:(lia)) as [z Hz]. destruct (K d ltac:(lia)) as [q [Hq Pq]].
      exists (z + q * nth (partner n d) p 0)%Z. unfold rsum in *. rewrite seq_S, map_app, fold_right_app. cbn [map fold_right].
      assert (FA : forall l (x : R), fold_right Rplus x l = fold_right Rplus 0 l + x).
      { induction l as [|y l IHl]; intros x; cbn; [ring|]. rewrite (IHl x). ring. }
      rewrite FA, Hz. cbn [plus]. rewrite Hq, plus_IZR, !mult_IZR. apply IZR_le in Pq. field. lra. }
  apply G. lia.
Qed.

Lemma turn_refuted : exists L p v w,
  torus Checkerboard 2 L /\ length p = 2%nat /\ length v = 2%nat /\ length w = 2%nat /\ wrap L v = wrap L w /\
  ~ same_turn (angle Checkerboard (KVec Checkerboard L p) 0 0 v) (angle Checkerboard (KVec Checkerboard L p) 0 0 w).
Proof.
  exists [4; 2]%Z, [1; 0]%Z, [0; 2]%Z, [0; 0]%Z.
  split; [split; [reflexivity|repeat constructor; lia]|]. repeat (split; [reflexivity|]).
  intros [z Hz]. rewrite angle_diff in Hz. unfold rsum in Hz. cbn [Dim partner seq map fold_right nth] in Hz.
  change (2 - 0)%Z with 2%Z in Hz. change (0 - 0)%Z with 0%Z in Hz.
  assert (E : 2 * PI * (1/2) = 2 * PI * IZR z) by (rewrite <- Hz; field).
  assert (P := PI_RGT_0). apply Rmult_eq_reg_l in E; [|lra].
  assert (E2 : IZR (2 * z) = IZR 1) by (rewrite mult_IZR; lra). apply eq_IZR in E2. lia.
Qed.
