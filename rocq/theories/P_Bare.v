(** * Proofs for C134: the tables of neighbours are the shells of the lattice. *)
Require Import Reals ZArith List Arith Bool Lra Lia Psatz.
Require Import Verif.BareModel Verif.BareSpec.
Import ListNotations.
Local Open Scope R_scope.

(** The vectors in units in which they are whole. *)
Definition iLat (n : latName) : list (list Z) :=
  (match n with
  | Chain => [[1]] | Checkerboard => [[1; 1]; [1; -1]] | ValenceBond => [[1; 0]; [0; 2]]
  | Square => [[1; 0]; [0; 1]] | Triangular => [[2; 0]; [1; 1]]
  | AssymetricTriangular => [[2; 0]; [1; 3]] | Honeycomb => [[0; 2]; [3; -1]]
  | Kagome => [[4; 0]; [2; 2]] | Cubic => [[1; 0; 0]; [0; 1; 0]; [0; 0; 1]]
  | Checkerboard3D => [[1; 1; 0]; [1; -1; 0]; [1; 0; 1]]
  | Pyrochlore => [[0; 2; 2]; [2; 0; 2]; [2; 2; 0]]
  end)%Z.

Definition iSub (n : latName) : list (list Z) :=
  (match n with
  | Checkerboard => [[0; 0]; [1; 0]] | ValenceBond => [[0; 0]; [0; 1]]
  | AssymetricTriangular => [[0; 0]; [1; 1]; [1; -1]] | Honeycomb => [[0; 0]; [1; 1]]
  | Kagome => [[2; 0]; [1; 1]; [3; 1]]
  | Checkerboard3D => [[0; 0; 0]; [1; 0; 0]]
  | Pyrochlore => [[0; 0; 0]; [0; 1; 1]; [1; 0; 1]; [1; 1; 0]]
  | _ => []
  end)%Z.

Definition iUnit (n : latName) : list R :=
  match n with
  | Triangular => [1/2; sqrt 3 / 2] | AssymetricTriangular => [1/2; sqrt 3 / 6]
  | Honeycomb => [sqrt 3 / 6; 1/2] | Kagome => [1/4; sqrt 3 / 4]
  | Pyrochlore => [1/4; 1/4; 1/4] | _ => [1; 1; 1]
  end.

Definition iWt (n : latName) : list Z :=
  (match n with
  | Triangular => [1; 3] | AssymetricTriangular => [3; 1] | Honeycomb => [1; 3] | Kagome => [1; 3]
  | _ => [1; 1; 1]
  end)%Z.

Definition iDen (n : latName) : Z :=
  (match n with
  | Triangular => 4 | AssymetricTriangular | Honeycomb => 12 | Kagome | Pyrochlore => 16 | _ => 1
  end)%Z.

Definition zsum (d : nat) (f : nat -> Z) : Z := fold_right Z.add 0%Z (map f (seq 0 d)).

Definition X (n : latName) (i j : nat) (v : list Z) (c : nat) : Z :=
  (zsum (Dim n) (fun k => nth k v 0 * nth c (nth k (iLat n) []) 0)
   + nth c (nth j (iSub n) []) 0 - nth c (nth i (iSub n) []) 0)%Z.

Definition Q (n : latName) (i j : nat) (v : list Z) : Z :=
  zsum (Dim n) (fun c => nth c (iWt n) 0 * (X n i j v c * X n i j v c))%Z.

Lemma s3 : sqrt 3 * sqrt 3 = 3.
Proof. apply sqrt_sqrt; lra. Qed.

Lemma s3_pos : 0 < sqrt 3.
Proof. apply sqrt_lt_R0; lra. Qed.

Lemma s3_inv : / sqrt 3 = sqrt 3 / 3.
Proof. pose proof s3. pose proof s3_pos. apply (Rmult_eq_reg_l (sqrt 3)); [|lra]. rewrite Rinv_r by lra. nra. Qed.

Ltac iz := rewrite ?plus_IZR, ?minus_IZR, ?mult_IZR, ?plus_IZR, ?minus_IZR, ?mult_IZR, ?plus_IZR, ?mult_IZR.

Lemma comp_X n i j v c : length v = Dim n -> (i < NSublat n)%nat -> (j < NSublat n)%nat -> (c < Dim n)%nat ->
  comp n i j v c = IZR (X n i j v c) * nth c (iUnit n) 0.
Proof.
  intros Hv Hi Hj Hc.
  destruct n; cbn in Hv, Hi, Hj, Hc;
  (destruct v as [|x [|y [|z [|]]]]; try discriminate Hv);
  (destruct i as [|[|[|[|i]]]]; try (exfalso; lia));
  (destruct j as [|[|[|[|j]]]]; try (exfalso; lia));
  (destruct c as [|[|[|c]]]; try (exfalso; lia));
  unfold comp, X, rsum, zsum; cbn -[IZR Z.mul Z.add Z.sub]; iz;
  unfold Rdiv; rewrite ?s3_inv; field.
Qed.

Lemma unit_sq n c : (c < Dim n)%nat ->
  nth c (iUnit n) 0 * nth c (iUnit n) 0 = IZR (nth c (iWt n) 0%Z) / IZR (iDen n).
Proof.
  intros Hc. pose proof s3.
  destruct n; cbn in Hc; (destruct c as [|[|[|c]]]; try (exfalso; lia)); cbn -[IZR]; lra.
Qed.

Lemma dist2_Q n i j v : length v = Dim n -> (i < NSublat n)%nat -> (j < NSublat n)%nat ->
  dist2 n i j v = IZR (Q n i j v) / IZR (iDen n).
Proof.
  intros Hv Hi Hj.
  assert (K : forall c, (c < Dim n)%nat -> comp n i j v c * comp n i j v c
     = IZR (nth c (iWt n) 0%Z * (X n i j v c * X n i j v c)) / IZR (iDen n)).
  { intros c Hc. rewrite comp_X by assumption. rewrite !mult_IZR.
    pose proof (unit_sq n c Hc) as U.
    transitivity (IZR (X n i j v c) * IZR (X n i j v c) * (nth c (iUnit n) 0 * nth c (iUnit n) 0)); [ring|].
    rewrite U. unfold Rdiv. ring. }
  unfold dist2, Q, rsum, zsum.
  assert (G : forall l, (forall c, In c l -> (c < Dim n)%nat) ->
    fold_right Rplus 0 (map (fun c => comp n i j v c * comp n i j v c) l)
    = IZR (fold_right Z.add 0%Z (map (fun c => (nth c (iWt n) 0 * (X n i j v c * X n i j v c))%Z) l)) / IZR (iDen n)).
  { induction l as [|c l IH]; intros Hl; cbn [map fold_right].
    - unfold Rdiv. ring.
    - rewrite K by (apply Hl; now left). rewrite IH by (intros; apply Hl; now right).
      rewrite plus_IZR. unfold Rdiv. ring. }
  apply G. intros c Hc. apply in_seq in Hc. lia.
Qed.

Lemma den_pos n : 0 < IZR (iDen n).
Proof. destruct n; cbn; lra. Qed.

(** Close sites are in a box. *)
Definition small (v : list Z) : Prop := Forall (fun x => (-4 <= x <= 4)%Z) v.

Lemma sq_bound (x k : Z) : (0 <= k -> x * x < (k + 1) * (k + 1) -> -k <= x <= k)%Z.
Proof. intros; nia. Qed.

Lemma Q_small n i j v : length v = Dim n -> (i < NSublat n)%nat -> (j < NSublat n)%nat ->
  (Q n i j v <= match n with Kagome => 16 | Pyrochlore => 8 | Triangular | AssymetricTriangular | Honeycomb => 12 | Chain => 4 | _ => 2 end)%Z ->
  small v.
Proof.
  intros Hv Hi Hj HQ.
  destruct n; cbn in Hv, Hi, Hj;
  (destruct v as [|x [|y [|z [|]]]]; try discriminate Hv);
  (destruct i as [|[|[|[|i]]]]; try (exfalso; lia));
  (destruct j as [|[|[|[|j]]]]; try (exfalso; lia));
  cbn -[Z.mul Z.add Z.sub] in HQ; unfold X, zsum in HQ; cbn -[Z.mul Z.add Z.sub] in HQ;
  repeat match type of HQ with context [(?a * ?a)%Z] =>
    lazymatch a with
    | (_ - _)%Z =>
      let u := fresh "u" in let Hu := fresh "Hu" in
      remember a as u eqn:Hu; assert (0 <= u * u)%Z by apply Z.square_nonneg
    end end;
  repeat match goal with Hu : ?u = (_ - _)%Z |- _ =>
    lazymatch goal with
    | B : (-4 <= u <= 4)%Z |- _ => fail
    | B : (-2 <= u <= 2)%Z |- _ => fail
    | _ => first [assert (-2 <= u <= 2)%Z by (apply (sq_bound u 2); lia) | assert (-4 <= u <= 4)%Z by (apply (sq_bound u 4); lia)]
    end end;
  unfold small; repeat (apply Forall_cons; [lia|]); apply Forall_nil.
Qed.

Lemma seq_small x : (-4 <= x <= 4)%Z -> In x (map (fun k => (Z.of_nat k - 4)%Z) (seq 0 9)).
Proof.
  intros H. apply in_map_iff. exists (Z.to_nat (x + 4)). split; [lia|]. apply in_seq. lia.
Qed.

Fixpoint box (d : nat) : list (list Z) :=
  match d with
  | O => [[]]
  | S d => flat_map (fun x => map (cons x) (box d)) (map (fun k => (Z.of_nat k - 4)%Z) (seq 0 9))
  end.

Lemma box_in v : small v -> In v (box (length v)).
Proof.
  induction 1 as [|x v Hx Hv IH]; [now left|]. cbn [length box].
  apply in_flat_map. exists x. split; [now apply seq_small|]. now apply in_map.
Qed.

Definition zl_eqb (u v : list Z) : bool := if list_eq_dec Z.eq_dec u v then true else false.

Definition inb (v : list Z) (l : list (list Z)) : bool := existsb (zl_eqb v) l.

Lemma inb_In v l : inb v l = true <-> In v l.
Proof.
  unfold inb. rewrite existsb_exists. split.
  - intros [u [H E]]. unfold zl_eqb in E. destruct (list_eq_dec Z.eq_dec v u); [now subst|discriminate].
  - intros H. exists v. split; [exact H|]. unfold zl_eqb. now destruct (list_eq_dec Z.eq_dec v v).
Qed.

(** The squared distances, times iDen. *)
Definition q1 (n : latName) : Z :=
  (match n with
  | Triangular | AssymetricTriangular | Honeycomb | Kagome => 4 | Pyrochlore => 2 | _ => 1
  end)%Z.
Definition q2 (n : latName) : Z :=
  (match n with
  | Chain => 4 | Triangular | AssymetricTriangular | Honeycomb | Kagome => 12 | Pyrochlore => 6 | _ => 2
  end)%Z.
Definition q3 (n : latName) : Z := (match n with Kagome => 16 | _ => 8 end)%Z.

(** The offsets behind the tables: on a torus of width 0 nothing is wrapped. *)
Definition off1 (n : latName) := nearest n [0; 0; 0]%Z.
Definition off2 (n : latName) (i j : nat) : list (list Z) :=
  match n with Chain => [[2]; [-2]]%Z | _ => nextNearestTable n [0; 0; 0]%Z i j end.
Definition off3 (n : latName) := nextNextNearest n [0; 0; 0]%Z.

Definition pairs (n : latName) : list (nat * nat) := list_prod (seq 0 (NSublat n)) (seq 0 (NSublat n)).

Lemma pairs_in n i j : (i < NSublat n)%nat -> (j < NSublat n)%nat -> In (i, j) (pairs n).
Proof. intros. apply in_prod; apply in_seq; lia. Qed.

Definition all_box (n : latName) (f : nat -> nat -> list Z -> bool) : bool :=
  forallb (fun ij => forallb (f (fst ij) (snd ij)) (box (Dim n))) (pairs n).

Lemma all_box_spec n f : all_box n f = true ->
  forall i j v, (i < NSublat n)%nat -> (j < NSublat n)%nat -> length v = Dim n -> small v -> f i j v = true.
Proof.
  intros H i j v Hi Hj Hv Hs. unfold all_box in H. rewrite forallb_forall in H.
  specialize (H _ (pairs_in n i j Hi Hj)). cbn in H. rewrite forallb_forall in H.
  apply H. rewrite <- Hv. now apply box_in.
Qed.

Definition shellsOk (n : latName) : bool :=
  all_box n (fun i j v => let q := Q n i j v in
    (q =? 0)%Z || (q =? q1 n)%Z || (q2 n <=? q)%Z).

Lemma shells_ok n : shellsOk n = true.
Proof. destruct n; vm_compute; reflexivity. Qed.

Lemma q_gap n i j v : (i < NSublat n)%nat -> (j < NSublat n)%nat -> length v = Dim n ->
  Q n i j v = 0%Z \/ Q n i j v = q1 n \/ (q2 n <= Q n i j v)%Z.
Proof.
  intros Hi Hj Hv. destruct (Z_lt_le_dec (q2 n) (Q n i j v)) as [H|H]; [right; right; lia|].
  assert (Hs : small v).
  { apply (Q_small n i j v Hv Hi Hj). destruct n; cbn [q2] in H; lia. }
  pose proof (all_box_spec n _ (shells_ok n) i j v Hi Hj Hv Hs) as E. cbn beta zeta in E.
  rewrite !orb_true_iff, !Z.eqb_eq, Z.leb_le in E. tauto.
Qed.

Definition off1Ok (n : latName) : bool :=
  match n with ValenceBond => true | _ =>
  all_box n (fun i j v => Bool.eqb (Q n i j v =? q1 n)%Z (inb v (off1 n i j))) end.
Definition off2Ok (n : latName) : bool :=
  match n with ValenceBond | Cubic | AssymetricTriangular => true | _ =>
  all_box n (fun i j v => Bool.eqb (Q n i j v =? q2 n)%Z (inb v (off2 n i j))) end.
Definition vbOk : bool :=
  all_box ValenceBond (fun i j v => Bool.eqb (Q ValenceBond i j v =? 1)%Z
    (inb v (off1 ValenceBond i j ++ off2 ValenceBond i j))).

Lemma off1_ok n : off1Ok n = true.
Proof. destruct n; vm_compute; reflexivity. Qed.
Lemma off2_ok n : off2Ok n = true.
Proof. destruct n; vm_compute; reflexivity. Qed.
Lemma vb_ok : vbOk = true.
Proof. vm_compute; reflexivity. Qed.

(** The offsets are short lists of small vectors without repetition. *)
Definition smallb (v : list Z) : bool := forallb (fun x => (-4 <=? x)%Z && (x <=? 4)%Z) v.

Lemma smallb_spec v : smallb v = true -> small v.
Proof.
  unfold smallb, small. rewrite forallb_forall, Forall_forall. intros H x Hx. specialize (H x Hx).
  rewrite andb_true_iff, !Z.leb_le in H. exact H.
Qed.

Fixpoint nodupb (l : list (list Z)) : bool :=
  match l with [] => true | v :: l => negb (inb v l) && nodupb l end.

Lemma nodupb_spec l : nodupb l = true -> NoDup l.
Proof.
  induction l as [|v l IH]; cbn; [constructor|]. rewrite andb_true_iff, negb_true_iff. intros [H E].
  constructor; [|now apply IH]. intros F. apply inb_In in F. congruence.
Qed.

Definition offGood (n : latName) (l : list (list Z)) : bool :=
  nodupb l && forallb (fun v => smallb v && Nat.eqb (length v) (Dim n)) l.

Definition offsGood (n : latName) : bool :=
  forallb (fun ij => offGood n (off1 n (fst ij) (snd ij)) && offGood n (off2 n (fst ij) (snd ij)) &&
    offGood n (off3 n (fst ij) (snd ij)) && nodupb (off1 n (fst ij) (snd ij) ++ off2 n (fst ij) (snd ij))) (pairs n).

Lemma offs_good n : offsGood n = true.
Proof. destruct n; vm_compute; reflexivity. Qed.

Lemma offGood_spec n l : offGood n l = true ->
  NoDup l /\ forall v, In v l -> small v /\ length v = Dim n.
Proof.
  unfold offGood. rewrite andb_true_iff. intros [H E]. split; [now apply nodupb_spec|].
  intros v Hv. rewrite forallb_forall in E. specialize (E v Hv).
  rewrite andb_true_iff, Nat.eqb_eq in E. split; [now apply smallb_spec|tauto].
Qed.

Lemma offs_spec n i j : (i < NSublat n)%nat -> (j < NSublat n)%nat ->
  offGood n (off1 n i j) = true /\ offGood n (off2 n i j) = true /\ offGood n (off3 n i j) = true /\
  NoDup (off1 n i j ++ off2 n i j).
Proof.
  intros Hi Hj. pose proof (offs_good n) as H. unfold offsGood in H. rewrite forallb_forall in H.
  specialize (H _ (pairs_in n i j Hi Hj)). cbn [fst snd] in H. rewrite !andb_true_iff in H.
  destruct H as [[[A B] D] E]. repeat split; try assumption. now apply nodupb_spec.
Qed.
