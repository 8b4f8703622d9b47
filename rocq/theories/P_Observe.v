From Coq Require Import Arith List Bool Lia.
From Verif Require Import Observe.
Import ListNotations.

Section S.
Context {V : Type}.
Implicit Types (h : @history V) (val : name -> V).

Lemma appendAll_count : forall ns h val n,
  appendAll h ns val n = h n ++ repeat (val n) (count_occ name_eq_dec ns n).
Proof.
  induction ns as [|m ns IH]; intros h val n; cbn.
  - rewrite app_nil_r. reflexivity.
  - unfold appendAll in IH. rewrite IH. unfold append.
    destruct (name_eq_dec n m) as [E|E]; destruct (name_eq_dec m n) as [E'|E'];
      try congruence.
    subst. rewrite <- app_assoc. reflexivity.
Qed.

Definition times (l : lattice) (nsub : nat) (n : name) : nat :=
  match special l with
  | None => 0
  | Some ns => count_occ name_eq_dec (always ++ ns ++ perSublattice nsub) n
  end.

Lemma measures_count : forall l nsub vals h h',
  measures l nsub vals h = Some h' ->
  forall n, h' n = h n ++ flat_map (fun val => repeat (val n) (times l nsub n)) vals.
Proof.
  induction vals as [|val vals IH]; cbn; intros h h' E n.
  - inversion E; subst. rewrite app_nil_r. reflexivity.
  - unfold measure in E. unfold times in *.
    destruct (special l) as [ns|]; [|discriminate].
    rewrite (IH _ _ E n), appendAll_count, <- app_assoc. reflexivity.
Qed.

Lemma count_map_Sz : forall k s i,
  count_occ name_eq_dec (map Sz (seq s k)) (Sz i) = if (s <=? i) && (i <? s + k) then 1 else 0.
Proof.
  induction k as [|k IH]; intros s i; cbn [seq map count_occ].
  - destruct (Nat.leb_spec s i), (Nat.ltb_spec i (s + 0)); cbn; try lia; reflexivity.
  - rewrite IH. destruct (name_eq_dec (Sz s) (Sz i)) as [E|E].
    + inversion E; subst.
      destruct (Nat.leb_spec (S i) i), (Nat.leb_spec i i), (Nat.ltb_spec i (i + S k));
        cbn; try lia; reflexivity.
    + assert (s <> i) by congruence.
      destruct (Nat.leb_spec (S s) i), (Nat.leb_spec s i),
        (Nat.ltb_spec i (S s + k)), (Nat.ltb_spec i (s + S k)); cbn; try lia; reflexivity.
Qed.

Lemma count_map_Density : forall k s i,
  count_occ name_eq_dec (map Density (seq s k)) (Density i)
  = if (s <=? i) && (i <? s + k) then 1 else 0.
Proof.
  induction k as [|k IH]; intros s i; cbn [seq map count_occ].
  - destruct (Nat.leb_spec s i), (Nat.ltb_spec i (s + 0)); cbn; try lia; reflexivity.
  - rewrite IH. destruct (name_eq_dec (Density s) (Density i)) as [E|E].
    + inversion E; subst.
      destruct (Nat.leb_spec (S i) i), (Nat.leb_spec i i), (Nat.ltb_spec i (i + S k));
        cbn; try lia; reflexivity.
    + assert (s <> i) by congruence.
      destruct (Nat.leb_spec (S s) i), (Nat.leb_spec s i),
        (Nat.ltb_spec i (S s + k)), (Nat.ltb_spec i (s + S k)); cbn; try lia; reflexivity.
Qed.

Lemma count_map_none : forall (f : nat -> name) l n, (forall i, f i <> n) ->
  count_occ name_eq_dec (map f l) n = 0.
Proof.
  intros f l n H. apply count_occ_not_In. intro I.
  apply in_map_iff in I. destruct I as (i & E & _). exact (H i E).
Qed.

Lemma count_sub : forall nsub n,
  count_occ name_eq_dec (perSublattice nsub) n =
  match n with Sz i | Density i => if i <? nsub then 1 else 0 | _ => 0 end.
Proof.
  intros nsub n. unfold perSublattice. rewrite count_occ_app.
  destruct n; try (rewrite !count_map_none by discriminate; reflexivity).
  - rewrite count_map_Sz, (count_map_none Density) by discriminate. change (0 <=? i) with true. cbn [andb Nat.add].
    destruct (i <? nsub); reflexivity.
  - rewrite count_map_Density, (count_map_none Sz) by discriminate. change (0 <=? i) with true. cbn [andb Nat.add].
    destruct (i <? nsub); reflexivity.
Qed.

Lemma times_le_1 : forall l nsub n, l <> Pyrochlore -> times l nsub n <= 1.
Proof.
  intros l nsub n H. unfold times.
  destruct (special l) as [ns|] eqn:E; [|lia].
  rewrite !count_occ_app, count_sub.
  destruct l; try congruence; cbn in E; inversion E; subst ns; clear E;
    destruct n; cbn -[Nat.ltb]; try destruct (i <? nsub); lia.
Qed.

Lemma times_always : forall l nsub n, l <> Pyrochlore -> l <> OtherLattice ->
  In n always -> times l nsub n = 1.
Proof.
  intros l nsub n H O I.
  assert (U := times_le_1 l nsub n H).
  unfold times in *. destruct (special l) as [ns|] eqn:E; [|destruct l; cbn in E; congruence].
  rewrite count_occ_app in *.
  apply (count_occ_In name_eq_dec) in I. lia.
Qed.

Lemma times_sub : forall l nsub i, l <> OtherLattice -> i < nsub ->
  times l nsub (Sz i) = 1 /\ times l nsub (Density i) = 1.
Proof.
  intros l nsub i O L. unfold times.
  destruct (special l) as [ns|] eqn:E; [|destruct l; cbn in E; congruence].
  rewrite !count_occ_app, !count_sub.
  apply Nat.ltb_lt in L. rewrite L.
  destruct l; cbn in E; inversion E; subst ns; cbn; auto.
Qed.

Definition isStaggered (l : lattice) : Prop :=
  In l [Chain; AssymetricTriangular; Square; Cubic; Checkerboard; Checkerboard3D;
        ValenceBond; Triangular].

Lemma times_staggered : forall l nsub n,
  (isStaggered l /\ In n staggered) \/ (l = ValenceBond /\ n = VBS) \/
  (l = Pyrochlore /\ n = ChiX) -> times l nsub n = 1.
Proof.
  intros l nsub n H. unfold times.
  destruct H as [[A B]|[[A B]|[A B]]]; [|subst|subst];
    [|cbn [special]; rewrite !count_occ_app, count_sub; reflexivity
     |cbn [special]; rewrite !count_occ_app, count_sub; reflexivity].
  cbn in A, B.
  repeat match goal with H : _ \/ _ |- _ => destruct H as [H|H] end; subst; try contradiction;
    cbn [special]; rewrite !count_occ_app, count_sub; reflexivity.
Qed.

Lemma flat_one : forall (vals : list (name -> V)) n,
  flat_map (fun val => repeat (val n) 1) vals = map (fun val => val n) vals.
Proof. induction vals as [|v vals IH]; cbn; intro n; [reflexivity|]. rewrite <- IH. reflexivity. Qed.

Lemma flat_none : forall (vals : list (name -> V)) n,
  flat_map (fun val => repeat (val n) 0) vals = [].
Proof. induction vals as [|v vals IH]; intro n; [reflexivity|exact (IH n)]. Qed.

Lemma aligned : forall l nsub vals h',
  l <> Pyrochlore -> measures l nsub vals noHistory = Some h' ->
  forall n, h' n = [] \/ h' n = map (fun val => val n) vals.
Proof.
  intros l nsub vals h' P E n.
  rewrite (measures_count _ _ _ _ _ E n). cbn.
  assert (U := times_le_1 l nsub n P).
  destruct (times l nsub n) as [|[|k]]; [left; apply flat_none|right; apply flat_one|lia].
Qed.

Lemma some_otherwise : forall l nsub (vals : list (name -> V)) h,
  l <> OtherLattice -> exists h', measures l nsub vals h = Some h'.
Proof.
  intros l nsub vals. induction vals as [|v vals IH]; intros h O; cbn; [eauto|].
  unfold measure. destruct (special l) as [ns|] eqn:E; [apply IH; exact O|].
  destruct l; cbn in E; congruence.
Qed.

Lemma kept : forall l nsub vals n,
  l <> OtherLattice ->
  (l <> Pyrochlore /\ In n always) \/ (exists i, i < nsub /\ (n = Sz i \/ n = Density i)) ->
  exists h', measures l nsub vals noHistory = Some h' /\ h' n = map (fun val => val n) vals.
Proof.
  intros l nsub vals n O H.
  destruct (some_otherwise l nsub vals noHistory O) as [h' E].
  exists h'. split; [exact E|].
  rewrite (measures_count _ _ _ _ _ E n). cbn.
  assert (T : times l nsub n = 1).
  { destruct H as [[P I]|(i & L & [N|N])].
    - exact (times_always l nsub n P O I).
    - subst. apply (times_sub l nsub i O L).
    - subst. apply (times_sub l nsub i O L). }
  rewrite T. apply flat_one.
Qed.

Lemma kept_staggered : forall l nsub vals n,
  (isStaggered l /\ In n staggered) \/ (l = ValenceBond /\ n = VBS) \/
  (l = Pyrochlore /\ n = ChiX) ->
  exists h', measures l nsub vals noHistory = Some h' /\ h' n = map (fun val => val n) vals.
Proof.
  intros l nsub vals n H.
  assert (O : l <> OtherLattice).
  { destruct H as [[A _]|[[A _]|[A _]]]; intro E; subst; try discriminate.
    unfold isStaggered in A. cbn in A. intuition discriminate. }
  destruct (some_otherwise l nsub vals noHistory O) as [h' E].
  exists h'. split; [exact E|].
  rewrite (measures_count _ _ _ _ _ E n), (times_staggered l nsub n H). apply flat_one.
Qed.

Lemma twice : forall nsub vals h',
  measures Pyrochlore nsub vals noHistory = Some h' ->
  h' UnifChi = flat_map (fun val => [val UnifChi; val UnifChi]) vals.
Proof.
  intros nsub vals h' E. rewrite (measures_count _ _ _ _ _ E UnifChi).
  assert (T : times Pyrochlore nsub UnifChi = 2).
  { unfold times. cbn [special]. rewrite !count_occ_app, count_sub. reflexivity. }
  rewrite T. reflexivity.
Qed.
End S.
