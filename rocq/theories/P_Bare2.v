(** * Proofs for C134, continued: the tables are the wrapped offsets. *)
Require Import Reals ZArith List Arith Bool Lra Lia Psatz.
Require Import Verif.BareModel Verif.BareSpec Verif.P_Bare.
Import ListNotations.
Local Open Scope R_scope.

Lemma wrap0 l : (0 mod l = 0)%Z.
Proof. apply Zmod_0_l. Qed.
Lemma wrap1 l : (2 <= l -> 1 mod l = 1)%Z.
Proof. intros. apply Z.mod_small. lia. Qed.
Lemma wrap2 l : (3 <= l -> 2 mod l = 2)%Z.
Proof. intros. apply Z.mod_small. lia. Qed.
Lemma wrapm1 l : (1 <= l -> (-1) mod l = l - 1)%Z.
Proof. intros. symmetry. apply (Z.mod_unique _ _ (-1)); lia. Qed.
Lemma wrapm2 l : (2 <= l -> (-2) mod l = l - 2)%Z.
Proof. intros. symmetry. apply (Z.mod_unique _ _ (-1)); lia. Qed.

Ltac torus_cases n L i j HL HF Hi Hj :=
  destruct n; cbn in HL, Hi, Hj;
  (destruct L as [|lx [|ly [|lz [|]]]]; try discriminate HL);
  repeat match goal with H : Forall _ (_ :: _) |- _ => inversion_clear H end;
  (destruct i as [|[|[|[|i]]]]; try (exfalso; lia));
  (destruct j as [|[|[|[|j]]]]; try (exfalso; lia)).

Lemma wrapped1 n i j L : torus n 2 L -> (i < NSublat n)%nat -> (j < NSublat n)%nat ->
  nearest n L i j = map (wrap L) (off1 n i j).
Proof.
  intros [HL HF] Hi Hj.
  torus_cases n L i j HL HF Hi Hj; cbn -[Z.modulo Z.sub]; cbn -[Z.modulo];
  rewrite ?wrap0, ?wrap1, ?wrapm1 by lia; reflexivity.
Qed.

Lemma wrapped2 n i j L : torus n 2 L -> (n = Triangular -> torus n 3 L) ->
  (i < NSublat n)%nat -> (j < NSublat n)%nat ->
  nextNearestTable n L i j = map (wrap L) (off2 n i j).
Proof.
  intros [HL HF] HT Hi Hj.
  torus_cases n L i j HL HF Hi Hj;
  lazymatch goal with
  | |- nextNearestTable Chain _ _ _ = _ =>
      cbn -[Z.modulo Z.sub Z.ltb]; destruct (2 <? lx)%Z eqn:E;
      [apply Z.ltb_lt in E; rewrite wrap2, wrapm2 by lia; reflexivity
      |apply Z.ltb_ge in E; replace lx with 2%Z by lia; reflexivity]
  | |- nextNearestTable Triangular _ _ _ = _ =>
      destruct (HT eq_refl) as [_ HF']; inversion_clear HF' as [|? ? G1 G2]; inversion_clear G2;
      cbn -[Z.modulo Z.sub]; cbn -[Z.modulo];
      rewrite ?wrap0, ?wrap1, ?wrap2, ?wrapm1, ?wrapm2 by lia; reflexivity
  | _ => cbn -[Z.modulo Z.sub]; cbn -[Z.modulo];
      rewrite ?wrap0, ?wrap1, ?wrapm1 by lia; reflexivity
  end.
Qed.

Lemma wrapped3 n i j L : torus n 2 L -> (i < NSublat n)%nat -> (j < NSublat n)%nat ->
  nextNextNearest n L i j = map (wrap L) (off3 n i j).
Proof.
  intros [HL HF] Hi Hj.
  torus_cases n L i j HL HF Hi Hj; cbn -[Z.modulo Z.sub]; cbn -[Z.modulo];
  rewrite ?wrap0, ?wrap1, ?wrapm1 by lia; reflexivity.
Qed.

Lemma off1_iff n i j v : n <> ValenceBond -> (i < NSublat n)%nat -> (j < NSublat n)%nat ->
  In v (off1 n i j) <-> length v = Dim n /\ Q n i j v = q1 n.
Proof.
  intros Hn Hi Hj.
  assert (B : all_box n (fun i j v => Bool.eqb (Q n i j v =? q1 n)%Z (inb v (off1 n i j))) = true).
  { pose proof (off1_ok n) as H. unfold off1Ok in H. destruct n; cbv iota in H; try (exfalso; congruence); exact H. }
  destruct (offs_spec n i j Hi Hj) as [G _]. apply offGood_spec in G. destruct G as [_ G].
  split.
  - intros Hv. destruct (G v Hv) as [Hs Hl]. split; [exact Hl|].
    pose proof (all_box_spec n _ B i j v Hi Hj Hl Hs) as E. cbn beta in E.
    apply eqb_prop in E. apply inb_In in Hv. rewrite Hv in E. now apply Z.eqb_eq.
  - intros [Hl E0]. assert (Hs : small v).
    { apply (Q_small n i j v Hl Hi Hj). rewrite E0. destruct n; cbn; lia. }
    pose proof (all_box_spec n _ B i j v Hi Hj Hl Hs) as E. cbn beta in E.
    apply eqb_prop in E. apply inb_In. rewrite <- E. now apply Z.eqb_eq.
Qed.

(** Lattices with a table of second neighbours. *)
Definition hasNext (n : latName) : Prop :=
  n <> ValenceBond /\ n <> Cubic /\ n <> AssymetricTriangular.

Lemma off2_iff n i j v : hasNext n -> (i < NSublat n)%nat -> (j < NSublat n)%nat ->
  In v (off2 n i j) <-> length v = Dim n /\ Q n i j v = q2 n.
Proof.
  intros Hn Hi Hj.
  assert (B : all_box n (fun i j v => Bool.eqb (Q n i j v =? q2 n)%Z (inb v (off2 n i j))) = true).
  { pose proof (off2_ok n) as H. unfold off2Ok in H. destruct Hn as (A1 & A2 & A3). destruct n; cbv iota in H; try (exfalso; congruence); exact H. }
  destruct (offs_spec n i j Hi Hj) as (_ & G & _). apply offGood_spec in G. destruct G as [_ G].
  split.
  - intros Hv. destruct (G v Hv) as [Hs Hl]. split; [exact Hl|].
    pose proof (all_box_spec n _ B i j v Hi Hj Hl Hs) as E. cbn beta in E.
    apply eqb_prop in E. apply inb_In in Hv. rewrite Hv in E. now apply Z.eqb_eq.
  - intros [Hl E0]. assert (Hs : small v).
    { apply (Q_small n i j v Hl Hi Hj). rewrite E0. destruct n; cbn; lia. }
    pose proof (all_box_spec n _ B i j v Hi Hj Hl Hs) as E. cbn beta in E.
    apply eqb_prop in E. apply inb_In. rewrite <- E. now apply Z.eqb_eq.
Qed.

Lemma vb_iff i j v : (i < 2)%nat -> (j < 2)%nat ->
  In v (off1 ValenceBond i j ++ off2 ValenceBond i j) <-> length v = 2%nat /\ Q ValenceBond i j v = 1%Z.
Proof.
  intros Hi Hj. pose proof vb_ok as B. unfold vbOk in B.
  destruct (offs_spec ValenceBond i j Hi Hj) as (G1 & G2 & _).
  apply offGood_spec in G1. apply offGood_spec in G2. destruct G1 as [_ G1], G2 as [_ G2].
  split.
  - intros Hv. assert (G : small v /\ length v = 2%nat).
    { apply in_app_or in Hv. destruct Hv as [Hv|Hv]; [exact (G1 v Hv)|exact (G2 v Hv)]. }
    destruct G as [Hs Hl]. split; [exact Hl|].
    pose proof (all_box_spec ValenceBond _ B i j v Hi Hj Hl Hs) as E. cbn beta in E.
    apply eqb_prop in E. apply inb_In in Hv. rewrite Hv in E. now apply Z.eqb_eq.
  - intros [Hl E0]. assert (Hs : small v).
    { apply (Q_small ValenceBond i j v Hl Hi Hj). rewrite E0. lia. }
    pose proof (all_box_spec ValenceBond _ B i j v Hi Hj Hl Hs) as E. cbn beta in E.
    apply eqb_prop in E. apply inb_In. rewrite <- E. now apply Z.eqb_eq.
Qed.

Definition d1 (n : latName) : R := IZR (q1 n) / IZR (iDen n).
Definition d2 (n : latName) : R := IZR (q2 n) / IZR (iDen n).

Lemma Q_dist n i j v q : length v = Dim n -> (i < NSublat n)%nat -> (j < NSublat n)%nat ->
  Q n i j v = q <-> dist2 n i j v = IZR q / IZR (iDen n).
Proof.
  intros Hl Hi Hj. rewrite dist2_Q by assumption. pose proof (den_pos n). split.
  - intros ->. reflexivity.
  - intros E. apply eq_IZR. apply (Rmult_eq_reg_r (/ IZR (iDen n))); [exact E|].
    apply Rinv_neq_0_compat. lra.
Qed.

Lemma gap n : 0 < d1 n < d2 n /\
  forall i j v, (i < NSublat n)%nat -> (j < NSublat n)%nat -> length v = Dim n ->
  dist2 n i j v = 0 \/ dist2 n i j v = d1 n \/ d2 n <= dist2 n i j v.
Proof.
  split. { unfold d1, d2. destruct n; cbn; lra. }
  intros i j v Hi Hj Hl. rewrite dist2_Q by assumption. unfold d1, d2.
  pose proof (den_pos n) as P.
  destruct (q_gap n i j v Hi Hj Hl) as [E|[E|E]].
  - left. rewrite E. unfold Rdiv. ring.
  - right; left. now rewrite E.
  - right; right. apply IZR_le in E. apply Rmult_le_compat_r; [|exact E]. left. now apply Rinv_0_lt_compat.
Qed.

Lemma shells_law : forall n, exists e1 e2, 0 < e1 < e2 /\
  (forall i j v, (i < NSublat n)%nat -> (j < NSublat n)%nat -> length v = Dim n ->
     dist2 n i j v = 0 \/ dist2 n i j v = e1 \/ e2 <= dist2 n i j v) /\
  forall i j, (i < NSublat n)%nat -> (j < NSublat n)%nat -> exists V1 V2,
    NoDup (V1 ++ V2) /\
    (n <> ValenceBond -> forall v, In v V1 <-> length v = Dim n /\ dist2 n i j v = e1) /\
    (n <> ValenceBond -> n <> Cubic -> n <> AssymetricTriangular ->
       forall v, In v V2 <-> length v = Dim n /\ dist2 n i j v = e2) /\
    (n = ValenceBond -> forall v, In v (V1 ++ V2) <-> length v = Dim n /\ dist2 n i j v = e1) /\
    forall L, torus n 2 L -> (n = Triangular -> torus n 3 L) ->
      nearest n L i j = map (wrap L) V1 /\ nextNearestTable n L i j = map (wrap L) V2.
Proof.
  intros n. destruct (gap n) as [Hd Hg]. exists (d1 n), (d2 n). split; [exact Hd|]. split; [exact Hg|].
  intros i j Hi Hj. exists (off1 n i j), (off2 n i j).
  destruct (offs_spec n i j Hi Hj) as (_ & _ & _ & ND). split; [exact ND|].
  split; [|split; [|split]].
  - intros Hn v. rewrite off1_iff by assumption.
    split; intros [Hl E]; (split; [exact Hl|]); unfold d1 in *; now apply Q_dist.
  - intros A1 A2 A3 v. rewrite off2_iff by (try assumption; repeat split; assumption).
    split; intros [Hl E]; (split; [exact Hl|]); unfold d2 in *; now apply Q_dist.
  - intros -> v. rewrite (vb_iff i j v Hi Hj).
    split; intros [Hl E]; (split; [exact Hl|]); unfold d1 in *; now apply Q_dist.
  - intros L HL HT. split; [now apply wrapped1|now apply wrapped2].
Qed.

(** Third neighbours. *)
Definition Xl (n : latName) (i j : nat) (v : list Z) : list Z := map (X n i j v) (seq 0 (Dim n)).

Definition halfway (n : latName) (i j : nat) (v : list Z) : bool :=
  existsb (fun k => existsb (fun u => zl_eqb (Xl n i j v) (map (Z.mul 2) (Xl n i k u))) (off1 n i k)) (seq 0 (NSublat n)).

Definition isKagome (n : latName) : bool := match n with Kagome => true | _ => false end.

Definition off3Ok (n : latName) : bool :=
  all_box n (fun i j v => Bool.eqb ((Q n i j v =? q3 n)%Z && xorb (isKagome n) (halfway n i j v)) (inb v (off3 n i j))).

Lemma off3_ok n : n = Kagome \/ n = Pyrochlore -> off3Ok n = true.
Proof. intros [-> | ->]; vm_compute; reflexivity. Qed.

Lemma unit_pos n c : (c < Dim n)%nat -> 0 < nth c (iUnit n) 0.
Proof.
  pose proof s3_pos. intros Hc.
  destruct n; cbn in Hc; (destruct c as [|[|[|c]]]; try (exfalso; lia)); cbn -[IZR]; lra.
Qed.

Lemma Xl_eq n i j v k u : length v = Dim n -> length u = Dim n -> (i < NSublat n)%nat -> (j < NSublat n)%nat -> (k < NSublat n)%nat ->
  (forall c, (c < Dim n)%nat -> comp n i j v c = 2 * comp n i k u c) <->
  Xl n i j v = map (Z.mul 2) (Xl n i k u).
Proof.
  intros Hl Hu Hi Hj Hk. unfold Xl. rewrite map_map. split.
  - intros H. apply map_ext_in. intros c Hc. apply in_seq in Hc. specialize (H c ltac:(lia)).
    rewrite !comp_X in H by (assumption || lia). pose proof (unit_pos n c ltac:(lia)).
    apply eq_IZR. rewrite mult_IZR. apply (Rmult_eq_reg_r (nth c (iUnit n) 0)); [|lra]. lra.
  - intros H c Hc. rewrite !comp_X by assumption.
    assert (E : X n i j v c = (2 * X n i k u c)%Z).
    { assert (K : nth c (map (X n i j v) (seq 0 (Dim n))) 0%Z = nth c (map (fun x => (2 * X n i k u x)%Z) (seq 0 (Dim n))) 0%Z) by now rewrite H.
      rewrite (nth_indep _ 0%Z (X n i j v 0%nat)) in K by (rewrite map_length, seq_length; lia).
      rewrite (map_nth (X n i j v)) in K.
      rewrite (nth_indep _ 0%Z ((fun x => (2 * X n i k u x)%Z) 0%nat)) in K by (rewrite map_length, seq_length; lia).
      rewrite (map_nth (fun x => (2 * X n i k u x)%Z)) in K.
      rewrite !seq_nth in K by lia. exact K. }
    rewrite E, mult_IZR. ring.
Qed.

Lemma halfway_iff n i j v : n = Kagome \/ n = Pyrochlore -> length v = Dim n -> (i < NSublat n)%nat -> (j < NSublat n)%nat ->
  Q n i j v = q3 n -> halfway n i j v = true <-> through n i j v.
Proof.
  intros Hn Hl Hi Hj HQ. unfold halfway, through. split.
  - intros H. apply existsb_exists in H. destruct H as [k [Hk H]]. apply in_seq in Hk.
    apply existsb_exists in H. destruct H as [u [Hu H]]. exists k, u.
    assert (Hk' : (k < NSublat n)%nat) by lia.
    apply off1_iff in Hu; [|destruct Hn; subst; discriminate|assumption..]. destruct Hu as [Hu _].
    split; [exact Hk'|]. split; [exact Hu|]. apply Xl_eq; try assumption.
    unfold zl_eqb in H. destruct (list_eq_dec Z.eq_dec _ _) as [E|E]; [exact E|discriminate].
  - intros (k & u & Hk & Hu & H). apply existsb_exists. exists k. split; [apply in_seq; lia|].
    apply existsb_exists. exists u. split.
    + apply off1_iff; [destruct Hn; subst; discriminate|assumption..|]. split; [exact Hu|].
      assert (D : dist2 n i j v = 4 * dist2 n i k u).
      { unfold dist2, rsum.
        assert (G : forall l, (forall c, In c l -> (c < Dim n)%nat) ->
          fold_right Rplus 0 (map (fun c => comp n i j v c * comp n i j v c) l)
          = 4 * fold_right Rplus 0 (map (fun c => comp n i k u c * comp n i k u c) l)).
        { induction l as [|c l IH]; intros Hc; cbn [map fold_right]; [ring|].
          rewrite H by (apply Hc; now left). rewrite IH by (intros; apply Hc; now right). ring. }
        apply G. intros c Hc. apply in_seq in Hc. lia. }
      rewrite !dist2_Q, HQ in D by assumption. apply eq_IZR.
      clear - D Hn. destruct Hn; subst n; cbn [iDen q3 q1] in D |- *; lra.
    + apply Xl_eq in H; try assumption. rewrite H. unfold zl_eqb.
      destruct (list_eq_dec Z.eq_dec _ _); congruence.
Qed.

Lemma xor_case (b h : bool) (P : Prop) : (h = true <-> P) -> (xorb b h = true <-> if b then ~ P else P).
Proof. destruct b, h; cbn; intuition congruence. Qed.

Lemma off3_iff n i j v : n = Kagome \/ n = Pyrochlore -> (i < NSublat n)%nat -> (j < NSublat n)%nat ->
  In v (off3 n i j) <-> length v = Dim n /\ Q n i j v = q3 n /\
    (if isKagome n then ~ through n i j v else through n i j v).
Proof.
  intros Hn Hi Hj.
  pose proof (off3_ok n Hn) as B. unfold off3Ok in B.
  destruct (offs_spec n i j Hi Hj) as (_ & _ & G & _). apply offGood_spec in G. destruct G as [_ G].
  assert (T : forall v, length v = Dim n -> small v -> In v (off3 n i j) <-> Q n i j v = q3 n /\
    (if isKagome n then ~ through n i j v else through n i j v)).
  { intros w Hl Hs. pose proof (all_box_spec n _ B i j w Hi Hj Hl Hs) as E. cbn beta in E.
    apply eqb_prop in E. rewrite <- inb_In, <- E, andb_true_iff, Z.eqb_eq. clear E B G.
    split; intros [A F]; (split; [exact A|]); apply (xor_case _ _ _ (halfway_iff n i j w Hn Hl Hi Hj A)); exact F. }
  split.
  - intros Hv. destruct (G v Hv) as [Hs Hl]. split; [exact Hl|]. now apply T.
  - intros [Hl E0]. apply T; [exact Hl| |exact E0].
    apply (Q_small n i j v Hl Hi Hj). destruct E0 as [E0 _]. rewrite E0. destruct Hn; subst n; cbn; lia.
Qed.

Lemma third_law n i j : n = Kagome \/ n = Pyrochlore -> (i < NSublat n)%nat -> (j < NSublat n)%nat ->
  exists V, NoDup V /\ (forall L, torus n 2 L -> nextNextNearest n L i j = map (wrap L) V) /\
  forall v, In v V <-> length v = Dim n /\
    (n = Kagome -> dist2 n i j v = 1 /\ ~ through n i j v) /\
    (n = Pyrochlore -> dist2 n i j v = 1/2 /\ through n i j v).
Proof.
  intros Hn Hi Hj. exists (off3 n i j).
  destruct (offs_spec n i j Hi Hj) as (_ & _ & G & _). apply offGood_spec in G. destruct G as [ND _].
  split; [exact ND|]. split; [intros; now apply wrapped3|].
  intros v. rewrite off3_iff by assumption.
  assert (K : length v = Dim n -> (Q n i j v = q3 n <-> dist2 n i j v = (match n with Kagome => 1 | _ => 1/2 end))).
  { intros Hl. rewrite Q_dist by assumption. destruct Hn; subst n; cbn;
    [replace (16/16) with 1 by field|replace (8/16) with (1/2) by field]; reflexivity. }
  destruct Hn; subst n; split.
  - intros (Hl & A & B). split; [exact Hl|]. split; [|discriminate]. intros _. split; [now apply K|exact B].
  - intros (Hl & A & _). destruct (A eq_refl) as [A1 A2]. split; [exact Hl|]. split; [now apply K|exact A2].
  - intros (Hl & A & B). split; [exact Hl|]. split; [discriminate|]. intros _. split; [now apply K|exact B].
  - intros (Hl & _ & A). destruct (A eq_refl) as [A1 A2]. split; [exact Hl|]. split; [now apply K|exact A2].
Qed.
