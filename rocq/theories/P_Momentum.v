(** Proofs about Momentum.v *)
From Coq Require Import ZArith Lia Bool ZifyBool.
From Verif Require Import Base Momentum.
Open Scope Z_scope.

(** congruence modulo the size of the momentum ring *)
Definition MODK : Z := 2 * MAX_K + 1.
Definition eqm (a b : Z) : Prop := exists q, a - b = q * MODK.

Lemma eqm_refl a : eqm a a.
Proof. exists 0. lia. Qed.
Lemma eqm_sym a b : eqm a b -> eqm b a.
Proof. intros [q H]; exists (- q); lia. Qed.
Lemma eqm_trans a b c : eqm a b -> eqm b c -> eqm a c.
Proof. intros [q H] [r H']; exists (q + r); lia. Qed.
Lemma eqm_add a b c d : eqm a b -> eqm c d -> eqm (a + c) (b + d).
Proof. intros [q H] [r H']; exists (q + r); lia. Qed.
Lemma eqm_sub a b c d : eqm a b -> eqm c d -> eqm (a - c) (b - d).
Proof. intros [q H] [r H']; exists (q - r); lia. Qed.
Lemma eqm_mul k a b : eqm a b -> eqm (k * a) (k * b).
Proof. intros [q H]; exists (k * q); nia. Qed.
Lemma eqm_of_eq a b : a = b -> eqm a b.
Proof. intros ->; apply eqm_refl. Qed.
Lemma eqm_inrange a b : inrange a -> inrange b -> eqm a b -> a = b.
Proof. unfold inrange, eqm, MODK, MAX_K. intros ? ? [q H]. assert (q = 0) by lia. lia. Qed.

Lemma Shift_spec k : - (3 * MAX_K + 1) <= k <= 3 * MAX_K + 1 -> inrange (Shift k) /\ eqm (Shift k) k.
Proof.
  unfold Shift, inrange, eqm, MODK, MAX_K. cbv zeta. intros H.
  destruct (Z.gtb_spec k 10000) as [E1|E1];
    match goal with |- context [?x <? - (10000)] => destruct (Z.ltb_spec x (- (10000))) end;
    split; try lia; [exists (-1)|exists 1|exists 0]; lia.
Qed.
Lemma Shift_id k : inrange k -> Shift k = k.
Proof. unfold Shift, inrange, MAX_K. cbv zeta. intros H.
  destruct (Z.gtb_spec k 10000) as [E1|E1]; [lia|].
  match goal with |- context [?x <? - (10000)] => destruct (Z.ltb_spec x (- (10000))) end; lia. Qed.
Lemma mkMom_id k : inrange k -> mkMom k = k.
Proof. apply Shift_id. Qed.

Lemma kadd_spec a b : inrange a -> inrange b -> inrange (kadd a b) /\ eqm (kadd a b) (a + b).
Proof.
  intros Ha Hb. unfold kadd, mkMom.
  destruct (Shift_spec (a + b)) as [H1 H2]; [unfold inrange, MAX_K in *; lia|].
  rewrite (Shift_id (Shift (a+b))) by assumption. auto.
Qed.
Lemma ksub_spec a b : inrange a -> inrange b -> inrange (ksub a b) /\ eqm (ksub a b) (a - b).
Proof.
  intros Ha Hb. unfold ksub, mkMom.
  destruct (Shift_spec (a - b)) as [H1 H2]; [unfold inrange, MAX_K in *; lia|].
  rewrite (Shift_id (Shift (a-b))) by assumption. auto.
Qed.
Lemma kscale_spec c a : -3 <= c <= 3 -> inrange a -> inrange (kscale c a) /\ eqm (kscale c a) (c * a).
Proof.
  intros Hc Ha. unfold kscale, mkMom. rewrite (Z.mul_comm c a). apply Shift_spec.
  unfold inrange, MAX_K in *. nia.
Qed.
Lemma kadd_assign_spec a b : inrange a -> inrange b -> kadd_assign a b = kadd a b.
Proof.
  intros Ha Hb. unfold kadd_assign, kadd, mkMom.
  destruct (Shift_spec (a + b)) as [H1 H2]; [unfold inrange, MAX_K in *; lia|].
  now rewrite (Shift_id (Shift (a+b))).
Qed.
Lemma ksub_assign_spec a b : inrange a -> inrange b -> ksub_assign a b = ksub a b.
Proof.
  intros Ha Hb. unfold ksub_assign, ksub, mkMom.
  destruct (Shift_spec (a - b)) as [H1 H2]; [unfold inrange, MAX_K in *; lia|].
  now rewrite (Shift_id (Shift (a-b))).
Qed.

Lemma kadd_mod a b : inrange a -> inrange b -> kadd a b = (a + b + MAX_K) mod MODK - MAX_K.
Proof.
  intros Ha Hb. destruct (kadd_spec a b Ha Hb) as [H1 H2].
  apply eqm_inrange; auto.
  - pose proof (Z.mod_pos_bound (a+b+MAX_K) MODK). unfold inrange, MODK, MAX_K in *. lia.
  - eapply eqm_trans; [apply H2|]. exists ((a + b + MAX_K) / MODK).
    pose proof (Z.div_mod (a + b + MAX_K) MODK). unfold MODK, MAX_K in *. lia.
Qed.
Lemma ksub_mod a b : inrange a -> inrange b -> ksub a b = (a - b + MAX_K) mod MODK - MAX_K.
Proof.
  intros Ha Hb. destruct (ksub_spec a b Ha Hb) as [H1 H2].
  apply eqm_inrange; auto.
  - pose proof (Z.mod_pos_bound (a-b+MAX_K) MODK). unfold inrange, MODK, MAX_K in *. lia.
  - eapply eqm_trans; [apply H2|]. exists ((a - b + MAX_K) / MODK).
    pose proof (Z.div_mod (a - b + MAX_K) MODK). unfold MODK, MAX_K in *. lia.
Qed.

Lemma kadd_comm a b : kadd a b = kadd b a.
Proof. unfold kadd. now rewrite Z.add_comm. Qed.
Lemma kadd_0 a : inrange a -> kadd a 0 = a.
Proof. intros H. unfold kadd, mkMom. rewrite Z.add_0_r, !Shift_id; rewrite ?Shift_id; auto. Qed.
Lemma kadd_assoc a b c : inrange a -> inrange b -> inrange c -> kadd a (kadd b c) = kadd (kadd a b) c.
Proof.
  intros Ha Hb Hc.
  destruct (kadd_spec b c) as [R1 E1]; auto. destruct (kadd_spec a b) as [R2 E2]; auto.
  destruct (kadd_spec a (kadd b c)) as [R3 E3]; auto. destruct (kadd_spec (kadd a b) c) as [R4 E4]; auto.
  apply eqm_inrange; auto.
  eapply eqm_trans; [apply E3|]. eapply eqm_trans; [apply eqm_add; [apply eqm_refl|apply E1]|].
  apply eqm_sym. eapply eqm_trans; [apply E4|].
  eapply eqm_trans; [apply eqm_add; [apply E2|apply eqm_refl]|]. apply eqm_of_eq. lia.
Qed.
Lemma ksub_kadd a b : inrange a -> inrange b -> kadd (ksub a b) b = a.
Proof.
  intros Ha Hb. destruct (ksub_spec a b) as [R1 E1]; auto.
  destruct (kadd_spec (ksub a b) b) as [R2 E2]; auto.
  apply eqm_inrange; auto. eapply eqm_trans; [apply E2|].
  eapply eqm_trans; [apply eqm_add; [apply E1|apply eqm_refl]|]. apply eqm_of_eq; lia.
Qed.
Lemma kindex_range k : inrange k <-> 0 <= kindex k <= 2 * MAX_K.
Proof. unfold inrange, kindex, MAX_K. lia. Qed.
Lemma kindex_inj a b : kindex a = kindex b -> a = b.
Proof. unfold kindex. lia. Qed.
