(** * Results on Momentum (C29, C30) *)
From Coq Require Import ZArith Lia.
From Verif Require Import Base Momentum P_Momentum.
Open Scope Z_scope.

(** ** C29 Momentum is the cyclic group of integers modulo 20001 on -10000..10000.
    The specification is plain integer arithmetic: the result is the unique integer in
    the range congruent to the integer sum (difference). *)
Theorem C29_momentum_group :
  forall a b c : Z,
    -10000 <= a <= 10000 -> -10000 <= b <= 10000 -> -10000 <= c <= 10000 ->
    (-10000 <= kadd a b <= 10000 /\ (kadd a b - (a + b)) mod 20001 = 0) /\
    (-10000 <= ksub a b <= 10000 /\ (ksub a b - (a - b)) mod 20001 = 0) /\
    kadd a (kadd b c) = kadd (kadd a b) c /\
    kadd a b = kadd b a /\
    kadd a 0 = a /\
    kadd (ksub a b) b = a /\
    kadd_assign a b = kadd a b /\ ksub_assign a b = ksub a b.
Proof.
  intros a b c Ha Hb Hc.
  destruct (kadd_spec a b Ha Hb) as [H1 [q H2]]. destruct (ksub_spec a b Ha Hb) as [H3 [r H4]].
  repeat match goal with |- _ /\ _ => split end.
  - exact (proj1 H1).
  - exact (proj2 H1).
  - rewrite H2. apply Z.mod_mul. discriminate.
  - exact (proj1 H3).
  - exact (proj2 H3).
  - rewrite H4. apply Z.mod_mul. discriminate.
  - exact (kadd_assoc a b c Ha Hb Hc).
  - exact (kadd_comm a b).
  - exact (kadd_0 a Ha).
  - exact (ksub_kadd a b Ha Hb).
  - exact (kadd_assign_spec a b Ha Hb).
  - exact (ksub_assign_spec a b Ha Hb).
Qed.
Print Assumptions C29_momentum_group.
Example C29_case : kadd 9999 7 = -9995 /\ ksub (-9999) 7 = 9995.
Proof. split; reflexivity. Qed.

(** The table index is a bijection onto 0..20000 and the absolute value fits 0..10000. *)
Theorem C29_index_bijective :
  forall i, 0 <= i <= 20000 <-> exists k, -10000 <= k <= 10000 /\ kindex k = i.
Proof.
  intros i. split.
  - intros H. exists (i - 10000). unfold kindex, MAX_K. lia.
  - intros [k [H E]]. unfold kindex, MAX_K in E. lia.
Qed.
Print Assumptions C29_index_bijective.
Example C29_index_case : kindex (-10000) = 0 /\ kindex 10000 = 20000.
Proof. split; reflexivity. Qed.

(** ** C30 Scaling. True for factors -3..3 (the code uses -1 and 1) ... *)
Theorem C30_small_factor_scaling_partial :
  forall c a : Z, -3 <= c <= 3 -> -10000 <= a <= 10000 ->
    -10000 <= kscale c a <= 10000 /\ (kscale c a - c * a) mod 20001 = 0.
Proof.
  intros c a Hc Ha. destruct (kscale_spec c a Hc Ha) as [H1 [q H2]].
  split; [exact H1|]. rewrite H2. apply Z.mod_mul. discriminate.
Qed.
Print Assumptions C30_small_factor_scaling_partial.
Example C30_case : kscale (-3) 9999 = -9996
  /\ kscale 2 10000 = -1.
Proof. split; reflexivity. Qed.

(** ... but not for all factors: the constructor shifts at most once. *)
Theorem C30_scaling_refuted :
  exists c a : Z, -10000 <= a <= 10000 /\ ~ (-10000 <= kscale c a <= 10000).
Proof. exists 4, 10000. split; [lia|]. vm_compute. intros [_ H]. now apply H. Qed.
Print Assumptions C30_scaling_refuted.
