(** * Proofs about the bosonic kernel and the grids *)
Require Import Reals Lra Lia ZArith Arith.
Require Import Verif.Basis.
Local Open Scope R_scope.

Definition exact (w t beta : R) : R := w * exp (- (w * t)) / (1 - exp (- (beta * w))).
Definition lost (w beta : R) : R := if Rlt_dec 200 (Rabs (beta * w / 2)) then exp (- (beta * Rabs w)) else 0.

Lemma exp_ne1 x : x <> 0 -> 1 - exp x <> 0.
Proof. intros H E. apply H, exp_inv. rewrite exp_0. lra. Qed.

Lemma abs_pos a b : 0 < a -> Rabs (a * b / 2) = a * Rabs b / 2.
Proof. intros. unfold Rdiv. rewrite !Rabs_mult, (Rabs_right a), (Rabs_right (/2)); lra. Qed.

Lemma kernel_exact w t beta : 0 < beta -> w <> 0 ->
  BoseKernel w t beta = exact w t beta * (1 - lost w beta).
Proof.
  intros B W. unfold BoseKernel, exact, lost. cbn zeta. rewrite abs_pos by lra.
  assert (BW : beta * w <> 0) by (apply Rmult_integral_contrapositive; lra).
  assert (N : 1 - exp (- (beta * w)) <> 0) by (apply exp_ne1; lra).
  replace (- (beta * w / 2) * (2 * t / beta - 1 + 1)) with (- (w * t)) by (field; lra).
  replace (beta * w / 2 * (1 - (2 * t / beta - 1))) with (beta * w + - (w * t)) by (field; lra).
  replace (- (beta * w / 2) * (2 * t / beta - 1)) with (beta * w / 2 + - (w * t)) by (field; lra).
  destruct (Rlt_dec 200 (beta * w / 2)) as [H|H].
  - assert (0 < w) by (destruct (Rlt_le_dec 0 w); auto; exfalso; assert (beta * w <= 0) by nra; lra).
    rewrite Rabs_right by lra. destruct (Rlt_dec 200 (beta * w / 2)); [|lra]. field. exact N.
  - destruct (Rlt_dec (beta * w / 2) (-200)) as [L|L].
    + assert (w < 0) by (destruct (Rlt_le_dec w 0); auto; exfalso; assert (0 <= beta * w) by nra; lra).
      rewrite Rabs_left by lra. destruct (Rlt_dec 200 (beta * - w / 2)); [|exfalso; lra].
      replace (- (beta * - w)) with (beta * w) by ring. rewrite exp_plus.
      rewrite (exp_Ropp (beta * w)) in *. generalize (exp_pos (beta * w)). set (E := exp (beta * w)) in *.
      intros P. assert (E <> 1). { intros Q. apply N. rewrite Q. field. }
      field. split; lra.
    + destruct (Rlt_dec 200 (beta * Rabs w / 2)) as [Q|Q].
      { exfalso. unfold Rabs in Q. destruct (Rcase_abs w); lra. }
      unfold sinh. rewrite exp_plus. replace (- (beta * w)) with (- (beta * w / 2) + - (beta * w / 2)) in * by field.
      rewrite exp_plus in N |- *. rewrite !(exp_Ropp (beta * w / 2)) in *. generalize (exp_pos (beta * w / 2)). set (E := exp (beta * w / 2)) in *.
      intros P. assert (D : E * E - 1 <> 0).
      { intros Z. apply N. replace (/ E * / E) with (/ (E * E)) by (field; lra). replace (E * E) with 1 by lra. field. }
      assert (0 < E * E) by nra. generalize (exp_pos (w * t)). intros. field. repeat split; lra.
Qed.

Lemma lost_small w beta : 0 < beta -> 0 <= lost w beta < exp (-400).
Proof.
  intros B. unfold lost. rewrite abs_pos by lra. destruct (Rlt_dec 200 (beta * Rabs w / 2)).
  - split; [left; apply exp_pos|]. apply exp_increasing. lra.
  - split; [lra|apply exp_pos].
Qed.

Lemma exact_pos w t beta : 0 < beta -> w <> 0 -> 0 < exact w t beta.
Proof.
  intros B W. unfold exact. assert (P := exp_pos (- (w * t))).
  destruct (Rlt_le_dec 0 w).
  - assert (exp (- (beta * w)) < 1). { rewrite <- exp_0. apply exp_increasing. nra. }
    apply Rdiv_lt_0_compat; nra.
  - assert (w < 0) by lra. assert (1 < exp (- (beta * w))). { rewrite <- exp_0 at 1. apply exp_increasing. nra. }
    replace (w * exp (- (w * t)) / (1 - exp (- (beta * w)))) with (- w * exp (- (w * t)) / (exp (- (beta * w)) - 1)).
    + apply Rdiv_lt_0_compat; nra.
    + field. split; lra.
Qed.

Lemma exp400 : exp (-400) < 1.
Proof. rewrite <- exp_0. apply exp_increasing. lra. Qed.

Lemma kernel_pos w t beta : 0 < beta -> w <> 0 -> 0 < BoseKernel w t beta.
Proof.
  intros B W. rewrite kernel_exact by auto. apply Rmult_lt_0_compat; [now apply exact_pos|].
  destruct (lost_small w beta B). generalize exp400. lra.
Qed.

Lemma kernel_reflect w t beta : 0 < beta -> w <> 0 -> BoseKernel (- w) (beta - t) beta = BoseKernel w t beta.
Proof.
  intros B W. rewrite !kernel_exact by lra. f_equal.
  - unfold exact. assert (BW : beta * w <> 0) by (apply Rmult_integral_contrapositive; lra).
    assert (N : 1 - exp (- (beta * w)) <> 0) by (apply exp_ne1; lra).
    replace (- (- w * (beta - t))) with (beta * w + - (w * t)) by ring.
    replace (- (beta * - w)) with (beta * w) by ring. rewrite exp_plus.
    rewrite (exp_Ropp (beta * w)) in *.
    generalize (exp_pos (beta * w)). set (E := exp (beta * w)) in *. intros P.
    assert (E <> 1). { intros Q. apply N. rewrite Q. field. }
    generalize (exp_pos (w * t)). intros. field. repeat split; lra.
  - unfold lost. replace (beta * - w / 2) with (- (beta * w / 2)) by field. now rewrite !Rabs_Ropp.
Qed.

Lemma wGrid_ne0 i : wGrid i <> 0.
Proof.
  unfold wGrid. intros H. assert (E : INR (2 * i) = INR 999).
  { rewrite mult_INR. change (INR 2) with (1 + 1). rewrite (INR_IZR_INZ 999). change (Z.of_nat 999) with 999%Z. lra. }
  apply INR_eq in E. lia.
Qed.
Lemma wGrid_ends : wGrid 0 = -100 /\ wGrid 999 = 100.
Proof. unfold wGrid. rewrite (INR_IZR_INZ 999). change (Z.of_nat 999) with 999%Z. cbn [INR]. split; field. Qed.
Lemma wGrid_odd i : (i <= 999)%nat -> wGrid (999 - i) = - wGrid i.
Proof.
  intros H. unfold wGrid. rewrite minus_INR by auto. rewrite (INR_IZR_INZ 999).
  change (Z.of_nat 999) with 999%Z. field.
Qed.

Lemma centre_iff Nt beta i : (0 < Nt)%nat ->
  (tGrid Nt beta i = (INR i + 1 / 2) * beta / INR Nt <-> beta = 1).
Proof.
  intros H. apply lt_INR in H. cbn [INR] in H. unfold tGrid.
  replace (INR i * (beta / INR Nt) + 1 / INR Nt / 2) with ((INR i + 1 / 2) * beta / INR Nt + (1 - beta) / (2 * INR Nt)) by (field; lra).
  split; [|intros ->; field; lra]. intros E. assert (Z : (1 - beta) / (2 * INR Nt) = 0) by lra.
  apply (f_equal (fun x => x * (2 * INR Nt))) in Z. rewrite Rmult_0_l in Z.
  replace ((1 - beta) / (2 * INR Nt) * (2 * INR Nt)) with (1 - beta) in Z by (field; lra). lra.
Qed.

Lemma last_outside Nt beta : (0 < Nt)%nat -> beta < 1 / 2 -> beta < tGrid Nt beta (Nt - 1).
Proof.
  intros H L. unfold tGrid. rewrite minus_INR by lia. apply lt_INR in H. cbn [INR] in *.
  replace ((INR Nt - 1) * (beta / INR Nt) + 1 / INR Nt / 2) with (beta + (1 / 2 - beta) / INR Nt) by (field; lra).
  assert (0 < (1 / 2 - beta) / INR Nt) by (apply Rdiv_lt_0_compat; lra). lra.
Qed.
