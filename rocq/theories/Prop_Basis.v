(** * C152-C153: the bosonic kernel and the grid of times of the basis functions *)
Require Import Reals Lra Lia.
Require Import Verif.Basis Verif.P_Basis.
Local Open Scope R_scope.

(** C152: the kernel is w e^(-wt)/(1-e^(-beta w)) up to a relative error below e^(-400), and exactly
    that for |beta w/2| <= 200. *)
Theorem C152_kernel w t beta : 0 < beta -> w <> 0 ->
  exists e, 0 <= e < exp (-400) /\ (Rabs (beta * w / 2) <= 200 -> e = 0) /\
    BoseKernel w t beta = w * exp (- (w * t)) / (1 - exp (- (beta * w))) * (1 - e).
Proof.
  intros B W. exists (lost w beta). split; [now apply lost_small|]. split; [|now apply kernel_exact].
  intros H. unfold lost. destruct (Rlt_dec 200 (Rabs (beta * w / 2))); lra.
Qed.
Print Assumptions C152_kernel.
Theorem C152_positive w t beta : 0 < beta -> w <> 0 -> 0 < BoseKernel w t beta.
Proof. exact (kernel_pos w t beta). Qed.
Print Assumptions C152_positive.
Theorem C152_reflection w t beta : 0 < beta -> w <> 0 -> BoseKernel (- w) (beta - t) beta = BoseKernel w t beta.
Proof. exact (kernel_reflect w t beta). Qed.
Print Assumptions C152_reflection.
Theorem C152_no_division_by_zero i : wGrid i <> 0.
Proof. exact (wGrid_ne0 i). Qed.
Print Assumptions C152_no_division_by_zero.
Theorem C152_grid : wGrid 0 = -100 /\ wGrid 999 = 100 /\ forall i, (i <= 999)%nat -> wGrid (999 - i) = - wGrid i.
Proof. split; [apply wGrid_ends|]. split; [apply wGrid_ends|exact wGrid_odd]. Qed.
Print Assumptions C152_grid.
Example C152_example : 0 < 8 /\ wGrid 999 <> 0 /\ 200 < 8 * wGrid 999 / 2 /\ Rabs (8 * 1 / 2) <= 200.
Proof. destruct wGrid_ends as [_ ->]. rewrite Rabs_right; lra. Qed.

(** C153: the times at which the kernel is taken are the centres of the bins only at beta = 1; *)
Theorem C153_centres_only_at_one Nt beta i : (0 < Nt)%nat ->
  (tGrid Nt beta i = (INR i + 1 / 2) * beta / INR Nt <-> beta = 1).
Proof. exact (centre_iff Nt beta i). Qed.
Print Assumptions C153_centres_only_at_one.
Theorem C153_bin_centres_refuted : exists Nt beta i, (i < Nt)%nat /\ 0 < beta /\
  tGrid Nt beta i <> (INR i + 1 / 2) * beta / INR Nt.
Proof.
  exists 128%nat, (8 / 10), 0%nat. split; [lia|]. split; [lra|].
  intros H. apply centre_iff in H; [lra|lia].
Qed.
Print Assumptions C153_bin_centres_refuted.

(** and below beta = 1/2 the last of them is later than beta. *)
Theorem C153_last_time_outside Nt beta : (0 < Nt)%nat -> beta < 1 / 2 -> beta < tGrid Nt beta (Nt - 1).
Proof. exact (last_outside Nt beta). Qed.
Print Assumptions C153_last_time_outside.
Theorem C153_times_within_beta_refuted : exists Nt beta i, (i < Nt)%nat /\ 0 < beta /\ beta < tGrid Nt beta i.
Proof. exists 128%nat, (1 / 4), 127%nat. split; [lia|]. split; [lra|]. apply (last_outside 128); [lia|lra]. Qed.
Print Assumptions C153_times_within_beta_refuted.
Example C153_example : (0 < 64)%nat /\ 1 / 4 < 1 / 2.
Proof. split; [lia|lra]. Qed.
