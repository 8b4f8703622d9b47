(** * Proofs about the recorded occupation *)
Require Import Reals Lra Lia List Arith Bool.
From Coquelicot Require Import Coquelicot.
Require Import Verif.PyWeight Verif.FirstOrder Verif.BareG Verif.P_Fourier Verif.P_BareG Verif.P_Measure Verif.Occupation.
Import ListNotations.
Local Open Scope R_scope.

Lemma coords_0 L k : dotOver L k (coords L 0) = 0.
Proof.
  revert k. induction L as [|l L IH]; intros [|a k]; cbn; auto.
  set (p := fold_right Nat.mul 1%nat L).
  replace (0 / p)%nat with 0%nat by (destruct p; [reflexivity|now rewrite Nat.div_0_l]).
  replace (0 mod p)%nat with 0%nat by (destruct p; [reflexivity|now rewrite Nat.mod_0_l]).
  rewrite IH. cbn [INR]. unfold Rdiv. ring.
Qed.

Definition four (a b c d : C) : C :=
  Cminus (Cplus (Cminus (Cmult (RtoC (3/2)) a) (Cmult (RtoC (1/2)) b)) (Cmult (RtoC (3/2)) c))
         (Cmult (RtoC (1/2)) d).

Lemma four_mult a b c d z : four (Cmult a z) (Cmult b z) (Cmult c z) (Cmult d z) = Cmult (four a b c d) z.
Proof. unfold four. ring. Qed.

Lemma csum_four n a b c d :
  csum n (fun r => four (a r) (b r) (c r) (d r)) = four (csum n a) (csum n b) (csum n c) (csum n d).
Proof.
  induction n; cbn [csum].
  - unfold four. ring.
  - rewrite IHn. unfold four. ring.
Qed.

Lemma fftn_four L a b c d q :
  four (fftn L a q) (fftn L b q) (fftn L c q) (fftn L d q) =
  fftn L (fun r => four (a r) (b r) (c r) (d r)) q.
Proof.
  unfold fftn. rewrite <- csum_four. apply csum_ext. intros r _. apply four_mult.
Qed.

Lemma sum_fftn L x : List.Forall (fun l => (0 < l)%nat) L ->
  Cdiv (csum (fold_right Nat.mul 1%nat L) (fun q => fftn L x q))
       (RtoC (INR (fold_right Nat.mul 1%nat L))) = x 0%nat.
Proof.
  intros F. destruct (space_ortho L F) as [O _]. assert (P := prod_pos L F).
  rewrite <- (bwd_fwd _ _ x 0%nat O P). unfold bwd, fwd, fftn, Cdiv.
  rewrite Cmult_comm. f_equal.
  - rewrite RtoC_inv; [reflexivity|]. apply not_0_INR. lia.
  - apply csum_ext. intros q _. rewrite coords_0, Rmult_0_r, cis_0. now rewrite Cmult_1_r.
Qed.

Lemma local_law L bins G i : List.Forall (fun l => (0 < l)%nat) L ->
  occupation L bins G i =
  four (G 1 i 1 i 0 (bins - 1))%nat (G 1 i 1 i 0 (bins - 2))%nat
       (G 0 i 0 i 0 (bins - 1))%nat (G 0 i 0 i 0 (bins - 2))%nat.
Proof.
  intros F. unfold occupation. cbv zeta.
  rewrite <- (sum_fftn L (fun r => four (G 1 i 1 i r (bins - 1))%nat (G 1 i 1 i r (bins - 2))%nat
       (G 0 i 0 i r (bins - 1))%nat (G 0 i 0 i r (bins - 2))%nat) F).
  f_equal. apply csum_ext. intros q _. rewrite <- fftn_four. reflexivity.
Qed.

Lemma occ_affine L beta bins G i (a b : nat -> C) : List.Forall (fun l => (0 < l)%nat) L -> (2 <= bins)%nat ->
  (forall s t, (s < 2)%nat -> (t < bins)%nat ->
     G s i s i 0%nat t = Cplus (a s) (Cmult (b s) (RtoC ((INR t + 1/2) * (beta / INR bins))))) ->
  occupation L bins G i = Cplus (Cplus (a 0%nat) (Cmult (b 0%nat) (RtoC beta)))
                                (Cplus (a 1%nat) (Cmult (b 1%nat) (RtoC beta))).
Proof.
  intros F B H. rewrite local_law by assumption. unfold four. rewrite !H by lia. rewrite !bin_time by lia.
  change (INR 1) with 1. change (INR 2) with (1 + 1).
  generalize (beta / INR bins). intros d. destruct (a 0%nat), (a 1%nat), (b 0%nat), (b 1%nat).
  apply injective_projections; cbn; field.
Qed.

Lemma cosh_law beta h : 0 < beta ->
  Cplus (spinG false beta h 0 beta) (spinG false beta h 1 beta) = (1, / cosh (beta * h / 2)).
Proof.
  intros Hb. unfold spinG. cbv zeta. rewrite !e_mu by (assumption || lia). unfold sg. cbn [Nat.eqb].
  replace (1 * (beta * h / 2)) with (beta * h / 2) by ring.
  replace (-1 * (beta * h / 2)) with (- (beta * h / 2)) by ring.
  unfold cosh. rewrite exp_Ropp. set (x := exp (beta * h / 2)).
  assert (Hx : 0 < x) by apply exp_pos.
  unfold Cdiv, Cinv. apply injective_projections; cbn; field; repeat split; nra.
Qed.

Definition ncurve (beta h : R) (d : R) : C :=
  let g s k := spinG false beta h s (beta - (INR k - 1 / 2) * d) in
  four (g 1 1)%nat (g 1 2)%nat (g 0 1)%nat (g 0 2)%nat.

Lemma occ_curve L beta fields i bins : List.Forall (fun l => (0 < l)%nat) L -> (2 <= bins)%nat ->
  occupation L bins (spinBareG false beta bins fields) i = ncurve beta (nth i fields 0) (beta / INR bins).
Proof.
  intros F B. rewrite local_law by assumption. unfold ncurve, spinBareG. cbv zeta.
  rewrite !Nat.eqb_refl. cbn [andb Nat.ltb Nat.leb]. now rewrite !bin_time by lia.
Qed.

Lemma ncurve_zero beta h : 0 < beta -> ncurve beta h 0 = (1, / cosh (beta * h / 2)).
Proof.
  intros B. unfold ncurve. cbv zeta. rewrite !Rmult_0_r, !Rminus_0_r.
  rewrite <- (cosh_law beta h B). generalize (spinG false beta h 0 beta) (spinG false beta h 1 beta).
  intros [x y] [u v]. apply injective_projections; cbn; field.
Qed.

Lemma combine4' f1 f2 f3 f4 x : continuity_pt f1 x -> continuity_pt f2 x -> continuity_pt f3 x -> continuity_pt f4 x ->
  continuity_pt (fun d => 3/2 * f1 d - 1/2 * f2 d + 3/2 * f3 d - 1/2 * f4 d) x.
Proof.
  intros.
  apply (continuity_pt_minus (fun d => 3/2 * f1 d - 1/2 * f2 d + 3/2 * f3 d) (fun d => 1/2 * f4 d));
    [|now apply (continuity_pt_scal f4)].
  apply (continuity_pt_plus (fun d => 3/2 * f1 d - 1/2 * f2 d) (fun d => 3/2 * f3 d));
    [|now apply (continuity_pt_scal f3)].
  apply (continuity_pt_minus (fun d => 3/2 * f1 d) (fun d => 1/2 * f2 d));
    [now apply (continuity_pt_scal f1)|now apply (continuity_pt_scal f2)].
Qed.

Lemma ncurve_continuous beta h :
  continuity_pt (fun d => fst (ncurve beta h d)) 0 /\ continuity_pt (fun d => snd (ncurve beta h d)) 0.
Proof.
  set (c k := INR k - 1 / 2).
  destruct (spinG_continuous beta h 1 (c 1%nat)) as [A1 B1], (spinG_continuous beta h 1 (c 2%nat)) as [A2 B2],
    (spinG_continuous beta h 0 (c 1%nat)) as [A3 B3], (spinG_continuous beta h 0 (c 2%nat)) as [A4 B4].
  split; [eapply continuity_pt_ext; [|exact (combine4' _ _ _ _ _ A1 A2 A3 A4)]|eapply continuity_pt_ext; [|exact (combine4' _ _ _ _ _ B1 B2 B3 B4)]];
    (intros d; unfold ncurve, c, four; cbv zeta;
    generalize (spinG false beta h 1 (beta - (INR 1 - 1 / 2) * d)), (spinG false beta h 1 (beta - (INR 2 - 1 / 2) * d)),
      (spinG false beta h 0 (beta - (INR 1 - 1 / 2) * d)), (spinG false beta h 0 (beta - (INR 2 - 1 / 2) * d));
    intros [? ?] [? ?] [? ?] [? ?]; cbn; field).
Qed.

Lemma free_occupation L beta fields i : List.Forall (fun l => (0 < l)%nat) L -> 0 < beta ->
  is_lim_seq (fun n => fst (occupation L (n + 2) (spinBareG false beta (n + 2) fields) i)) 1 /\
  is_lim_seq (fun n => snd (occupation L (n + 2) (spinBareG false beta (n + 2) fields) i))
             (/ cosh (beta * nth i fields 0 / 2)).
Proof.
  intros F B. set (h := nth i fields 0). destruct (ncurve_continuous beta h) as [C1 C2].
  assert (Z := ncurve_zero beta h B). split.
  - replace 1 with (fst (ncurve beta h 0)) by (now rewrite Z).
    eapply is_lim_seq_ext; [intros n; rewrite occ_curve by (assumption || lia); reflexivity|].
    exact (is_lim_seq_continuous (fun d => fst (ncurve beta h d)) _ 0 C1 (width_lim beta)).
  - replace (/ cosh (beta * h / 2)) with (snd (ncurve beta h 0)) by (now rewrite Z).
    eapply is_lim_seq_ext; [intros n; rewrite occ_curve by (assumption || lia); reflexivity|].
    exact (is_lim_seq_continuous (fun d => snd (ncurve beta h d)) _ 0 C2 (width_lim beta)).
Qed.

Lemma one_refuted : forall L beta fields i, List.Forall (fun l => (0 < l)%nat) L -> 0 < beta ->
  ~ is_lim_seq (fun n => snd (occupation L (n + 2) (spinBareG false beta (n + 2) fields) i)) 0.
Proof.
  intros L beta fields i F B H.
  destruct (free_occupation L beta fields i F B) as [_ K].
  apply is_lim_seq_unique in H. apply is_lim_seq_unique in K. rewrite H in K. inversion K as [E].
  assert (0 < / cosh (beta * nth i fields 0 / 2)).
  { apply Rinv_0_lt_compat. unfold cosh.
    pose proof (exp_pos (beta * nth i fields 0 / 2)). pose proof (exp_pos (- (beta * nth i fields 0 / 2))). lra. }
  lra.
Qed.
