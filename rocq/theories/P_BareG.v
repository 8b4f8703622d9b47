(** * Proofs for C138-C142. *)
Require Import Reals ZArith List Arith Bool Lra Lia Psatz Permutation.
From Coquelicot Require Complex.
Require Import Verif.FirstOrder Verif.PyIndex Verif.BareModel Verif.BareSpec Verif.BareG.
Require Import Verif.P_Bare Verif.P_Bare2 Verif.P_Bare3 Verif.P_Bare4.
Import ListNotations.
Import Coquelicot.Complex.
Local Open Scope R_scope.

(** ** Free spins *)

Definition sg (sp : nat) : R := if Nat.eqb sp 0 then 1 else -1.

Lemma mu_field beta h sp : (sp < 2)%nat -> spinMuField false beta h sp = (sg sp * h / 2, PI / 2 / beta).
Proof.
  intros H. unfold spinMuField, spinMu, Pauli, sg. destruct sp as [|[|sp]]; [| |lia]; cbn [nth Nat.eqb];
  apply injective_projections; cbn; unfold Rdiv; ring.
Qed.

Lemma e_mu beta h sp : 0 < beta -> (sp < 2)%nat ->
  cexp (Cmult (spinMuField false beta h sp) (RtoC beta)) = (0, exp (sg sp * (beta * h / 2))).
Proof.
  intros Hb Hs. rewrite mu_field by exact Hs. unfold cexp. cbn [fst snd Cmult RtoC].
  replace (sg sp * h / 2 * 0 + PI / 2 / beta * beta) with (PI / 2) by (field; lra).
  rewrite cos_PI2, sin_PI2.
  replace (sg sp * h / 2 * beta - PI / 2 / beta * 0) with (sg sp * (beta * h / 2)) by (unfold Rdiv; ring).
  apply injective_projections; cbn; ring.
Qed.

Lemma den_nz x : Cplus (RtoC 1) (0, x) <> RtoC 0.
Proof. intros E. injection E as E _. cbn in E. lra. Qed.

Lemma sum_law beta h sp : 0 < beta -> (sp < 2)%nat ->
  Cplus (spinG false beta h sp 0) (spinG false beta h sp beta) = RtoC 1.
Proof.
  intros Hb Hs. unfold spinG. cbv zeta. rewrite (e_mu beta h sp Hb Hs).
  assert (E0 : cexp (Cmult (spinMuField false beta h sp) (RtoC 0)) = RtoC 1).
  { rewrite mu_field by exact Hs. unfold cexp. cbn [fst snd Cmult RtoC].
    replace (sg sp * h / 2 * 0 - PI / 2 / beta * 0) with 0 by ring.
    replace (sg sp * h / 2 * 0 + PI / 2 / beta * 0) with 0 by ring.
    rewrite exp_0, cos_0, sin_0. apply injective_projections; cbn; ring. }
  rewrite E0. set (x := exp (sg sp * (beta * h / 2))). field. apply den_nz.
Qed.

Lemma cexp_plus z w : cexp (Cplus z w) = Cmult (cexp z) (cexp w).
Proof.
  unfold cexp. cbn [fst snd Cplus]. rewrite exp_plus, cos_plus, sin_plus.
  apply injective_projections; cbn; ring.
Qed.

Lemma step_law beta h sp tau s :
  spinG false beta h sp (tau + s)
  = Cmult (cexp (Cmult (spinMuField false beta h sp) (RtoC s))) (spinG false beta h sp tau).
Proof.
  unfold spinG. cbv zeta. set (mu := spinMuField false beta h sp).
  replace (Cmult mu (RtoC (tau + s))) with (Cplus (Cmult mu (RtoC s)) (Cmult mu (RtoC tau))).
  - rewrite cexp_plus. unfold Cdiv. ring.
  - rewrite RtoC_plus. ring.
Qed.

Lemma projection_law beta h : 0 < beta ->
  Cplus (RtoC 1) (Cmult (cexp (Cmult (spinMuField false beta h 0) (RtoC beta)))
                        (cexp (Cmult (spinMuField false beta h 1) (RtoC beta)))) = RtoC 0.
Proof.
  intros Hb. rewrite !e_mu by (assumption || lia). unfold sg. cbn [Nat.eqb].
  replace (-1 * (beta * h / 2)) with (- (1 * (beta * h / 2))) by ring. rewrite exp_Ropp.
  pose proof (exp_pos (1 * (beta * h / 2))). apply injective_projections; cbn; field; lra.
Qed.

Lemma tanh_law beta h : 0 < beta ->
  Cminus (spinG false beta h 0 beta) (spinG false beta h 1 beta) = RtoC (tanh (beta * h / 2)).
Proof.
  intros Hb. unfold spinG. cbv zeta. rewrite !e_mu by (assumption || lia). unfold sg. cbn [Nat.eqb].
  replace (1 * (beta * h / 2)) with (beta * h / 2) by ring.
  replace (-1 * (beta * h / 2)) with (- (beta * h / 2)) by ring.
  unfold tanh, sinh, cosh. rewrite exp_Ropp. set (x := exp (beta * h / 2)).
  assert (Hx : 0 < x) by apply exp_pos.
  unfold Cdiv, Cminus, Cinv. apply injective_projections; cbn; field; repeat split; nra.
Qed.

Lemma imW_refuted : exists beta, 0 < beta /\
  Cplus (RtoC 1) (Cmult (cexp (Cmult (spinMuField true beta 0 0) (RtoC beta)))
                        (cexp (Cmult (spinMuField true beta 0 1) (RtoC beta)))) <> RtoC 0.
Proof.
  exists 1. split; [lra|]. intros E.
  assert (R : forall sp, (sp < 2)%nat -> cexp (Cmult (spinMuField true 1 0 sp) (RtoC 1)) = RtoC (exp (PI / 4 / 1))).
  { intros sp H. replace (Cmult (spinMuField true 1 0 sp) (RtoC 1)) with (RtoC (PI / 4 / 1)).
    - unfold cexp. cbn [fst snd RtoC]. rewrite cos_0, sin_0. apply injective_projections; cbn; ring.
    - unfold spinMuField, spinMu, Pauli. destruct sp as [|[|sp]]; [| |lia]; cbn [nth];
      apply injective_projections; cbn; unfold Rdiv; ring. }
  rewrite !R in E by lia. apply (f_equal fst) in E. cbn in E. pose proof (exp_pos (PI / 4 / 1)). nra.
Qed.

(** ** The kernel of fermions *)

Lemma kernel_form w t beta : 0 < beta ->
  exp (- (beta * w / 2) * (2 * t / beta - 1)) / (2 * cosh' (beta * w / 2)) = exp (- w * t) / (1 + exp (- beta * w)).
Proof.
  intros Hb. unfold cosh'. set (x := beta * w / 2).
  replace (- x * (2 * t / beta - 1)) with (- w * t + x) by (unfold x; field; lra).
  replace (- beta * w) with (- x + - x) by (unfold x; field).
  rewrite !exp_plus, exp_Ropp. pose proof (exp_pos x). field. split; nra.
Qed.

Lemma kernel_law w t beta : 0 < beta ->
  let exact := exp (- w * t) / (1 + exp (- beta * w)) in
  (Rabs (beta * w / 2) <= 100 -> FermiKernel w t beta = exact) /\
  exact <= FermiKernel w t beta <= exact * (1 + exp (-200)).
Proof.
  intros Hb exact. assert (Pe : 0 < exact).
  { unfold exact. apply Rdiv_lt_0_compat; [apply exp_pos|]. pose proof (exp_pos (- beta * w)). lra. }
  pose proof (exp_pos (-200)) as P200.
  unfold FermiKernel. cbv zeta. set (x := beta * w / 2).
  destruct (Rlt_dec 100 x) as [H1|H1]; [|destruct (Rlt_dec x (-100)) as [H2|H2]].
  - split; [intros H; unfold Rabs in H; destruct (Rcase_abs x); lra|].
    assert (E : exp (- x * (2 * t / beta - 1 + 1)) = exact * (1 + exp (- beta * w))).
    { unfold exact. replace (- x * (2 * t / beta - 1 + 1)) with (- w * t) by (unfold x; field; lra).
      field. pose proof (exp_pos (- beta * w)). lra. }
    rewrite E. replace (- beta * w) with (- 2 * x) by (unfold x; field).
    pose proof (exp_pos (- 2 * x)). assert (exp (- 2 * x) <= exp (-200)).
    { left. apply exp_increasing. lra. }
    split; nra.
  - split; [intros H; unfold Rabs in H; destruct (Rcase_abs x); lra|].
    assert (E : exp (x * (1 - (2 * t / beta - 1))) = exact * (1 + exp (beta * w))).
    { unfold exact. replace (x * (1 - (2 * t / beta - 1))) with (beta * w + - w * t) by (unfold x; field; lra).
      rewrite exp_plus. replace (- beta * w) with (- (beta * w)) by ring. rewrite exp_Ropp.
      pose proof (exp_pos (beta * w)). field. nra. }
    rewrite E. replace (beta * w) with (2 * x) by (unfold x; field).
    pose proof (exp_pos (2 * x)). assert (exp (2 * x) <= exp (-200)).
    { left. apply exp_increasing. lra. }
    split; nra.
  - unfold x. rewrite kernel_form by exact Hb. fold exact. split; [reflexivity|]. split; nra.
Qed.

Lemma exp_gt1 x : 0 < x -> 1 < exp x.
Proof. intros H. pose proof (exp_increasing 0 x H) as E. now rewrite exp_0 in E. Qed.

Lemma sign_refuted : exists beta h mu, 0 < beta /\ 0 < h /\
  FermiKernel (localTerm mu h 0) beta beta < FermiKernel (localTerm mu h 1) beta beta /\
  fst (spinG false beta h 1 beta) < fst (spinG false beta h 0 beta).
Proof.
  exists 1, 1, 0. split; [lra|]. split; [lra|]. unfold localTerm. cbn [Nat.eqb]. split.
  - destruct (kernel_law (- 0 + 1) 1 1 ltac:(lra)) as [K1 _]. destruct (kernel_law (- 0 - 1) 1 1 ltac:(lra)) as [K2 _].
    rewrite K1, K2 by (apply Rabs_le; lra).
    replace (- (- 0 + 1) * 1) with (- (1)) by ring. replace (- (1) * (- 0 + 1)) with (- (1)) by ring.
    replace (- (- 0 - 1) * 1) with 1 by ring. replace (- (1) * (- 0 - 1)) with 1 by ring.
    rewrite exp_Ropp. assert (1 < exp 1) by (apply exp_gt1; lra).
    set (e := exp 1) in *. assert (E1 : / e / (1 + / e) = 1 / (e + 1)) by (field; lra).
    assert (E2 : e / (1 + e) = 1 - 1 / (e + 1)) by (field; lra). rewrite E1, E2.
    assert (1 / (e + 1) < 1 / 2) by (apply Rmult_lt_compat_l; [lra|apply Rinv_lt_contravar; lra]). lra.
  - pose proof (tanh_law 1 1 ltac:(lra)) as T.
    assert (F : fst (spinG false 1 1 0 1) - fst (spinG false 1 1 1 1) = tanh (1 * 1 / 2)).
    { pose proof (f_equal fst T) as F. cbn [fst Cminus Cplus Copp RtoC] in F. unfold Rminus. exact F. }
    assert (P : 0 < tanh (1 * 1 / 2)).
    { unfold tanh, sinh, cosh. rewrite exp_Ropp. assert (1 < exp (1 * 1 / 2)) by (apply exp_gt1; lra).
      set (e := exp (1 * 1 / 2)) in *. assert (/ e < 1) by (rewrite <- Rinv_1; apply Rinv_lt_contravar; lra).
      assert (0 < / e) by (apply Rinv_0_lt_compat; lra). apply Rdiv_lt_0_compat; lra. }
    lra.
Qed.
