(** * Proofs about the observables *)
Require Import Reals Lra Lia List Arith Bool.
From Coquelicot Require Import Coquelicot.
Require Import Verif.PyWeight Verif.FirstOrder Verif.BareG Verif.P_Fourier Verif.P_BareG Verif.Measure.
Import ListNotations.
Local Open Scope R_scope.

Lemma dot_zero v n : dotR v (repeat 0 n) = 0.
Proof.
  unfold dotR. revert v. induction n; intros [|x v]; cbn; auto. rewrite IHn. ring.
Qed.

Lemma cexp_zero : cexp (0, - 0) = RtoC 1.
Proof. unfold cexp. cbn. rewrite Ropp_0, exp_0, cos_0, sin_0. apply injective_projections; cbn; ring. Qed.

Lemma uniform_law beta bins nsub vol vec dim X :
  UnifChi beta bins nsub vol vec dim X =
  Cdiv (Cmult (csum nsub (fun a => csum vol (fun r => csum nsub (fun b => csum bins (fun t => X a b r t)))))
              (RtoC (beta / INR bins))) (RtoC (INR nsub)).
Proof.
  unfold UnifChi, measured, fourier, first. f_equal. rewrite <- csum_scal_r. apply csum_ext; intros a _.
  rewrite <- csum_scal_r. apply csum_ext; intros r _. rewrite <- csum_scal_r. apply csum_ext; intros b _.
  rewrite dot_zero, cexp_zero. now rewrite Cmult_1_r.
Qed.

Lemma csum_const n z : csum n (fun _ => z) = Cmult (RtoC (INR n)) z.
Proof.
  induction n. { cbn. apply injective_projections; cbn; ring. }
  rewrite S_INR. cbn [csum]. rewrite IHn. apply injective_projections; cbn; ring.
Qed.

Lemma fourier_scal nsub vol vec D z K :
  fourier nsub vol vec (fun a b r => Cmult z (D a b r)) K = Cmult z (fourier nsub vol vec D K).
Proof.
  unfold fourier, Cdiv. rewrite Cmult_assoc. f_equal. rewrite <- csum_scal. apply csum_ext; intros a _.
  rewrite <- csum_scal. apply csum_ext; intros r _. rewrite <- csum_scal. apply csum_ext; intros b _.
  now rewrite Cmult_assoc.
Qed.
Lemma fourier_ext nsub vol vec D E K : (forall a b r, D a b r = E a b r) ->
  fourier nsub vol vec D K = fourier nsub vol vec E K.
Proof.
  intros H. unfold fourier. f_equal. apply csum_ext; intros a _. apply csum_ext; intros r _.
  apply csum_ext; intros b _. now rewrite H.
Qed.

Lemma constant_law beta bins nsub vol vec X K : (forall a b r t, X a b r t = X a b r 0%nat) ->
  measured beta bins nsub vol vec W X K = Cmult (RtoC (INR bins)) (measured beta bins nsub vol vec T X K).
Proof.
  intros H. unfold measured. rewrite <- fourier_scal. apply fourier_ext. intros a b r. unfold first.
  rewrite (csum_ext bins _ (fun _ => X a b r 0%nat)) by (intros; apply H).
  rewrite csum_const. now rewrite Cmult_assoc.
Qed.

Lemma stag_refuted : exists beta bins nsub vol vec dim X, 0 < beta /\ (0 < bins)%nat /\
  StagChi beta bins nsub vol vec dim X <> measured beta bins nsub vol vec W X (repeat PI dim).
Proof.
  exists 1, 2%nat, 1%nat, 1%nat, (fun _ _ _ => [0]), 1%nat, (fun _ _ _ _ => RtoC 1).
  split; [lra|]. split; [lia|]. intros E. rewrite constant_law in E by reflexivity.
  unfold StagChi in E. set (z := measured 1 2 1 1 (fun _ _ _ => [0]) T (fun _ _ _ _ => RtoC 1) (repeat PI 1)) in E.
  assert (Z : z = RtoC (1 / 2)).
  { unfold z, measured, fourier, first, dotR. cbn [csum repeat combine map fold_right fst snd].
    replace (- (0 * PI + 0)) with (- 0) by ring. rewrite cexp_zero. cbn [INR].
    unfold Cdiv, Cinv. apply injective_projections; cbn; field. }
  rewrite Z in E. apply (f_equal fst) in E. cbn in E. lra.
Qed.

(** ** The magnetisation *)
Lemma bin_time beta bins k : (0 < bins)%nat -> (k <= bins)%nat ->
  (INR (bins - k) + 1 / 2) * (beta / INR bins) = beta - (INR k - 1 / 2) * (beta / INR bins).
Proof.
  intros H K. rewrite minus_INR by auto. apply lt_INR in H. cbn [INR] in H. field. lra.
Qed.

Lemma affine_law beta bins G i (a b : nat -> C) : (2 <= bins)%nat ->
  (forall s t, (s < 2)%nat -> (t < bins)%nat ->
     G s i s i 0%nat t = Cplus (a s) (Cmult (b s) (RtoC ((INR t + 1/2) * (beta / INR bins))))) ->
  Sz bins G i = Cmult (RtoC (1/2)) (Cminus (Cplus (a 0%nat) (Cmult (b 0%nat) (RtoC beta)))
                                           (Cplus (a 1%nat) (Cmult (b 1%nat) (RtoC beta)))).
Proof.
  intros B H. unfold Sz. cbv zeta. rewrite !H by lia. rewrite !bin_time by lia.
  change (INR 1) with 1. change (INR 2) with (1 + 1).
  generalize (beta / INR bins). intros d. destruct (a 0%nat), (a 1%nat), (b 0%nat), (b 1%nat).
  apply injective_projections; cbn; field.
Qed.

(** The same in terms of the width d of a bin, for the bare table *)
Definition curve (beta h : R) (d : R) : C :=
  let g s k := spinG false beta h s (beta - (INR k - 1 / 2) * d) in
  Cmult (RtoC (-1/2))
    (Cplus (Cminus (Cminus (Cmult (RtoC (3/2)) (g 1 1)%nat) (Cmult (RtoC (1/2)) (g 1 2)%nat))
                   (Cmult (RtoC (3/2)) (g 0 1)%nat))
           (Cmult (RtoC (1/2)) (g 0 2)%nat)).

Lemma Sz_curve beta fields i bins : (2 <= bins)%nat ->
  Sz bins (spinBareG false beta bins fields) i = curve beta (nth i fields 0) (beta / INR bins).
Proof.
  intros B. unfold Sz, curve, spinBareG. cbv zeta. rewrite !Nat.eqb_refl. cbn [andb Nat.ltb Nat.leb].
  now rewrite !bin_time by lia.
Qed.

Lemma curve_zero beta h : 0 < beta -> curve beta h 0 = RtoC (1 / 2 * tanh (beta * h / 2)).
Proof.
  intros B. unfold curve. cbv zeta. rewrite !Rmult_0_r, !Rminus_0_r.
  assert (L := tanh_law beta h B). revert L. generalize (spinG false beta h 0 beta) (spinG false beta h 1 beta).
  generalize (tanh (beta * h / 2)). intros t [x y] [u v] L.
  assert (L1 := f_equal fst L). assert (L2 := f_equal snd L). cbn in L1, L2.
  apply injective_projections; cbn; lra.
Qed.

Lemma spinG_split beta h s : exists p q x y,
  forall tau, spinG false beta h s tau =
    (exp (p * tau) * cos (q * tau) * x - exp (p * tau) * sin (q * tau) * y,
     exp (p * tau) * cos (q * tau) * y + exp (p * tau) * sin (q * tau) * x).
Proof.
  unfold spinG. cbv zeta. generalize (spinMuField false beta h s). intros [p q].
  exists p, q. destruct (Cinv (Cplus (RtoC 1) (cexp (Cmult (p, q) (RtoC beta))))) as [x y] eqn:E.
  exists x, y. intros tau. unfold Cdiv. rewrite E. unfold cexp. cbn [fst snd Cmult RtoC].
  replace (p * tau - q * 0) with (p * tau) by ring. replace (p * 0 + q * tau) with (q * tau) by ring.
  apply injective_projections; cbn; ring.
Qed.

Lemma spinG_continuous beta h s c :
  continuity_pt (fun d => fst (spinG false beta h s (beta - c * d))) 0 /\
  continuity_pt (fun d => snd (spinG false beta h s (beta - c * d))) 0.
Proof.
  destruct (spinG_split beta h s) as (p & q & x & y & G).
  split; eapply continuity_pt_ext; try (intros d; rewrite G; cbn [fst snd]; reflexivity);
    match goal with |- continuity_pt ?f ?z => apply continuity_pt_filterlim; apply (ex_derive_continuous f z) end;
    auto_derive; auto.
Qed.

Lemma combine4 f1 f2 f3 f4 x : continuity_pt f1 x -> continuity_pt f2 x -> continuity_pt f3 x -> continuity_pt f4 x ->
  continuity_pt (fun d => -1/2 * (3/2 * f1 d - 1/2 * f2 d - 3/2 * f3 d + 1/2 * f4 d)) x.
Proof.
  intros. apply (continuity_pt_scal (fun d => 3/2 * f1 d - 1/2 * f2 d - 3/2 * f3 d + 1/2 * f4 d)).
  apply (continuity_pt_plus (fun d => 3/2 * f1 d - 1/2 * f2 d - 3/2 * f3 d) (fun d => 1/2 * f4 d));
    [|now apply (continuity_pt_scal f4)].
  apply (continuity_pt_minus (fun d => 3/2 * f1 d - 1/2 * f2 d) (fun d => 3/2 * f3 d));
    [|now apply (continuity_pt_scal f3)].
  apply (continuity_pt_minus (fun d => 3/2 * f1 d) (fun d => 1/2 * f2 d));
    [now apply (continuity_pt_scal f1)|now apply (continuity_pt_scal f2)].
Qed.

Lemma curve_continuous beta h :
  continuity_pt (fun d => fst (curve beta h d)) 0 /\ continuity_pt (fun d => snd (curve beta h d)) 0.
Proof.
  set (c k := INR k - 1 / 2).
  destruct (spinG_continuous beta h 1 (c 1%nat)) as [A1 B1], (spinG_continuous beta h 1 (c 2%nat)) as [A2 B2],
    (spinG_continuous beta h 0 (c 1%nat)) as [A3 B3], (spinG_continuous beta h 0 (c 2%nat)) as [A4 B4].
  split; [eapply continuity_pt_ext; [|exact (combine4 _ _ _ _ _ A1 A2 A3 A4)]|eapply continuity_pt_ext; [|exact (combine4 _ _ _ _ _ B1 B2 B3 B4)]];
    (intros d; unfold curve, c; cbv zeta;
    generalize (spinG false beta h 1 (beta - (INR 1 - 1 / 2) * d)), (spinG false beta h 1 (beta - (INR 2 - 1 / 2) * d)),
      (spinG false beta h 0 (beta - (INR 1 - 1 / 2) * d)), (spinG false beta h 0 (beta - (INR 2 - 1 / 2) * d));
    intros [? ?] [? ?] [? ?] [? ?]; cbn; field).
Qed.

Lemma width_lim beta : is_lim_seq (fun n => beta / INR (n + 2)) 0.
Proof.
  apply (is_lim_seq_incr_n (fun n => beta / INR n) 2). unfold Rdiv.
  replace (Finite 0) with (Rbar_mult beta (Finite 0)) by (cbn; f_equal; ring).
  apply is_lim_seq_scal_l. replace (Finite 0) with (Rbar_inv p_infty) by reflexivity.
  apply is_lim_seq_inv; [apply is_lim_seq_INR|discriminate].
Qed.

Lemma free_spin beta fields i : 0 < beta ->
  is_lim_seq (fun n => fst (Sz (n + 2) (spinBareG false beta (n + 2) fields) i)) (1 / 2 * tanh (beta * nth i fields 0 / 2)) /\
  is_lim_seq (fun n => snd (Sz (n + 2) (spinBareG false beta (n + 2) fields) i)) 0.
Proof.
  intros B. set (h := nth i fields 0). destruct (curve_continuous beta h) as [C1 C2].
  assert (Z := curve_zero beta h B). split.
  - replace (1 / 2 * tanh (beta * h / 2)) with (fst (curve beta h 0)) by (now rewrite Z).
    eapply is_lim_seq_ext; [intros n; rewrite Sz_curve by lia; reflexivity|].
    exact (is_lim_seq_continuous (fun d => fst (curve beta h d)) _ 0 C1 (width_lim beta)).
  - replace 0 with (snd (curve beta h 0)) by (now rewrite Z).
    eapply is_lim_seq_ext; [intros n; rewrite Sz_curve by lia; reflexivity|].
    exact (is_lim_seq_continuous (fun d => snd (curve beta h d)) _ 0 C2 (width_lim beta)).
Qed.

(** The static susceptibility is the sum over the bins of the transforms at each time. *)
Lemma fourier_plus nsub vol vec D E K :
  fourier nsub vol vec (fun a b r => Cplus (D a b r) (E a b r)) K =
  Cplus (fourier nsub vol vec D K) (fourier nsub vol vec E K).
Proof.
  unfold fourier, Cdiv. rewrite <- Cmult_plus_distr_r. f_equal. rewrite <- csum_plus. apply csum_ext; intros a _.
  rewrite <- csum_plus. apply csum_ext; intros r _. rewrite <- csum_plus. apply csum_ext; intros b _.
  apply Cmult_plus_distr_r.
Qed.
Lemma fourier_zero nsub vol vec K : fourier nsub vol vec (fun _ _ _ => RtoC 0) K = RtoC 0.
Proof.
  assert (H := fourier_scal nsub vol vec (fun _ _ _ => RtoC 0) (RtoC 0) K).
  rewrite Cmult_0_l in H. transitivity (fourier nsub vol vec (fun _ _ _ => Cmult (RtoC 0) (RtoC 0)) K); [|exact H].
  apply fourier_ext. intros. symmetry. apply Cmult_0_l.
Qed.
Lemma fourier_sum nsub vol vec (X : chi) n K :
  fourier nsub vol vec (fun a b r => csum n (fun t => X a b r t)) K =
  csum n (fun t => fourier nsub vol vec (fun a b r => X a b r t) K).
Proof. induction n; cbn [csum]. { apply fourier_zero. } now rewrite fourier_plus, IHn. Qed.

Lemma static_law beta bins nsub vol vec X K :
  measured beta bins nsub vol vec W X K =
  Cmult (RtoC (beta / INR bins)) (csum bins (fun t => fourier nsub vol vec (fun a b r => X a b r t) K)).
Proof.
  rewrite <- fourier_sum, <- fourier_scal. unfold measured, first. apply fourier_ext. intros. apply Cmult_comm.
Qed.
Lemma equal_time_law beta bins nsub vol vec X K :
  measured beta bins nsub vol vec T X K =
  Cmult (RtoC (beta / INR bins)) (fourier nsub vol vec (fun a b r => X a b r 0%nat) K).
Proof. rewrite <- fourier_scal. unfold measured, first. apply fourier_ext. intros. apply Cmult_comm. Qed.

Lemma density_law beta bins nsub vol vec dim X : 0 < beta -> (0 < bins)%nat -> (0 < nsub)%nat -> (0 < vol)%nat ->
  StagMag2 beta bins nsub vol vec dim X =
  Cdiv (fourier nsub vol vec (fun a b r => X a b r 0%nat) (repeat PI dim)) (RtoC (INR bins * INR vol * INR nsub)).
Proof.
  intros Hb Hn Hs Hv. unfold StagMag2, StagChi. rewrite equal_time_law.
  apply lt_INR in Hn, Hs, Hv. cbn [INR] in Hn, Hs, Hv.
  generalize (INR bins) (INR nsub) (INR vol) (fourier nsub vol vec (fun a b r => X a b r 0%nat) (repeat PI dim)) Hn Hs Hv.
  intros n m v [x y] Pn Pm Pv. unfold Cdiv, Cinv. apply injective_projections; cbn; field; repeat split; nra.
Qed.

(** One element of the table is a plane wave. *)
Lemma csum_one n k f : (k < n)%nat -> (forall i, i <> k -> f i = RtoC 0) -> csum n f = f k.
Proof.
  intros H Z. induction n; [lia|]. cbn [csum]. destruct (Nat.eq_dec k n) as [->|N].
  - assert (E : forall m, (m <= n)%nat -> csum m f = RtoC 0).
    { induction m; intros L; cbn [csum]; auto. rewrite IHm, Z by lia. apply Cplus_0_l. }
    rewrite E by lia. apply Cplus_0_l.
  - rewrite IHn, (Z n) by lia. apply Cplus_0_r.
Qed.

Definition element (a0 b0 r0 a b r : nat) : C :=
  if Nat.eqb a a0 && Nat.eqb b b0 && Nat.eqb r r0 then RtoC 1 else RtoC 0.

Lemma element_wave nsub vol vec a0 b0 r0 K : (a0 < nsub)%nat -> (b0 < nsub)%nat -> (r0 < vol)%nat ->
  fourier nsub vol vec (element a0 b0 r0) K =
  (cos (dotR (vec a0 b0 r0) K) / INR nsub, - sin (dotR (vec a0 b0 r0) K) / INR nsub).
Proof.
  intros A B R. unfold fourier.
  assert (O : forall a b r, (a <> a0 \/ b <> b0 \/ r <> r0) ->
    Cmult (element a0 b0 r0 a b r) (cexp (0, - dotR (vec a b r) K)) = RtoC 0).
  { intros a b r H. unfold element.
    destruct (Nat.eqb_spec a a0), (Nat.eqb_spec b b0), (Nat.eqb_spec r r0); cbn [andb]; try apply Cmult_0_l. lia. }
  rewrite (csum_one nsub a0); auto.
  - rewrite (csum_one vol r0); auto.
    + rewrite (csum_one nsub b0); auto.
      unfold element. rewrite !Nat.eqb_refl. cbn [andb]. apply lt_INR in A. pose proof (pos_INR a0).
      unfold cexp. cbn [fst snd]. rewrite exp_0, cos_neg, sin_neg. unfold Cdiv, Cinv.
      apply injective_projections; cbn; field; lra.
    + intros r H. rewrite (csum_one nsub b0); auto.
  - intros a H. rewrite (csum_one vol r0); auto.
    + rewrite (csum_one nsub b0); auto.
    + intros r H'. rewrite (csum_one nsub b0); auto.
Qed.
