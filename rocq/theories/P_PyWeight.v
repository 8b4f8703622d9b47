Require Import Reals List Arith Bool Lra Lia.
From Coquelicot Require Import Complex.
Require Import Verif.PyWeight Verif.PyWeightSpec Verif.P_Fourier.
Import ListNotations.
Local Open Scope R_scope.

Definition At (s : shape) (m n : nat) : R := matsubara s m * binTime s n.
Definition Aa (s : shape) (m n : nat) : R := At s m n - PI * INR m / INR (bins s).
Definition As (s : shape) (k r : nat) : R := kDotR s k r.

Lemma INR_nz n : (0 < n)%nat -> INR n <> 0.
Proof. intros. apply not_0_INR. lia. Qed.

Lemma At_form s : proper s -> forall m n,
  At s m n = 2 * PI * (INR m * INR n / INR (bins s)) + PI * INR m / INR (bins s)
   + (if isSymmetric s then 0 else PI * (INR n + 1/2) / INR (bins s)).
Proof.
  intros (_ & N & B) m n. apply INR_nz in N. unfold At, matsubara, binTime.
  destruct (isSymmetric s); field; split; lra.
Qed.

Lemma At_ortho s : proper s -> ortho (bins s) (At s) /\ ortho (bins s) (flip (At s)).
Proof.
  intros P. pose proof P as (_ & N & _).
  apply (time_ortho _ _ (fun m => PI * INR m / INR (bins s))
     (fun n => if isSymmetric s then 0 else PI * (INR n + 1/2) / INR (bins s))).
  - exact N.
  - intros. now apply At_form.
Qed.
Lemma Aa_ortho s : proper s -> ortho (bins s) (Aa s) /\ ortho (bins s) (flip (Aa s)).
Proof.
  intros P. pose proof P as (_ & N & _).
  apply (time_ortho _ _ (fun m => 0)
     (fun n => if isSymmetric s then 0 else PI * (INR n + 1/2) / INR (bins s))).
  - exact N.
  - intros. unfold Aa. rewrite At_form by exact P. ring.
Qed.
Lemma As_ortho s : proper s -> ortho (vol s) (As s) /\ ortho (vol s) (flip (As s)).
Proof. intros (F & _). exact (space_ortho (dims s) F). Qed.

(* the code's transforms as pairs fwd/bwd *)
Lemma spaceFwd_fwd s x i k t :
  spaceFwd s x i k t = fwd (vol s) (As s) (fun r => x i r t) k.
Proof. reflexivity. Qed.
Lemma spaceBack_bwd s x i r t :
  spaceBack s x i r t = bwd (vol s) (As s) (fun k => x i k t) r.
Proof.
  unfold spaceBack, ifftn, bwd, As, kDotR. f_equal. apply csum_ext. intros k _.
  now rewrite dot_sym.
Qed.

Lemma tau_mid s t : indexToTau s t = binTime s t.
Proof.
  unfold indexToTau, binTime. replace 0.5 with (1/2) by lra.
  unfold Rdiv. ring.
Qed.

Lemma timeFwd_fwd s x i v m : proper s -> hasTau s = true ->
  timeFwd s x i v m = fwd (bins s) (At s) (x i v) m.
Proof.
  intros P T. pose proof P as (_ & N & B). apply INR_nz in N.
  unfold timeFwd, extraPhase, fft, fwd, changeSymmetry. rewrite T. cbn [negb].
  rewrite <- csum_scal_r. apply csum_ext. intros n _.
  rewrite At_form by exact P.
  destruct (isSymmetric s); cbn [orb].
  - rewrite <- Cmult_assoc, <- cis_plus. f_equal. f_equal. field. exact N.
  - rewrite <- !Cmult_assoc, <- !cis_plus. f_equal. f_equal. rewrite tau_mid. unfold binTime.
    field. split; [exact N|lra].
Qed.
Lemma accuTimeFwd_fwd s x i v m : proper s -> hasTau s = true ->
  accuTimeFwd s x i v m = fwd (bins s) (Aa s) (x i v) m.
Proof.
  intros P T. pose proof P as (_ & N & B). apply INR_nz in N.
  unfold accuTimeFwd, fft, fwd, changeSymmetry. rewrite T. cbn [negb].
  apply csum_ext. intros n _. unfold Aa.
  rewrite At_form by exact P.
  destruct (isSymmetric s); cbn [orb].
  - f_equal. f_equal. field. exact N.
  - rewrite <- !Cmult_assoc, <- !cis_plus. f_equal. f_equal. rewrite tau_mid. unfold binTime.
    field. split; [exact N|lra].
Qed.
Lemma timeBack_bwd s x i v n : proper s -> hasTau s = true ->
  timeBack s x i v n = bwd (bins s) (At s) (x i v) n.
Proof.
  intros P T. pose proof P as (_ & N & B). apply INR_nz in N.
  unfold timeBack, extraPhase, ifft, bwd, changeSymmetry. rewrite T. cbn [negb].
  destruct (isSymmetric s) eqn:Sy; cbn [orb].
  - f_equal. apply csum_ext. intros m _.
    rewrite At_form, Sy by exact P.
    rewrite <- Cmult_assoc, <- cis_plus. f_equal. f_equal. field. exact N.
  - rewrite <- Cmult_assoc. f_equal. rewrite <- csum_scal_r.
    apply csum_ext. intros m _. rewrite At_form, Sy by exact P.
    rewrite <- !Cmult_assoc, <- !cis_plus. f_equal. f_equal. rewrite tau_mid. unfold binTime.
    field. split; [exact N|lra].
Qed.
Lemma accuTimeBack_bwd s x i v n : proper s -> hasTau s = true ->
  accuTimeBack s x i v n = bwd (bins s) (Aa s) (x i v) n.
Proof.
  intros P T. pose proof P as (_ & N & B). apply INR_nz in N.
  unfold accuTimeBack, ifft, bwd, changeSymmetry. rewrite T. cbn [negb].
  destruct (isSymmetric s) eqn:Sy; cbn [orb].
  - f_equal. apply csum_ext. intros m _. unfold Aa.
    rewrite At_form, Sy by exact P. f_equal. f_equal. field. exact N.
  - rewrite <- Cmult_assoc. f_equal. rewrite <- csum_scal_r.
    apply csum_ext. intros m _. unfold Aa. rewrite At_form, Sy by exact P.
    rewrite <- !Cmult_assoc, <- !cis_plus. f_equal. f_equal. rewrite tau_mid. unfold binTime.
    field. split; [exact N|lra].
Qed.

(* transforms of data that only use the time index, given by phases A *)
Definition TF s A (x : data) : data := fun i v m => fwd (bins s) A (x i v) m.
Definition TB s A (x : data) : data := fun i v m => bwd (bins s) A (x i v) m.

Lemma same_refl s x : same s x x.
Proof. now intros i v t _ _. Qed.
Lemma same_sym s x y : same s x y -> same s y x.
Proof. intros H i v t Hv Ht. now rewrite H. Qed.
Lemma same_trans s x y z : same s x y -> same s y z -> same s x z.
Proof. intros H K i v t Hv Ht. now rewrite H, K. Qed.

Lemma toK_same s x y : same s x y -> same s (toK s x) (toK s y).
Proof.
  intros H i k t Hk Ht. apply csum_ext. intros r Hr. now rewrite H.
Qed.
Lemma spaceBack_same s x y : same s x y -> same s (spaceBack s x) (spaceBack s y).
Proof.
  intros H i k t Hk Ht. rewrite !spaceBack_bwd. apply bwd_ext.
  intros r Hr. now rewrite H.
Qed.
Lemma TF_same s A x y : same s x y -> same s (TF s A x) (TF s A y).
Proof. intros H i k t Hk Ht. apply fwd_ext. intros r Hr. now rewrite H. Qed.
Lemma TB_same s A x y : same s x y -> same s (TB s A x) (TB s A y).
Proof. intros H i k t Hk Ht. apply bwd_ext. intros r Hr. now rewrite H. Qed.

Lemma back_toK s x : proper s -> same s (spaceBack s (toK s x)) x.
Proof.
  intros P i r t Hr _. rewrite spaceBack_bwd.
  exact (bwd_fwd (vol s) (As s) (fun r => x i r t) r (proj1 (As_ortho s P)) Hr).
Qed.
Lemma toK_back s x : proper s -> same s (toK s (spaceBack s x)) x.
Proof.
  intros P i k t Hk _.
  change (fwd (vol s) (As s) (fun r => spaceBack s x i r t) k = x i k t).
  rewrite (fwd_ext _ _ _ (bwd (vol s) (As s) (fun k => x i k t)))
    by (intros; apply spaceBack_bwd).
  exact (fwd_bwd (vol s) (As s) (fun k => x i k t) k (proj2 (As_ortho s P)) Hk).
Qed.
Lemma TB_TF s A x : ortho (bins s) A -> same s (TB s A (TF s A x)) x.
Proof. intros O i v t _ Ht. exact (bwd_fwd _ A (x i v) t O Ht). Qed.
Lemma TF_TB s A x : ortho (bins s) (flip A) -> same s (TF s A (TB s A x)) x.
Proof. intros O i v t _ Ht. exact (fwd_bwd _ A (x i v) t O Ht). Qed.

Lemma toK_TF s A x : same s (toK s (TF s A x)) (TF s A (toK s x)).
Proof.
  intros i k m _ _. unfold toK, TF, fwd.
  rewrite (csum_ext _ _ (fun r => csum (bins s) (fun n =>
     Cmult (Cmult (x i r n) (cis (- A m n))) (cis (- kDotR s k r)))))
    by (intros; now rewrite csum_scal_r).
  rewrite csum_swap. apply csum_ext. intros n _.
  rewrite <- csum_scal_r. apply csum_ext. intros. ring.
Qed.
Lemma toK_TB s A x : same s (toK s (TB s A x)) (TB s A (toK s x)).
Proof.
  intros i k n _ _. unfold toK, TB, bwd.
  rewrite (csum_ext _ _ (fun r => csum (bins s) (fun m =>
     Cmult (Cmult (RtoC (/ INR (bins s))) (Cmult (x i r m) (cis (A m n))))
           (cis (- kDotR s k r))))).
  2:{ intros r _. rewrite csum_scal_r, csum_scal. reflexivity. }
  rewrite csum_swap, <- csum_scal. apply csum_ext. intros m _.
  rewrite <- csum_scal_r, <- csum_scal. apply csum_ext. intros. ring.
Qed.

(* the four code transforms, with the case of no time dependence *)
Definition tF (s : shape) A (x : data) := if hasTau s then TF s A x else x.
Definition tB (s : shape) A (x : data) := if hasTau s then TB s A x else x.

Lemma timeFwd_tF s x : proper s -> forall i v m, timeFwd s x i v m = tF s (At s) x i v m.
Proof.
  intros P i v m. unfold tF. destruct (hasTau s) eqn:T.
  - now apply timeFwd_fwd.
  - unfold timeFwd. now rewrite T.
Qed.
Lemma timeBack_tB s x : proper s -> forall i v m, timeBack s x i v m = tB s (At s) x i v m.
Proof.
  intros P i v m. unfold tB. destruct (hasTau s) eqn:T.
  - now apply timeBack_bwd.
  - unfold timeBack. now rewrite T.
Qed.
Lemma accuFwd_tF s x : proper s -> forall i v m, accuTimeFwd s x i v m = tF s (Aa s) x i v m.
Proof.
  intros P i v m. unfold tF. destruct (hasTau s) eqn:T.
  - now apply accuTimeFwd_fwd.
  - unfold accuTimeFwd. now rewrite T.
Qed.
Lemma accuBack_tB s x : proper s -> forall i v m, accuTimeBack s x i v m = tB s (Aa s) x i v m.
Proof.
  intros P i v m. unfold tB. destruct (hasTau s) eqn:T.
  - now apply accuTimeBack_bwd.
  - unfold accuTimeBack. now rewrite T.
Qed.

Lemma tF_same s A x y : same s x y -> same s (tF s A x) (tF s A y).
Proof. unfold tF. destruct (hasTau s); [apply TF_same|auto]. Qed.
Lemma tB_same s A x y : same s x y -> same s (tB s A x) (tB s A y).
Proof. unfold tB. destruct (hasTau s); [apply TB_same|auto]. Qed.
Lemma tB_tF s A x : ortho (bins s) A -> same s (tB s A (tF s A x)) x.
Proof.
  unfold tB, tF. destruct (hasTau s); [apply TB_TF|intros; apply same_refl].
Qed.
Lemma tF_tB s A x : ortho (bins s) (flip A) -> same s (tF s A (tB s A x)) x.
Proof.
  unfold tB, tF. destruct (hasTau s); [apply TF_TB|intros; apply same_refl].
Qed.
Lemma toK_tF s A x : same s (toK s (tF s A x)) (tF s A (toK s x)).
Proof. unfold tF. destruct (hasTau s); [apply toK_TF|apply same_refl]. Qed.
Lemma toK_tB s A x : same s (toK s (tB s A x)) (tB s A (toK s x)).
Proof. unfold tB. destruct (hasTau s); [apply toK_TB|apply same_refl]. Qed.

(* a general pair of time transforms T (to W) and B (to T) that commute with
   toK and are inverse to each other *)
Record pair (s : shape) (F B : data -> data) : Prop := {
  p_F : forall x y, same s x y -> same s (F x) (F y);
  p_B : forall x y, same s x y -> same s (B x) (B y);
  p_BF : forall x, same s (B (F x)) x;
  p_FB : forall x, same s (F (B x)) x;
  p_KF : forall x, same s (toK s (F x)) (F (toK s x));
  p_KB : forall x, same s (toK s (B x)) (B (toK s x)) }.

Lemma pair_t s A F B : ortho (bins s) A -> ortho (bins s) (flip A) ->
  (forall x i v m, F x i v m = tF s A x i v m) ->
  (forall x i v m, B x i v m = tB s A x i v m) -> pair s F B.
Proof.
  intros O O' HF HB.
  assert (EF : forall x, same s (F x) (tF s A x)) by (intros x i v t _ _; apply HF).
  assert (EB : forall x, same s (B x) (tB s A x)) by (intros x i v t _ _; apply HB).
  assert (CF : forall x y, same s x y -> same s (F x) (F y)).
  { intros x y H. eapply same_trans; [apply EF|].
    eapply same_trans; [eapply tF_same; exact H|apply same_sym, EF]. }
  assert (CB : forall x y, same s x y -> same s (B x) (B y)).
  { intros x y H. eapply same_trans; [apply EB|].
    eapply same_trans; [eapply tB_same; exact H|apply same_sym, EB]. }
  split; auto; intros x.
  - eapply same_trans; [apply EB|].
    eapply same_trans; [apply tB_same, EF|]. now apply tB_tF.
  - eapply same_trans; [apply EF|].
    eapply same_trans; [apply tF_same, EB|]. now apply tF_tB.
  - eapply same_trans; [apply toK_same, EF|].
    eapply same_trans; [apply toK_tF|apply same_sym, EF].
  - eapply same_trans; [apply toK_same, EB|].
    eapply same_trans; [apply toK_tB|apply same_sym, EB].
Qed.

Lemma pair_data s : proper s -> pair s (timeFwd s) (timeBack s).
Proof.
  intros P. apply (pair_t s (At s)); try apply (At_ortho s P).
  - intros; now apply timeFwd_tF.
  - intros; now apply timeBack_tB.
Qed.
Lemma pair_accu s : proper s -> pair s (accuTimeFwd s) (accuTimeBack s).
Proof.
  intros P. apply (pair_t s (Aa s)); try apply (Aa_ortho s P).
  - intros; now apply accuFwd_tF.
  - intros; now apply accuBack_tB.
Qed.

(* data at domains (k,w) obtained from Z given at R and at home time domain h *)
Definition conv (F B : data -> data) (h w : bool) (Z : data) : data :=
  match h, w with
  | false, true => F Z
  | true, false => B Z
  | _, _ => Z
  end.
Definition at_ s F B h (k w : bool) Z : data :=
  if k then toK s (conv F B h w Z) else conv F B h w Z.

Lemma conv_same s F B h w x y : pair s F B -> same s x y ->
  same s (conv F B h w x) (conv F B h w y).
Proof. intros P H. destruct h, w; cbn; auto; [now apply (p_B s F B P)|now apply (p_F s F B P)]. Qed.

Lemma at_same s F B h k w x y : pair s F B -> same s x y ->
  same s (at_ s F B h k w x) (at_ s F B h k w y).
Proof.
  intros P H. unfold at_. destruct k; [apply toK_same|]; now apply conv_same.
Qed.

Lemma conv_step s F B h w w' Z : pair s F B ->
  same s (match w, w' with
          | true, false => B (conv F B h w Z)
          | false, true => F (conv F B h w Z)
          | _, _ => conv F B h w Z end) (conv F B h w' Z).
Proof.
  intros P. destruct h, w, w'; cbn; try apply same_refl;
    [apply (p_FB s F B P)|apply (p_BF s F B P)].
Qed.

Lemma fftWith_at s F B h rq x k w Z : proper s -> pair s F B ->
  same s x (at_ s F B h k w Z) ->
  exists x', fftWith (spaceFwd s) (spaceBack s) F B rq x k w
             = (x', asked (fst rq) k, asked (snd rq) w) /\
             same s x' (at_ s F B h (asked (fst rq) k) (asked (snd rq) w) Z).
Proof.
  intros P Q H. destruct rq as [sp tm]. unfold fftWith. cbn [fst snd].
  set (y := match sp, k with
            | Some false, true => (spaceBack s x, false)
            | Some true, false => (spaceFwd s x, true)
            | _, _ => (x, k) end).
  assert (Hy : snd y = asked sp k /\ same s (fst y) (at_ s F B h (asked sp k) w Z)).
  { unfold y. destruct sp as [[|]|], k; cbn [fst snd asked]; split;
      try reflexivity; try exact H.
    - change (spaceFwd s x) with (toK s x). now apply toK_same.
    - eapply same_trans; [apply spaceBack_same; exact H|].
      unfold at_. now apply back_toK. }
  destruct y as [y k']. cbn [fst snd] in Hy. destruct Hy as [-> Hy].
  set (K := asked sp k) in *.
  assert (St : forall w', match w, w' with
       | true, false => same s (B y) (at_ s F B h K w' Z)
       | false, true => same s (F y) (at_ s F B h K w' Z)
       | _, _ => same s y (at_ s F B h K w' Z) end).
  { intros w'. pose proof (conv_step s F B h w w' Z Q) as Cv.
    destruct w, w'; try exact Hy.
    - eapply same_trans; [apply (p_B s F B Q); exact Hy|].
      unfold at_. destruct K; [|exact Cv].
      eapply same_trans; [apply same_sym, (p_KB s F B Q)|]. now apply toK_same.
    - eapply same_trans; [apply (p_F s F B Q); exact Hy|].
      unfold at_. destruct K; [|exact Cv].
      eapply same_trans; [apply same_sym, (p_KF s F B Q)|]. now apply toK_same. }
  destruct tm as [[|]|], w; cbn [asked]; eexists; (split; [reflexivity|]);
    try exact Hy; [exact (St true)|exact (St false)].
Qed.

(* seenIn as a special case *)
Lemma toW_timeFwd s x : proper s -> hasTau s = true ->
  same s (toW s x) (timeFwd s x).
Proof. intros P T i v m _ _. now rewrite timeFwd_fwd. Qed.

Lemma seen_at s k w x : proper s ->
  same s (seenIn s k w x) (at_ s (timeFwd s) (timeBack s) false k w x).
Proof.
  intros P. unfold seenIn, at_, conv.
  destruct (hasTau s) eqn:T.
  - rewrite andb_true_r. destruct w.
    + destruct k.
      * eapply same_trans; [now apply toW_timeFwd|].
        apply same_sym, (p_KF s _ _ (pair_data s P)).
      * now apply toW_timeFwd.
    + destruct k; apply same_refl.
  - rewrite andb_false_r. assert (E : timeFwd s x = x) by (unfold timeFwd; now rewrite T).
    destruct w; rewrite ?E; destruct k; apply same_refl.
Qed.

Lemma fft_stands s rq p x : proper s -> standsFor s p x ->
  standsFor s (fftPlain s rq p) x /\
  pK (fftPlain s rq p) = asked (fst rq) (pK p) /\
  pW (fftPlain s rq p) = asked (snd rq) (pW p).
Proof.
  intros P H. unfold standsFor, fftPlain in *.
  assert (H' : same s (pData p)
     (at_ s (timeFwd s) (timeBack s) false (pK p) (pW p) x)).
  { eapply same_trans; [exact H|]. now apply seen_at. }
  destruct (fftWith_at s _ _ false rq _ _ _ x P (pair_data s P) H')
    as (x' & E & Sx). rewrite E. cbn [pData pK pW].
  split; [|split; reflexivity].
  eapply same_trans; [exact Sx|]. apply same_sym. now apply seen_at.
Qed.

Lemma stands_exists s p : proper s -> exists x, standsFor s p x.
Proof.
  intros P. destruct p as [d k w].
  pose (y := if w then timeBack s d else d).
  exists (if k then spaceBack s y else y).
  unfold standsFor; cbn [pData pK pW].
  eapply same_trans; [|apply same_sym; now apply seen_at].
  pose proof (pair_data s P) as Q. unfold at_, conv.
  destruct k.
  - assert (X : same s (toK s (spaceBack s y)) y) by now apply toK_back.
    destruct w.
    + apply same_sym. eapply same_trans; [apply (p_KF s _ _ Q)|].
      eapply same_trans; [apply (p_F s _ _ Q); exact X|].
      apply (p_FB s _ _ Q).
    + apply same_sym. exact X.
  - destruct w.
    + apply same_sym, (p_FB s _ _ Q).
    + apply same_refl.
Qed.

Lemma stands_unique s p x y : proper s ->
  standsFor s p x -> standsFor s p y -> same s x y.
Proof.
  intros P Hx Hy.
  destruct (fft_stands s (Some false, Some false) p x P Hx) as (Sx & K & W).
  destruct (fft_stands s (Some false, Some false) p y P Hy) as (Sy & _ & _).
  unfold standsFor in Sx, Sy. rewrite K, W in Sx, Sy. cbn in Sx, Sy.
  eapply same_trans; [apply same_sym; exact Sx|exact Sy].
Qed.
