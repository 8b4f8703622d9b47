Require Import Reals List Arith Bool Lra Lia.
From Coquelicot Require Import Complex.
Require Import Verif.PyWeight Verif.PyWeightSpec Verif.P_Fourier Verif.P_PyWeight.
Import ListNotations.
Local Open Scope R_scope.

(* linear maps of data *)
Definition linear (s : shape) (f : data -> data) : Prop :=
  (forall x y r, same s (f (dataAdd x (dataScale r y)))
                        (dataAdd (f x) (dataScale r (f y)))) /\
  same s (f dataZero) dataZero.

Lemma linear_toK s : linear s (toK s).
Proof.
  split.
  - intros x y r i k t _ _. unfold toK, dataAdd, dataScale.
    rewrite <- csum_scal, <- csum_plus. apply csum_ext. intros. ring.
  - intros i k t _ _. unfold toK, dataZero.
    rewrite (csum_ext _ _ (fun _ => RtoC 0)) by (intros; ring). apply csum_zero.
Qed.
Lemma linear_tF s A : linear s (tF s A).
Proof.
  unfold tF. destruct (hasTau s); [|split; intros; apply same_refl].
  split.
  - intros x y r i k t _ _. unfold TF, fwd, dataAdd, dataScale.
    rewrite <- csum_scal, <- csum_plus. apply csum_ext. intros. ring.
  - intros i k t _ _. unfold TF, fwd, dataZero.
    rewrite (csum_ext _ _ (fun _ => RtoC 0)) by (intros; ring). apply csum_zero.
Qed.
Lemma add_same s x x' y y' r : same s x x' -> same s y y' ->
  same s (dataAdd x (dataScale r y)) (dataAdd x' (dataScale r y')).
Proof.
  intros H K i v t Hv Ht. unfold dataAdd, dataScale. now rewrite H, K.
Qed.
Lemma scale_same s x y r : same s x y -> same s (dataScale r x) (dataScale r y).
Proof. intros H i v t Hv Ht. unfold dataScale. now rewrite H. Qed.

(* seen in domains k, w by the data transforms *)
Notation view s k w := (at_ s (timeFwd s) (timeBack s) false k w).

Lemma linear_timeFwd s : proper s -> linear s (timeFwd s).
Proof.
  intros P. destruct (linear_tF s (At s)) as [L Z].
  assert (E : forall x, same s (timeFwd s x) (tF s (At s) x))
    by (intros x i v t _ _; now apply timeFwd_tF).
  split.
  - intros x y r. eapply same_trans; [apply E|].
    eapply same_trans; [apply L|]. apply same_sym. now apply add_same.
  - eapply same_trans; [apply E|exact Z].
Qed.

Lemma linear_view s k w : proper s -> linear s (view s k w).
Proof.
  intros P. pose proof (linear_timeFwd s P) as [TL TZ].
  pose proof (linear_toK s) as [KL KZ].
  unfold at_, conv. split.
  - intros x y r. destruct k, w; try apply same_refl.
    + eapply same_trans; [apply toK_same, TL|]. apply KL.
    + apply KL.
    + apply TL.
  - destruct k, w; try apply same_refl; try assumption.
    eapply same_trans; [apply toK_same, TZ|exact KZ].
Qed.

Lemma scale_as_add r x : forall i v t,
  dataAdd dataZero (dataScale r x) i v t = dataScale r x i v t.
Proof. intros. unfold dataAdd, dataZero. ring. Qed.

Lemma view_same s k w x y : proper s -> same s x y ->
  same s (view s k w x) (view s k w y).
Proof. intros P H. apply at_same; [now apply pair_data|exact H]. Qed.

Lemma view_scale s k w r x : proper s ->
  same s (view s k w (dataScale r x)) (dataScale r (view s k w x)).
Proof.
  intros P. destruct (linear_view s k w P) as [L Z].
  eapply same_trans.
  - apply view_same; [exact P|]. intros i v t _ _. symmetry. apply scale_as_add.
  - eapply same_trans; [apply L|]. intros i v t Hv Ht.
    unfold dataAdd. rewrite Z by assumption. unfold dataZero. ring.
Qed.

Lemma total_cons r x b : forall i v t,
  total ((r, x) :: b) i v t = dataAdd (total b) (dataScale r x) i v t.
Proof. intros. unfold total, dataAdd, dataScale. cbn. ring. Qed.

Lemma view_cons s k w r x b : proper s ->
  same s (view s k w (total ((r, x) :: b)))
         (dataAdd (view s k w (total b)) (dataScale r (view s k w x))).
Proof.
  intros P. destruct (linear_view s k w P) as [L _].
  eapply same_trans; [apply view_same; [exact P|]|apply L].
  intros i v t _ _. apply total_cons.
Qed.

(* AccuData: kept in the home time domain, moved by the accu transforms *)
Definition kept s h k w (x : data) : data :=
  at_ s (accuTimeFwd s) (accuTimeBack s) h k w
      (conv (timeFwd s) (timeBack s) false h x).

Lemma kept_view s h k w x : hasTau s = false \/ w = h ->
  same s (kept s h k w x) (view s k w x).
Proof.
  intros [T| ->].
  - assert (E1 : forall y, accuTimeFwd s y = y)
      by (intros; unfold accuTimeFwd; now rewrite T).
    assert (E2 : forall y, accuTimeBack s y = y)
      by (intros; unfold accuTimeBack; now rewrite T).
    assert (E3 : forall y, timeFwd s y = y)
      by (intros; unfold timeFwd; now rewrite T).
    unfold kept, at_, conv.
    destruct h, w, k; rewrite ?E1, ?E2, ?E3; apply same_refl.
  - unfold kept, at_, conv. destruct h, k; apply same_refl.
Qed.

Definition Inv s h (w : weight) (k t : bool) (b : list entry) (due : bool) : Prop :=
  pK (core w) = k /\ pW (core w) = t /\
  (1e-3 < ratios b -> standsFor s (core w) (average b)) /\
  match accu w with
  | None => b = []
  | Some (a, n) => n = ratios b /\ same s a (kept s h k t (total b))
  end /\
  (due = true -> exists r q x b', backUp w = Some (Some r, q) /\
                 b = (r, x) :: b' /\ standsFor s q x /\ accu w <> None).

Lemma stands_view s p x : proper s ->
  standsFor s p x <-> same s (pData p) (view s (pK p) (pW p) x).
Proof.
  intros P. unfold standsFor. split; intros H.
  - eapply same_trans; [exact H|now apply seen_at].
  - eapply same_trans; [exact H|apply same_sym; now apply seen_at].
Qed.

Lemma fft_flags s rq p : proper s ->
  pK (fftPlain s rq p) = asked (fst rq) (pK p) /\
  pW (fftPlain s rq p) = asked (snd rq) (pW p).
Proof.
  intros P. destruct (stands_exists s p P) as [x H].
  now destruct (fft_stands s rq p x P H) as (_ & A & B).
Qed.

Lemma Inv_fft s h w k t b due rq : proper s -> Inv s h w k t b due ->
  Inv s h (fftWeight s rq w) (asked (fst rq) k) (asked (snd rq) t) b due.
Proof.
  intros P (K & T & D & A & U).
  destruct (fft_flags s rq (core w) P) as [K' T'].
  unfold Inv, fftWeight. cbn [core accu backUp].
  rewrite K', T', K, T. split; [reflexivity|]. split; [reflexivity|].
  split; [intros H; now apply fft_stands; auto|].
  split.
  - destruct (accu w) as [[a n]|]; [|exact A].
    destruct A as [N Sa]. split; [exact N|].
    destruct (fftWith_at s _ _ h rq a k t _ P (pair_accu s P) Sa) as (x' & E & Sx).
    rewrite E. exact Sx.
  - intros E. destruct (U E) as (r & q & x & b' & H1 & H2 & H3 & H4).
    exists r, q, x, b'. repeat (split; [assumption|]).
    destruct (accu w) as [[? ?]|]; [discriminate|exact H4].
Qed.

Lemma total_nil s k w : proper s -> same s (view s k w (total [])) dataZero.
Proof.
  intros P. destruct (linear_view s k w P) as [_ Z].
  eapply same_trans; [|exact Z]. apply view_same; [exact P|].
  now intros i v t _ _.
Qed.

(* a shown weight stands for the average *)
Lemma shown_ok s a n q p b : proper s -> n = ratios b ->
  same s a (view s (pK p) (pW p) (total b)) ->
  1e-3 < ratios b -> standsFor s (shown a n q p) (average b).
Proof.
  intros P -> Sa L. apply stands_view; [exact P|]. unfold shown. cbn [pData pK pW].
  destruct (Rlt_dec 1e-3 (ratios b)); [|contradiction].
  eapply same_trans; [|apply same_sym].
  2:{ apply (view_scale s (pK p) (pW p) (/ ratios b) (total b) P). }
  now apply scale_same.
Qed.

Lemma Inv_merge s h w k t b due r new x : proper s -> Inv s h w k t b due ->
  hasTau s = false \/ t = h -> standsFor s new x ->
  Inv s h (merge s (Some r) new w) k t ((r, x) :: b) true.
Proof.
  intros P (K & T & D & A & U) Hh Sn.
  destruct (fft_stands s (domains (core w)) new x P Sn) as (Sn' & K' & T').
  unfold merge. set (new' := fftPlain s (domains (core w)) new) in *.
  cbn [domains fst snd asked] in K', T'.
  assert (Hn : same s (pData new') (view s k t x)).
  { apply stands_view in Sn'; [|exact P]. rewrite K', T', K, T in Sn'. exact Sn'. }
  assert (Ha : exists a n, match accu w with Some an => an | None => (dataZero, 0) end
                           = (a, n) /\ n = ratios b /\
                           same s a (view s k t (total b))).
  { destruct (accu w) as [[a n]|].
    - destruct A as [N Sa]. exists a, n. split; [reflexivity|]. split; [exact N|].
      eapply same_trans; [exact Sa|]. now apply kept_view.
    - exists dataZero, 0. subst b. split; [reflexivity|]. split; [reflexivity|].
      apply same_sym. now apply total_nil. }
  destruct Ha as (a & n & -> & N & Sa).
  assert (Sa' : same s (dataAdd a (dataScale r (pData new')))
                       (view s k t (total ((r, x) :: b)))).
  { eapply same_trans; [apply add_same; [exact Sa|exact Hn]|].
    apply same_sym. now apply view_cons. }
  assert (N' : n + r = ratios ((r, x) :: b)) by (unfold ratios in *; cbn; rewrite N; ring).
  unfold Inv. cbn [core accu backUp]. unfold shown at 1 2. cbn [pK pW].
  split; [exact K|]. split; [exact T|]. split; [|split].
  - intros L. apply shown_ok; auto. rewrite K, T. exact Sa'.
  - split; [exact N'|]. eapply same_trans; [exact Sa'|].
    apply same_sym. now apply kept_view.
  - intros _. exists r, new', x, b. repeat split; auto. discriminate.
Qed.

Lemma Inv_back s h w k t b e : proper s -> Inv s h w k t (e :: b) true ->
  hasTau s = false \/ t = h ->
  Inv s h (rollBack s w) k t b false.
Proof.
  intros P (K & T & D & A & U) Hh.
  destruct (U eq_refl) as (r & q & x & b' & E & E' & Sq & Ne).
  injection E' as -> <-.
  unfold rollBack. rewrite E. destruct (accu w) as [[a n]|]; [|easy].
  destruct A as [N Sa].
  destruct (fft_stands s (domains (core w)) q x P Sq) as (Sq' & K' & T').
  set (q' := fftPlain s (domains (core w)) q) in *.
  cbn [domains fst snd asked] in K', T'.
  assert (Hq : same s (pData q') (view s k t x)).
  { apply stands_view in Sq'; [|exact P]. rewrite K', T', K, T in Sq'. exact Sq'. }
  assert (Sa' : same s (dataAdd a (dataScale (- r) (pData q')))
                       (view s k t (total b))).
  { intros i v z Hv Hz. unfold dataAdd, dataScale.
    rewrite (Sa i v z Hv Hz), (kept_view s h k t _ Hh i v z Hv Hz).
    pose proof (view_cons s k t r x b P i v z Hv Hz) as V.
    unfold entry in V |- *. rewrite V, (Hq i v z Hv Hz).
    unfold dataAdd, dataScale. rewrite RtoC_opp. ring. }
  assert (N' : n - r = ratios b) by (rewrite N; unfold ratios; cbn; ring).
  unfold Inv. cbn [core accu backUp]. unfold shown at 1 2. cbn [pK pW].
  split; [exact K|]. split; [exact T|]. split; [|split].
  - intros L. apply shown_ok; auto. rewrite K, T. exact Sa'.
  - split; [exact N'|]. eapply same_trans; [exact Sa'|].
    apply same_sym. now apply kept_view.
  - discriminate.
Qed.

Lemma wrun_app s ops o w : wrun s (ops ++ [o]) w = wstep s (wrun s ops w) o.
Proof. unfold wrun. now rewrite fold_left_app. Qed.

Lemma tidy_inv s h p ops k t b due : proper s ->
  tidy s h (pK p) (pW p) ops k t b due ->
  Inv s h (wrun s ops (newWeight p)) k t b due.
Proof.
  intros P. induction 1.
  - cbn. repeat (split; [reflexivity|]). split.
    + cbn. intros. exfalso. lra.
    + split; [reflexivity|discriminate].
  - rewrite wrun_app. now apply Inv_fft.
  - rewrite wrun_app. eapply Inv_merge; eauto.
  - rewrite wrun_app. eapply Inv_back; eauto.
Qed.

Lemma tidy_average s h p ops k t b due : proper s ->
  tidy s h (pK p) (pW p) ops k t b due -> 1e-3 < ratios b ->
  standsFor s (core (wrun s ops (newWeight p))) (average b).
Proof.
  intros P H L. destruct (tidy_inv s h p ops k t b due P H) as (_ & _ & D & _).
  now apply D.
Qed.
