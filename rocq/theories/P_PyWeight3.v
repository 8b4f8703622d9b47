Require Import Reals List Arith Bool Lra Lia.
From Coquelicot Require Import Complex.
Require Import Verif.PyWeight Verif.PyWeightSpec Verif.SelfCons Verif.SelfConsSpec
  Verif.P_Fourier Verif.P_PyWeight Verif.P_PyWeight2 Verif.P_SelfCons.
Import ListNotations.
Local Open Scope R_scope.

(* FFT alone, any number of times *)
Lemma ffts_stand s rqs : proper s -> forall p x, standsFor s p x ->
  standsFor s (fold_left (fun p rq => fftPlain s rq p) rqs p) x.
Proof.
  intros P. induction rqs as [|rq rqs IH]; intros p x H; [exact H|].
  cbn. apply IH. now apply fft_stands.
Qed.

Lemma ffts_return s rqs p : proper s ->
  let q := fold_left (fun p rq => fftPlain s rq p) rqs p in
  pK q = pK p -> pW q = pW p -> same s (pData q) (pData p).
Proof.
  intros P q K W. destruct (stands_exists s p P) as [x Hx].
  pose proof (ffts_stand s rqs P p x Hx) as Hq. fold q in Hq.
  unfold standsFor in *. rewrite K, W in Hq.
  eapply same_trans; [exact Hq|]. apply same_sym. exact Hx.
Qed.

Lemma fft_sum s x i k m : proper s -> hasTau s = true ->
  (k < vol s)%nat -> (m < bins s)%nat ->
  pData (fftPlain s (Some true, Some true) (Plain x false false)) i k m =
  csum (bins s) (fun n => csum (vol s) (fun r =>
    Cmult (x i r n) (cis (- (kDotR s k r + matsubara s m * binTime s n))))).
Proof.
  intros P T Hk Hm.
  destruct (fft_stands s (Some true, Some true) (Plain x false false) x P)
    as (H & K & W).
  { intros a b c _ _. reflexivity. }
  cbn [fst snd asked] in K, W. unfold standsFor in H. rewrite K, W in H.
  rewrite (H i k m Hk Hm). unfold seenIn. rewrite T. cbn [andb].
  unfold toW, toK. apply csum_ext. intros n _.
  rewrite <- csum_scal_r. apply csum_ext. intros r _.
  rewrite <- Cmult_assoc, <- cis_plus. f_equal. f_equal. ring.
Qed.

(* AccuData does not follow Data through FFT *)
Lemma accu_apart :
  exists a n, accu (wrun tiny [OMerge (Some (ratioOf 1)) zeroP;
                               OMerge (Some (ratioOf 2)) bumpP; OFFT toKW]
                         (newWeight zeroP)) = Some (a, n) /\ n <> 0 /\
  pData (core (wrun tiny [OMerge (Some (ratioOf 1)) zeroP;
                          OMerge (Some (ratioOf 2)) bumpP; OFFT toKW]
                    (newWeight zeroP))) 0%nat 0%nat 1%nat
  <> Cmult (RtoC (/ n)) (a 0%nat 0%nat 1%nat).
Proof.
  pose proof tiny_proper as P.
  assert (Sz : standsFor tiny zeroP dataZero) by (intros i v t _ _; reflexivity).
  assert (Sb : standsFor tiny bumpP bump) by (intros i v t _ _; reflexivity).
  set (ops := [OMerge (Some (ratioOf 1)) zeroP; OMerge (Some (ratioOf 2)) bumpP;
               OFFT toKW]).
  assert (T : tidy tiny false false false ops true true
                [(ratioOf 2, bump); (ratioOf 1, dataZero)] true).
  { unfold ops.
    apply (tidy_fft tiny false false false
             ([OMerge (Some (ratioOf 1)) zeroP] ++ [OMerge (Some (ratioOf 2)) bumpP])
             false false _ _ toKW).
    apply (tidy_merge tiny false false false _ false false _ true); auto.
    apply (tidy_merge tiny false false false [] false false [] false); auto.
    constructor. }
  pose proof (tidy_inv tiny false zeroP ops _ _ _ _ P T) as (K & W & D & A & U).
  set (w := wrun tiny ops (newWeight zeroP)) in *.
  assert (N0 : ratios [(ratioOf 2, bump); (ratioOf 1, dataZero)] = 17/66).
  { unfold ratios, ratioOf. cbn. field. }
  destruct (accu w) as [[a n]|]; [|discriminate]. destruct A as [N Sa].
  exists a, n. split; [reflexivity|].
  rewrite N0 in N, D. split; [lra|].
  assert (L : 1e-3 < 17/66) by lra. specialize (D L).
  apply stands_view in D; [|exact P]. rewrite K, W in D.
  assert (B : (0 < vol tiny)%nat /\ (1 < bins tiny)%nat) by (cbn; lia).
  destruct B as [B1 B2].
  rewrite (D 0%nat 0%nat 1%nat B1 B2), (Sa 0%nat 0%nat 1%nat B1 B2), bump_kept.
  set (b := [(ratioOf 2, bump); (ratioOf 1, dataZero)]) in *.
  change (average b) with (dataScale (/ ratios b) (total b)).
  rewrite (view_scale tiny true true _ _ P 0%nat 0%nat 1%nat B1 B2).
  unfold dataScale at 1. unfold b at 2.
  rewrite (view_cons tiny true true _ _ _ P 0%nat 0%nat 1%nat B1 B2).
  unfold dataAdd, dataScale. rewrite bump_seen.
  rewrite (view_cons tiny true true _ _ _ P 0%nat 0%nat 1%nat B1 B2).
  unfold dataAdd, dataScale.
  pose proof (total_nil tiny true true P 0%nat 0%nat 1%nat B1 B2) as TN.
  unfold entry in TN |- *. rewrite TN.
  destruct (linear_view tiny true true P) as [_ Lz].
  rewrite (Lz 0%nat 0%nat 1%nat B1 B2). unfold dataZero.
  rewrite N0, N. intros E. apply (f_equal fst) in E. cbn in E. lra.
Qed.

(* failures to collect push Polar to the other side *)
Definition fourVersions : list (version * data) :=
  [(VOk zeroP bumpP, bump); (VCollectFail zeroP, dataZero);
   (VCollectFail zeroP, dataZero); (VOk zeroP zeroP, dataZero)].

Lemma negative_weight :
  Forall (meant tiny) fourVersions /\
  (forall i v t, 0 <= fst (bump i v t) <= 1 /\ snd (bump i v t) = 0) /\
  standsFor tiny (core (wrun tiny (loopOps polarOps 0%nat (map fst fourVersions))
                             (newWeight zeroP)))
            (average (signed 0 [] None fourVersions)) /\
  average (signed 0 [] None fourVersions) 0%nat 0%nat 0%nat = RtoC (-7/15).
Proof.
  assert (Sz : standsFor tiny zeroP dataZero) by (intros i v t _ _; reflexivity).
  assert (Sb : standsFor tiny bumpP bump) by (intros i v t _ _; reflexivity).
  assert (F : Forall (meant tiny) fourVersions).
  { repeat constructor; assumption. }
  split; [exact F|]. split.
  { intros i v t. unfold bump. destruct (Nat.eqb t 0); cbn; lra. }
  assert (R : ratios (signed 0 [] None fourVersions) = 15/77).
  { unfold ratios, fourVersions. cbn. unfold ratioOf. cbn. field. }
  split.
  - apply polar_signed; [exact tiny_proper|reflexivity|exact F|].
    rewrite R. lra.
  - unfold average. rewrite R. unfold total, fourVersions. cbn [signed succeeded fold_right fst snd].
    unfold bump, dataZero. cbn [Nat.eqb]. unfold ratioOf. cbn [INR].
    apply injective_projections; cbn; field.
Qed.

Lemma first_rejected :
  exists s p0 d p x v,
    proper s /\ standsFor s p0 dataZero /\ standsFor s p x /\
    standsFor s (core (wrun s (polarOps v (VWFail d p)) (newWeight p0))) x /\
    ~ standsFor s (core (wrun s (polarOps v (VWFail d p)) (newWeight p0))) dataZero.
Proof.
  exists tiny, zeroP, zeroP, bumpP, bump, 1%nat.
  assert (Sb : standsFor tiny bumpP bump) by (intros i v t _ _; reflexivity).
  pose proof (first_failure tiny zeroP zeroP bumpP bump 1%nat tiny_proper Sb) as F.
  split; [exact tiny_proper|]. split; [intros i v t _ _; reflexivity|].
  split; [exact Sb|]. split; [exact F|].
  intros Z.
  assert (B : (0 < vol tiny)%nat /\ (0 < bins tiny)%nat) by (cbn; lia).
  destruct B as [B1 B2].
  pose proof (stands_unique tiny _ _ _ tiny_proper F Z 0%nat 0%nat 0%nat B1 B2) as E.
  unfold bump, dataZero in E. cbn [Nat.eqb] in E. injection E as E. lra.
Qed.
