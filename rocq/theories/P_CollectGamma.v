(** Proofs about collecting the three-point functions. *)
Require Import Reals List Arith Bool Lia Lra FunctionalExtensionality.
From Coquelicot Require Import Complex.
Require Import Verif.Collect Verif.CollectGamma.
Import ListNotations.
Local Open Scope R_scope.

(** A complete file with the given norms and numbers of orders *)
Definition complete (ns np ng nw : R) (ls lp : nat) (f : gfile) : Prop :=
  (exists s, fSigma (base f) = Some s /\ sNorm s = ns /\ length (sAccu s) = ls) /\
  (exists p, fPolar (base f) = Some p /\ sNorm p = np /\ length (sAccu p) = lp) /\
  (exists g, fGammaG f = Some g /\ gNorm g = ng) /\
  (exists w, fGammaW f = Some w /\ gNorm w = nw).

Definition total (sel : gfile -> option gstat) (fs : list gfile) : R * (nat -> C) :=
  (fold_right (fun f r => match sel f with Some d => gNormAccu d + r | None => r end) 0 fs,
   fun i => fold_right (fun f z => match sel f with Some d => Cplus (gAccu d i) z | None => z end) (RtoC 0) fs).

Definition running (ns np ng nw : R) (ls lp : nat) (a : acc) (gn wn : R) (ga wa : nat -> C) : Prop :=
  exists s p g w, aMC a = (Some s, Some p) /\ sNorm s = ns /\ length (sAccu s) = ls /\ sNorm p = np /\ length (sAccu p) = lp /\
  aG a = Some g /\ gNorm g = ng /\ gNormAccu g = gn /\ (forall i, gAccu g i = ga i) /\
  aW a = Some w /\ gNorm w = nw /\ gNormAccu w = wn /\ (forall i, gAccu w i = wa i).

Lemma merge_from s d : sNorm s = sNorm d -> length (sAccu s) = length (sAccu d) ->
  exists s', mergeFrom (Some s) d = (Some s', true) /\ sNorm s' = sNorm s /\ length (sAccu s') = length (sAccu s).
Proof.
  intros N L. unfold mergeFrom, plusInPlace. rewrite L, Nat.eqb_refl.
  eexists. split; [destruct Req_EM_T; [reflexivity|contradiction]|]. cbn. split; [reflexivity|].
  rewrite map_length, combine_length. lia.
Qed.

Lemma running_step ns np ng nw ls lp a f gn wn ga wa :
  running ns np ng nw ls lp a gn wn ga wa -> complete ns np ng nw ls lp f ->
  exists a' g w, fGammaG f = Some g /\ fGammaW f = Some w /\ mergeAll a (Some f) = (a', true) /\
  running ns np ng nw ls lp a' (gn + gNormAccu g) (wn + gNormAccu w)
    (fun i => Cplus (ga i) (gAccu g i)) (fun i => Cplus (wa i) (gAccu w i)).
Proof.
  intros (s & p & g & w & E1 & S1 & S2 & P1 & P2 & G0 & G1 & G2 & G3 & W0 & W1 & W2 & W3)
         ((ds & D1 & D2 & D3) & (dp & D4 & D5 & D6) & (dg & D7 & D8) & (dw & D9 & D10)).
  destruct (merge_from s ds) as (s' & Es & Ns & Ls); [congruence|congruence|].
  destruct (merge_from p dp) as (p' & Ep & Np & Lp); [congruence|congruence|].
  unfold mergeAll, mergeFile, mergePart. rewrite E1. cbn [fst snd]. rewrite D1, Es, D4, Ep, D7, G0. unfold mergeG at 1.
  destruct Req_EM_T as [_|X]; [|exfalso; apply X; congruence]. rewrite D9, W0. unfold mergeG.
  destruct Req_EM_T as [_|X]; [|exfalso; apply X; congruence].
  do 3 eexists. split; [reflexivity|]. split; [reflexivity|]. split; [reflexivity|].
  exists s', p', (GStat (gNorm g) (gNormAccu g + gNormAccu dg) (fun i => Cplus (gAccu g i) (gAccu dg i))),
    (GStat (gNorm w) (gNormAccu w + gNormAccu dw) (fun i => Cplus (gAccu w i) (gAccu dw i))).
  cbn. repeat split; congruence.
Qed.

Lemma running_all ns np ng nw ls lp fs : forall a n gn wn ga wa,
  running ns np ng nw ls lp a gn wn ga wa -> Forall (complete ns np ng nw ls lp) fs ->
  exists a', fold_left (fun st f => let (a, ok) := mergeAll (fst st) f in (a, if ok then S (snd st) else snd st)) (map Some fs) (a, n)
    = (a', (length fs + n)%nat) /\
  running ns np ng nw ls lp a' (gn + fst (total fGammaG fs)) (wn + fst (total fGammaW fs))
    (fun i => Cplus (ga i) (snd (total fGammaG fs) i)) (fun i => Cplus (wa i) (snd (total fGammaW fs) i)).
Proof.
  induction fs as [|f fs IH]; intros a n gn wn ga wa R H.
  - exists a. split; [reflexivity|]. cbn. rewrite !Rplus_0_r.
    destruct R as (s & p & g & w & R). exists s, p, g, w. decompose [and] R. repeat split; try assumption; intros i.
    + rewrite Cplus_0_r. auto.
    + rewrite Cplus_0_r. auto.
  - inversion H as [|? ? H1 H2]; subst.
    destruct (running_step _ _ _ _ _ _ _ _ _ _ _ _ R H1) as (a1 & g & w & Eg & Ew & E & R1).
    cbn [map fold_left fst snd]. rewrite E.
    destruct (IH a1 (S n) _ _ _ _ R1 H2) as (a2 & E2 & R2).
    exists a2. split; [rewrite E2; f_equal; cbn; lia|].
    cbn. rewrite Eg, Ew. rewrite <- !Rplus_assoc.
    destruct R2 as (s & p & g' & w' & R2). exists s, p, g', w'. decompose [and] R2.
    repeat split; try assumption; intros i.
    + match goal with X : forall i, gAccu g' i = _ |- _ => rewrite X end. cbn. ring.
    + match goal with X : forall i, gAccu w' i = _ |- _ => rewrite X end. cbn. ring.
Qed.

Lemma gamma_average ns np ng nw ls lp fs : fs <> [] -> Forall (complete ns np ng nw ls lp) fs ->
  exists mc G W, collectGamma (map Some fs) = Some (mc, G, W) /\
  (forall i, G i = Cmult (snd (total fGammaG fs) i) (RtoC (ng / fst (total fGammaG fs)))) /\
  (forall i, W i = Cmult (snd (total fGammaW fs) i) (RtoC (nw / fst (total fGammaW fs)))).
Proof.
  intros N H. destruct fs as [|f fs]; [congruence|]. inversion H as [|? ? H1 H2]; subst.
  destruct H1 as ((ds & D1 & D2 & D3) & (dp & D4 & D5 & D6) & (dg & D7 & D8) & (dw & D9 & D10)).
  set (a1 := Acc (Some ds, Some dp) (Some dg) (Some dw)).
  assert (E1 : mergeAll noAcc (Some f) = (a1, true)).
  { unfold mergeAll, mergeFile, mergePart, noAcc. cbn [aMC fst snd]. rewrite D1. cbn. rewrite D4. cbn. rewrite D7. cbn. rewrite D9. reflexivity. }
  assert (R1 : running ns np ng nw ls lp a1 (gNormAccu dg) (gNormAccu dw) (gAccu dg) (gAccu dw)).
  { exists ds, dp, dg, dw. cbn. repeat split; assumption. }
  destruct (running_all _ _ _ _ _ _ fs a1 1%nat _ _ _ _ R1 H2) as (a & E & s & p & g & w & R).
  destruct R as (F1 & _ & _ & _ & _ & G0 & G1 & G2 & G3 & W0 & W1 & W2 & W3).
  unfold collectGamma, mergeGFiles. cbn [map fold_left fst snd]. rewrite E1, E. cbn [length Nat.eqb].
  rewrite map_length. replace (length fs + 1)%nat with (S (length fs)) by lia.
  destruct Rlt_dec as [X|_].
  { exfalso. unfold Rdiv in X at 1. rewrite Rinv_r in X by (apply not_0_INR; lia). lra. }
  rewrite G0, W0. do 3 eexists. split; [reflexivity|].
  split; intros i; unfold scaled; [rewrite G1, G2, G3|rewrite W1, W2, W3]; cbn; [rewrite D7|rewrite D9]; f_equal; f_equal; unfold Rdiv; ring.
Qed.

(** Collecting only *)
Lemma only_never fs a b : collectOnly fs <> Saved a b.
Proof. unfold collectOnly, collectTuple. destruct (collectStatis fs); discriminate. Qed.

(** A file that fails for want of GammaW *)
Lemma gamma_partial ns np ng nw ls lp fs bad s0 p0 g0 : (3 <= length fs)%nat -> Forall (complete ns np ng nw ls lp) fs ->
  fSigma (base bad) = Some s0 -> sNorm s0 = ns -> length (sAccu s0) = ls ->
  fPolar (base bad) = Some p0 -> sNorm p0 = np -> length (sAccu p0) = lp ->
  fGammaG bad = Some g0 -> gNorm g0 = ng -> fGammaW bad = None ->
  exists mc G W, collectGamma (map Some fs ++ [Some bad]) = Some (mc, G, W) /\
  (forall i, G i = Cmult (Cplus (snd (total fGammaG fs) i) (gAccu g0 i)) (RtoC (ng / (fst (total fGammaG fs) + gNormAccu g0)))).
Proof.
  intros N H B1 B2 B3 B4 B5 B6 B7 B8 B9. destruct fs as [|f fs]; [cbn in N; lia|]. inversion H as [|? ? H1 H2]; subst.
  destruct H1 as ((ds & D1 & D2 & D3) & (dp & D4 & D5 & D6) & (dg & D7 & D8) & (dw & D9 & D10)).
  set (a1 := Acc (Some ds, Some dp) (Some dg) (Some dw)).
  assert (E1 : mergeAll noAcc (Some f) = (a1, true)).
  { unfold mergeAll, mergeFile, mergePart, noAcc. cbn [aMC fst snd]. rewrite D1. cbn. rewrite D4. cbn. rewrite D7. cbn. rewrite D9. reflexivity. }
  assert (R1 : running (sNorm s0) (sNorm p0) (gNorm g0) nw (length (sAccu s0)) (length (sAccu p0)) a1 (gNormAccu dg) (gNormAccu dw) (gAccu dg) (gAccu dw)).
  { exists ds, dp, dg, dw. cbn. repeat split; assumption. }
  destruct (running_all _ _ _ _ _ _ fs a1 1%nat _ _ _ _ R1 H2) as (a & E & s & p & g & w & R).
  destruct R as (F1 & S1 & S2 & P1 & P2 & G0 & G1 & G2 & G3 & W0 & W1 & W2 & W3).
  destruct (merge_from s s0) as (s' & Es & Ns & Ls); [congruence|congruence|].
  destruct (merge_from p p0) as (p' & Ep & Np & Lp); [congruence|congruence|].
  unfold collectGamma, mergeGFiles. rewrite fold_left_app. cbn [map fold_left fst snd]. rewrite E1, E. cbn [fold_left fst snd].
  assert (EB : mergeAll a (Some bad) = (Acc (Some s', Some p') (Some (GStat (gNorm g) (gNormAccu g + gNormAccu g0) (fun i => Cplus (gAccu g i) (gAccu g0 i)))) (Some w), false)).
  { unfold mergeAll, mergeFile, mergePart. rewrite F1. cbn [fst snd]. rewrite B1, Es, B4, Ep, B7, G0. unfold mergeG.
    destruct Req_EM_T as [_|X]; [|exfalso; apply X; congruence]. rewrite B9, W0. reflexivity. }
  rewrite EB. cbn [length app Nat.eqb aG aW aMC]. rewrite app_length, map_length. cbn [length].
  replace (length fs + 1)%nat with (S (length fs)) by lia.
  destruct Rlt_dec as [X|_].
  { exfalso. revert X. apply Rle_not_lt. rewrite (S_INR (S (length fs))).
    assert (3 <= INR (S (length fs))) by (replace 3 with (INR 3) by (cbn; ring); apply le_INR; cbn in N; lia).
    apply (Rmult_le_reg_r (INR (S (length fs)) + 1)); [lra|]. unfold Rdiv at 2. rewrite Rmult_assoc, Rinv_l by lra. lra. }
  do 3 eexists. split; [reflexivity|]. intros i. unfold scaled. cbn [gAccu gNorm gNormAccu]. rewrite G1, G2, G3.
  cbn. rewrite D7. f_equal. f_equal. unfold Rdiv. ring.
Qed.
