(* C121: the Fourier transforms of a Weight.  C122: Merge and RollBack. *)
Require Import Reals List Arith Bool Lra Lia.
From Coquelicot Require Import Complex.
Require Import Verif.PyWeight Verif.PyWeightSpec Verif.SelfCons Verif.SelfConsSpec
  Verif.P_PyWeight Verif.P_PyWeight2 Verif.P_SelfCons Verif.P_PyWeight3.
Import ListNotations.
Local Open Scope R_scope.

(* In K and W the data are the sums over sites and time bins with the phases
   of the continuous time at the middle of the bin, at the even or the odd
   Matsubara frequencies. *)
Theorem C121_sum : forall s x i k m, proper s -> hasTau s = true ->
  (k < vol s)%nat -> (m < bins s)%nat ->
  pData (fftPlain s (Some true, Some true) (Plain x false false)) i k m =
  csum (bins s) (fun n => csum (vol s) (fun r =>
    Cmult (x i r n) (cis (- (kDotR s k r + matsubara s m * binTime s n))))).
Proof. exact fft_sum. Qed.
Print Assumptions C121_sum.

(* Data in any domains stand for exactly one function of site and time. *)
Theorem C121_one : forall s p, proper s ->
  (exists x, standsFor s p x) /\
  (forall x y, standsFor s p x -> standsFor s p y -> same s x y).
Proof.
  intros s p P. split; [now apply stands_exists|].
  intros x y. now apply stands_unique.
Qed.
Print Assumptions C121_one.

(* FFT reaches the domains asked for and keeps that function. *)
Theorem C121_kept : forall s rq p x, proper s -> standsFor s p x ->
  standsFor s (fftPlain s rq p) x /\
  pK (fftPlain s rq p) = asked (fst rq) (pK p) /\
  pW (fftPlain s rq p) = asked (snd rq) (pW p).
Proof. exact fft_stands. Qed.
Print Assumptions C121_kept.

(* Any sequence of FFTs that ends in the domains it started from gives the
   data back. *)
Theorem C121_return : forall s rqs p, proper s ->
  let q := fold_left (fun p rq => fftPlain s rq p) rqs p in
  pK q = pK p -> pW q = pW p -> same s (pData q) (pData p).
Proof. exact ffts_return. Qed.
Print Assumptions C121_return.

(* A 2 x 3 lattice with four time bins. *)
Example C121_case :
  proper (Shape true false [2%nat; 3%nat] 4 5) /\
  vol (Shape true false [2%nat; 3%nat] 4 5) = 6%nat /\
  standsFor tiny bumpP bump /\
  pData (fftPlain tiny toKW bumpP) 0%nat 0%nat 1%nat = (0, -1).
Proof.
  assert (Sb : standsFor tiny bumpP bump) by (intros i v t _ _; reflexivity).
  split.
  { split; [repeat constructor; lia|]. split; cbn; [lia|lra]. }
  split; [reflexivity|]. split; [exact Sb|].
  destruct (fft_stands tiny toKW bumpP bump tiny_proper Sb) as (H & K & W).
  apply stands_view in H; [|exact tiny_proper]. rewrite K, W in H.
  cbn [toKW fst snd asked] in H.
  assert (B : (0 < vol tiny)%nat /\ (1 < bins tiny)%nat) by (cbn; lia).
  destruct B as [B1 B2].
  rewrite (H 0%nat 0%nat 1%nat B1 B2). exact bump_seen.
Qed.

(* Calls in good order: the weight stands for the average, by ratio, of the
   weights merged and not taken back, whatever transforms were made. *)
Theorem C122_average : forall s home p ops k w b due, proper s ->
  tidy s home (pK p) (pW p) ops k w b due -> 1e-3 < ratios b ->
  standsFor s (core (wrun s ops (newWeight p))) (average b).
Proof. exact tidy_average. Qed.
Print Assumptions C122_average.

(* The same with RollBack called at any time: it takes off the last merged
   weight once more. *)
Theorem C122_signed : forall s home p ops k w b last, proper s ->
  steady s home (pK p) (pW p) ops k w b last -> 1e-3 < ratios b ->
  standsFor s (core (wrun s ops (newWeight p))) (average b).
Proof. exact steady_average. Qed.
Print Assumptions C122_signed.

(* That AccuData/Norm are Data in any domains is false: the transform of time
   leaves a phase out. *)
Theorem C122_accu_refuted :
  exists s ops p a n v t,
    proper s /\ (v < vol s)%nat /\ (t < bins s)%nat /\
    tidy s false false false ops true true
      [(ratioOf 2, bump); (ratioOf 1, dataZero)] true /\
    pK p = false /\ pW p = false /\
    accu (wrun s ops (newWeight p)) = Some (a, n) /\ n <> 0 /\
    pData (core (wrun s ops (newWeight p))) 0%nat v t
    <> Cmult (RtoC (/ n)) (a 0%nat v t).
Proof.
  destruct accu_apart as (a & n & A & N & D).
  exists tiny, [OMerge (Some (ratioOf 1)) zeroP; OMerge (Some (ratioOf 2)) bumpP; OFFT toKW],
    zeroP, a, n, 0%nat, 1%nat.
  split; [exact tiny_proper|]. split; [cbn; lia|]. split; [cbn; lia|].
  split; [|repeat split; auto].
  apply (tidy_fft tiny false false false
           ([OMerge (Some (ratioOf 1)) zeroP] ++ [OMerge (Some (ratioOf 2)) bumpP])
           false false _ _ toKW).
  apply (tidy_merge tiny false false false _ false false _ true);
    [|auto|intros i v t _ _; reflexivity].
  apply (tidy_merge tiny false false false [] false false [] false);
    [constructor|auto|intros i v t _ _; reflexivity].
Qed.
Print Assumptions C122_accu_refuted.

(* Two merges, a look in K and W, the second taken back. *)
Example C122_case :
  tidy tiny false false false
    (((([OMerge (Some (ratioOf 1)) bumpP] ++ [OMerge (Some (ratioOf 2)) zeroP])
       ++ [OFFT toKW]) ++ [OFFT toRT]) ++ [ORollBack]) false false
    [(ratioOf 1, bump)] false /\
  1e-3 < ratios [(ratioOf 1, bump)].
Proof.
  split.
  - apply (tidy_back tiny false false false _ false false _ (ratioOf 2, dataZero)); [|auto].
    apply (tidy_fft tiny false false false _ true true _ _ toRT).
    apply (tidy_fft tiny false false false _ false false _ _ toKW).
    apply (tidy_merge tiny false false false _ false false _ true);
      [|auto|intros i v t _ _; reflexivity].
    apply (tidy_merge tiny false false false [] false false [] false);
      [constructor|auto|intros i v t _ _; reflexivity].
  - unfold ratios, ratioOf. cbn. lra.
Qed.
