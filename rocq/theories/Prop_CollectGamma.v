(** * C166, C167: collecting the three-point functions, and collecting only *)
Require Import Reals List Arith Bool Lia Lra.
From Coquelicot Require Import Complex.
Require Import Verif.Collect Verif.CollectGamma Verif.P_CollectGamma.
Import ListNotations.
Local Open Scope R_scope.

(** C166: when every file is complete and the norms agree, each three-point function is the sum of the
    accumulated weights over the sum of the accumulated norms, times the norm. *)
Theorem C166_average : forall ns np ng nw ls lp fs, fs <> [] ->
  Forall (fun f =>
    (exists s, fSigma (base f) = Some s /\ sNorm s = ns /\ length (sAccu s) = ls) /\
    (exists p, fPolar (base f) = Some p /\ sNorm p = np /\ length (sAccu p) = lp) /\
    (exists g, fGammaG f = Some g /\ gNorm g = ng) /\
    (exists w, fGammaW f = Some w /\ gNorm w = nw)) fs ->
  let sumN := fun sel : gfile -> option gstat =>
    fold_right (fun f r => match sel f with Some d => gNormAccu d + r | None => r end) 0 fs in
  let sumA := fun (sel : gfile -> option gstat) i =>
    fold_right (fun f z => match sel f with Some d => Cplus (gAccu d i) z | None => z end) (RtoC 0) fs in
  exists mc G W, collectGamma (map Some fs) = Some (mc, G, W) /\
  (forall i, G i = Cmult (sumA fGammaG i) (RtoC (ng / sumN fGammaG))) /\
  (forall i, W i = Cmult (sumA fGammaW i) (RtoC (nw / sumN fGammaW))).
Proof. exact gamma_average. Qed.
Print Assumptions C166_average.

Definition st1 : stat := Stat 1 1 [slabZero].
Definition gOf (norm : R) (v : R) : gstat := GStat norm 1 (fun _ => RtoC v).
Definition fileOf (g w : option gstat) : gfile := GFile (File (Some st1) (Some st1)) g w.
Example C166_case : Forall (fun f =>
    (exists s, fSigma (base f) = Some s /\ sNorm s = 1 /\ length (sAccu s) = 1%nat) /\
    (exists p, fPolar (base f) = Some p /\ sNorm p = 1 /\ length (sAccu p) = 1%nat) /\
    (exists g, fGammaG f = Some g /\ gNorm g = 2) /\
    (exists w, fGammaW f = Some w /\ gNorm w = 3)) [fileOf (Some (gOf 2 5)) (Some (gOf 3 7)); fileOf (Some (gOf 2 6)) (Some (gOf 3 8))].
Proof.
  repeat constructor; try (exists st1; repeat split; reflexivity);
    eexists; (split; [reflexivity|reflexivity]).
Qed.

(** A file without GammaW counts as failed; with three complete files or more its GammaG is in the result
    all the same. *)
Theorem C166_half_merged : forall ns np ng nw ls lp fs bad s0 p0 g0, (3 <= length fs)%nat ->
  Forall (fun f =>
    (exists s, fSigma (base f) = Some s /\ sNorm s = ns /\ length (sAccu s) = ls) /\
    (exists p, fPolar (base f) = Some p /\ sNorm p = np /\ length (sAccu p) = lp) /\
    (exists g, fGammaG f = Some g /\ gNorm g = ng) /\
    (exists w, fGammaW f = Some w /\ gNorm w = nw)) fs ->
  fSigma (base bad) = Some s0 -> sNorm s0 = ns -> length (sAccu s0) = ls ->
  fPolar (base bad) = Some p0 -> sNorm p0 = np -> length (sAccu p0) = lp ->
  fGammaG bad = Some g0 -> gNorm g0 = ng -> fGammaW bad = None ->
  exists mc G W, collectGamma (map Some fs ++ [Some bad]) = Some (mc, G, W) /\
  (forall i, G i = Cmult
    (Cplus (fold_right (fun f z => match fGammaG f with Some d => Cplus (gAccu d i) z | None => z end) (RtoC 0) fs) (gAccu g0 i))
    (RtoC (ng / (fold_right (fun f r => match fGammaG f with Some d => gNormAccu d + r | None => r end) 0 fs + gNormAccu g0)))).
Proof. exact gamma_partial. Qed.
Print Assumptions C166_half_merged.

(** So a file that fails changes the result: the estimates of the other three files are 0, the result is 1. *)
Theorem C166_failed_refuted : exists good bad mc G W,
  (forall a, snd (mergeAll a (Some bad)) = false) /\
  (exists g, fGammaG good = Some g /\ forall i, scaled g i = RtoC 0) /\
  collectGamma [Some good; Some good; Some good; Some bad] = Some (mc, G, W) /\
  G 0%nat = RtoC 1.
Proof.
  set (good := fileOf (Some (gOf 1 0)) (Some (gOf 1 0))). set (bad := fileOf (Some (gOf 1 4)) None).
  destruct (C166_half_merged 1 1 1 1 1%nat 1%nat [good; good; good] bad st1 st1 (gOf 1 4)) as (mc & G & W & E & V); try reflexivity.
  { repeat constructor; try (exists st1; repeat split; reflexivity); eexists; (split; [reflexivity|reflexivity]). }
  exists good, bad, mc, G, W. split; [|split; [|split; [exact E|]]].
  - intros a. unfold mergeAll. destruct (mergeFile (aMC a) (Some (base bad))) as [mc' ok]. destruct ok; [|reflexivity].
    unfold bad, fileOf. cbn [fGammaG fGammaW]. destruct (mergeG (aG a) (gOf 1 4)) as [g ok]. destruct ok; reflexivity.
  - exists (gOf 1 0). split; [reflexivity|]. intros i. unfold scaled, gOf. cbn. apply Cmult_0_l.
  - rewrite V. cbn. rewrite <- !RtoC_plus, <- RtoC_mult. f_equal. field.
Qed.
Print Assumptions C166_failed_refuted.

(** C167: collecting only never saves anything, whatever the files. *)
Theorem C167_never : forall fs a b, collectOnly fs <> Saved a b.
Proof. exact only_never. Qed.
Print Assumptions C167_never.

(** So one good file that CollectStatis accepts is not saved. *)
Theorem C167_saves_refuted : exists fs st, collectStatis fs = Some st /\ collectOnly fs = ValueError.
Proof.
  exists [Some (File (Some st1) (Some st1))], (Some st1, Some st1).
  assert (E : collectStatis [Some (File (Some st1) (Some st1))] = Some (Some st1, Some st1)).
  { unfold collectStatis. cbn. destruct Rlt_dec; [lra|reflexivity]. }
  split; [exact E|]. unfold collectOnly, collectTuple. now rewrite E.
Qed.
Print Assumptions C167_saves_refuted.
