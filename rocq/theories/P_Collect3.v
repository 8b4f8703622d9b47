Require Import Reals List Arith Bool Lra Lia Permutation.
From Coquelicot Require Import Complex.
Require Import Verif.Collect Verif.CollectSpec Verif.P_Collect Verif.P_Collect2.
Import ListNotations.
Local Open Scope R_scope.

Lemma mergeFiles_keyed ns np ks kp fs : forall e p n,
  Forall (keyed ns np ks kp) fs -> fine ns ks e -> fine np kp p ->
  mergeFiles (e, p) n fs
  = ((joinAll e (sigmas fs), joinAll p (polars (filter complete fs))),
     (n + length (filter complete fs))%nat).
Proof.
  induction fs as [|f fs IH]; intros e p n F E P.
  - cbn. now rewrite Nat.add_0_r.
  - inversion F as [|? ? R F']; subst.
    destruct f as [[[s|] [q|]]|]; cbn [mergeFiles mergeFile complete filter fSigma fPolar mergePart fst snd].
    + destruct R as [As Aq]. specialize (As s eq_refl). specialize (Aq q eq_refl).
      destruct (merge_join _ _ _ _ E As) as [-> E'].
      destruct (merge_join _ _ _ _ P Aq) as [-> P'].
      rewrite (IH (join e s) (join p q) (S n) F' E' P').
      cbn [length]. f_equal. lia.
    + destruct R as [As _]. specialize (As s eq_refl).
      destruct (merge_join _ _ _ _ E As) as [-> E'].
      now rewrite (IH (join e s) p n F' E' P).
    + now rewrite (IH e p n F' E P).
    + now rewrite (IH e p n F' E P).
    + now rewrite (IH e p n F' E P).
Qed.

Lemma keyed_parts ns np ks kp fs : Forall (keyed ns np ks kp) fs ->
  Forall (alikeStat ns ks) (sigmas fs) /\ Forall (alikeStat np kp) (polars (filter complete fs)) /\
  (length (filter complete fs) <= length (sigmas fs))%nat /\
  length (polars (filter complete fs)) = length (filter complete fs).
Proof.
  induction 1 as [|f fs R F IH]; [repeat split; constructor|].
  destruct IH as (A & B & C & D).
  destruct f as [[[s|] [q|]]|]; cbn [complete filter sigmas polars flat_map app] in *;
    try destruct R as [As Aq]; repeat split; cbn [length] in *;
    try (constructor; [now apply As || now apply Aq|]); auto; try lia.
  all: cbn [complete filter flat_map app length]; unfold sigmas, polars in *; cbn; lia.
Qed.

Lemma collect_keyed ns np ks kp fs : Forall (keyed ns np ks kp) fs ->
  Forall (fun s => sNormAccu s <> 0) (sigmas fs ++ polars fs) ->
  (collectStatis fs <> None <->
   fs <> [] /\ (3 * length fs <= 4 * length (filter complete fs))%nat) /\
  forall st, collectStatis fs = Some st ->
  exists S P, st = (Some S, Some P) /\
    (sNormAccu S <> 0 -> forall o e t, estimate S o e t = pooledAverage (sigmas fs) o e t) /\
    (sNormAccu P <> 0 -> forall o e t,
       estimate P o e t = pooledAverage (polars (filter complete fs)) o e t).
Proof.
  intros F Z. destruct fs as [|f0 fs0] eqn:Efs; [cbn; split; [tauto|discriminate]|].
  rewrite <- Efs in *.
  assert (Ne : fs <> []) by (rewrite Efs; discriminate).
  assert (EQ : collectStatis fs
    = if Rlt_dec (INR (length (filter complete fs)) / INR (length fs)) 0.75 then None
      else Some (joinAll None (sigmas fs), joinAll None (polars (filter complete fs)))).
  { pose proof (mergeFiles_keyed ns np ks kp fs None None 0 F I I) as H.
    unfold collectStatis. rewrite H. cbn [Nat.add]. now rewrite Efs. }
  assert (K : (0 < length fs)%nat) by (rewrite Efs; cbn; lia).
  pose proof (ratio_iff (length (filter complete fs)) (length fs) K) as R.
  rewrite EQ. destruct (Rlt_dec _ _) as [L|L].
  - split; [|discriminate]. split; [tauto|]. intros [_ H]. apply R in L. lia.
  - assert (G : (3 * length fs <= 4 * length (filter complete fs))%nat).
    { destruct (le_lt_dec (3 * length fs) (4 * length (filter complete fs))); [assumption|].
      exfalso. apply L, R. lia. }
    split. { split; [intros _; split; assumption|discriminate]. }
    intros st Es. injection Es as <-.
    destruct (keyed_parts _ _ _ _ _ F) as (A & B & C & D).
    assert (N1 : sigmas fs <> []) by (intros X; rewrite X in C; cbn in C; lia).
    assert (N2 : polars (filter complete fs) <> []) by (intros X; rewrite X in D; cbn in D; lia).
    destruct (joinAll_none ns ks _ A N1) as (S & -> & [AS _] & NS & WS).
    destruct (joinAll_none np kp _ B N2) as (P & -> & [AP _] & NP & WP).
    apply Forall_app in Z. destruct Z as [Z1 Z2].
    assert (Z3 : Forall (fun s => sNormAccu s <> 0) (polars (filter complete fs))).
    { rewrite Forall_forall in *. intros x Hx. apply Z2. unfold polars in *.
      rewrite in_flat_map in *. destruct Hx as (f & Hf & Hx). apply filter_In in Hf.
      exists f. tauto. }
    exists S, P. split; [reflexivity|]. split.
    + intros NZ o e t. apply (pooled_ok ns); auto.
      rewrite Forall_forall in *. intros x Hx. split; [apply (A x Hx)|auto].
    + intros NZ o e t. apply (pooled_ok np); auto.
      rewrite Forall_forall in *. intros x Hx. split; [apply (B x Hx)|auto].
Qed.
