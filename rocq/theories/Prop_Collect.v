(* C118-C120: gathering the statistics of the jobs (dyson/collect.py). *)
Require Import Reals List Arith Bool Lra Lia Permutation.
From Coquelicot Require Import Complex.
Require Import Verif.Collect Verif.CollectSpec Verif.P_Collect Verif.P_Collect2 Verif.P_Collect3.
Import ListNotations.
Local Open Scope R_scope.

(* C118: what one pass makes of the files is, order by order, the average of
   the runs' own estimates, each weighted with its accumulated
   normalisation. *)
Theorem C118_average :
  forall (smooth : (nat -> C) -> R * R) (elements bins : nat)
         ns np ks kp threshold accepted fs sigma polar n m,
  Forall (regular ns np ks kp) fs ->
  Forall (fun s => sNormAccu s <> 0) (sigmas fs ++ polars fs) ->
  collectPass smooth elements bins threshold accepted fs
  = Done (sigma, polar, (n, m)) ->
  (forall e t, sigma e t = upTo n (fun o => pooledAverage (sigmas fs) o e t)) /\
  (forall e t, polar e t = upTo m (fun o => pooledAverage (polars fs) o e t)).
Proof. exact pass_average. Qed.
Print Assumptions C118_average.

(* The order in which the directory lists the files does not matter. *)
Theorem C118_order :
  forall (smooth : (nat -> C) -> R * R) (elements bins : nat)
         ns np ks kp threshold accepted fs fs',
  Permutation fs fs' -> Forall (regular ns np ks kp) fs ->
  collectPass smooth elements bins threshold accepted fs
  = collectPass smooth elements bins threshold accepted fs'.
Proof. exact pass_perm. Qed.
Print Assumptions C118_order.

(* Collecting succeeds exactly when there are files and at least three
   quarters of them can be read. *)
Theorem C118_enough :
  forall ns np ks kp fs, Forall (regular ns np ks kp) fs ->
  collectStatis fs <> None <->
  fs <> [] /\ (3 * length fs <= 4 * readableCount fs)%nat.
Proof. exact collect_some. Qed.
Print Assumptions C118_enough.

(* Five files, one of them unreadable, the others with two orders. *)
Definition someRun (c d : R) : stat := Stat 3 c [flat d; flat (d + 1)].
Definition someFiles : list (option file) :=
  [both (someRun 1 2); None; both (someRun 4 1); both (someRun 2 7);
   both (someRun 2 2)].
Example C118_case :
  Forall (regular 3 3 2 2) someFiles /\
  Forall (fun s => sNormAccu s <> 0) (sigmas someFiles ++ polars someFiles) /\
  collectStatis someFiles <> None /\
  (forall e t, pooledAverage (sigmas someFiles) 1 e t = RtoC (16/3)).
Proof.
  assert (F : Forall (regular 3 3 2 2) someFiles).
  { repeat constructor; cbn; eexists; eexists;
      (split; [reflexivity|]); (split; [reflexivity|]); repeat split. }
  split; [exact F|]. split; [cbn; repeat constructor; cbn; lra|]. split.
  - apply (collect_some _ _ _ _ _ F). split; [discriminate|cbn; lia].
  - intros e t. unfold pooledAverage, estimate, someRun, flat, Cdiv, Cinv, Cmult,
      Cplus, RtoC. cbn. unfold Cplus, Cinv. cbn. f_equal; field.
Qed.

(* Files that lack a histogram count as failures; the Polar of a file without
   Sigma is dropped, but the Sigma of a file without Polar stays in the
   average. *)
Theorem C118_keys :
  forall ns np ks kp fs, Forall (keyed ns np ks kp) fs ->
  Forall (fun s => sNormAccu s <> 0) (sigmas fs ++ polars fs) ->
  (collectStatis fs <> None <->
   fs <> [] /\ (3 * length fs <= 4 * length (filter complete fs))%nat) /\
  forall st, collectStatis fs = Some st ->
  exists S P, st = (Some S, Some P) /\
    (sNormAccu S <> 0 -> forall o e t,
       estimate S o e t = pooledAverage (sigmas fs) o e t) /\
    (sNormAccu P <> 0 -> forall o e t,
       estimate P o e t = pooledAverage (polars (filter complete fs)) o e t).
Proof. exact collect_keyed. Qed.
Print Assumptions C118_keys.

Definition oneKey : list (option file) :=
  [both (someRun 1 2); Some (File (Some (someRun 5 1)) None); both (someRun 4 1);
   both (someRun 2 7)].
Example C118_keys_case :
  Forall (keyed 3 3 2 2) oneKey /\
  Forall (fun s => sNormAccu s <> 0) (sigmas oneKey ++ polars oneKey) /\
  collectStatis oneKey <> None /\
  length (sigmas oneKey) = 4%nat /\ length (polars (filter complete oneKey)) = 3%nat.
Proof.
  assert (F : Forall (keyed 3 3 2 2) oneKey).
  { repeat constructor; cbn in *; try congruence;
      match goal with H : Some _ = Some _ |- _ => injection H as <- end; reflexivity. }
  assert (Z : Forall (fun s => sNormAccu s <> 0) (sigmas oneKey ++ polars oneKey))
    by (cbn; repeat constructor; cbn; lra).
  split; [exact F|]. split; [exact Z|]. split; [|split; reflexivity].
  apply (collect_keyed _ _ _ _ _ F Z). split; [discriminate|cbn; lia].
Qed.

(* C119: a file that fails to merge is left out of the result.  False: its
   data are added before its norm is compared.  Here the four runs all
   estimate 1 at order 1, one of them with another Norm; that one raises, is
   counted as a failure -- and the result is 7/8. *)
Theorem C119_failed_file_refuted :
  exists good bad S P,
    (forall e t, estimate good 0 e t = RtoC 1) /\
    (forall e t, estimate bad 0 e t = RtoC 1) /\
    sNorm bad <> sNorm good /\
    collectStatis [both good; both good; both good; both bad]
    = Some (Some S, Some P) /\
    forall e t, estimate S 0 e t = RtoC (7/8).
Proof.
  destruct odd_last as (S & P & E & H).
  exists plain, odd, S, P. split; [exact plain_estimate|].
  split; [exact odd_estimate|]. split; [cbn; lra|]. split; assumption.
Qed.
Print Assumptions C119_failed_file_refuted.

(* With such a file the order of the directory listing decides whether
   collecting succeeds at all. *)
Theorem C119_listing_refuted :
  exists fs fs', Permutation fs fs' /\
    collectStatis fs <> None /\ collectStatis fs' = None.
Proof.
  exists [both plain; both plain; both plain; both odd],
         [both odd; both plain; both plain; both plain].
  split; [|split].
  - apply Permutation_sym.
    exact (Permutation_cons_append [both plain; both plain; both plain] (both odd)).
  - destruct odd_last as (S & P & -> & _). discriminate.
  - exact odd_first.
Qed.
Print Assumptions C119_listing_refuted.

(* "work even if order WeightDict is smaller than MaxOrder": a file with a
   single order is added to every order.  Three runs estimate 0 for order 2,
   the fourth has no order 2; the result for order 2 is 1/4. *)
Theorem C119_short_file_refuted :
  exists long short S P,
    length (sAccu long) = 2%nat /\ length (sAccu short) = 1%nat /\
    (forall e t, estimate long 1 e t = RtoC 0) /\
    collectStatis [both long; both long; both long; both short]
    = Some (Some S, Some P) /\
    forall e t, estimate S 1 e t = RtoC (1/4).
Proof.
  destruct short_file as (S & P & E & H & Z).
  exists two, plain, S, P.
  split; [reflexivity|]. split; [reflexivity|]. split; [exact Z|]. split; assumption.
Qed.
Print Assumptions C119_short_file_refuted.

(* C120: the accepted order lies between the one accepted before and the
   highest order measured, and is at least 1. *)
Theorem C120_range :
  forall (smooth : (nat -> C) -> R * R) (elements bins : nat)
         ns np ks kp threshold accepted fs sigma polar n m,
  Forall (regular ns np ks kp) fs ->
  collectPass smooth elements bins threshold accepted fs
  = Done (sigma, polar, (n, m)) ->
  (1 <= n /\ 1 <= m /\ Nat.min (fst accepted) ks <= n <= ks /\
   Nat.min (snd accepted) kp <= m <= kp)%nat.
Proof. exact pass_orders. Qed.
Print Assumptions C120_range.

(* Newly accepted orders are those for which the last order with a signal is
   quiet enough; the first one refused is not. *)
Theorem C120_accepted :
  forall (smooth : (nat -> C) -> R * R) (elements bins : nat)
         ns np ks kp threshold accepted fs sigma polar n m,
  Forall (regular ns np ks kp) fs ->
  Forall (fun s => sNormAccu s <> 0) (sigmas fs) ->
  collectPass smooth elements bins threshold accepted fs
  = Done (sigma, polar, (n, m)) ->
  let w := fun o e t => pooledAverage (sigmas fs) o e t in
  (forall o, (fst accepted <= o < n)%nat ->
     exists r, lastNoise smooth elements bins w o r /\ r < threshold) /\
  ((n < ks)%nat ->
     exists r, lastNoise smooth elements bins w n r /\ threshold <= r).
Proof. exact pass_accept. Qed.
Print Assumptions C120_accepted.

(* Over any number of passes the accepted orders never go down. *)
Theorem C120_rising :
  forall (smooth : (nat -> C) -> R * R) (elements bins : nat)
         ns np ks kp threshold runs accepted,
  Forall (Forall (regular ns np ks kp)) runs ->
  (fst accepted <= ks /\ snd accepted <= kp)%nat ->
  rising accepted (passes smooth elements bins threshold accepted runs) /\
  Forall (fun a => (fst a <= ks /\ snd a <= kp)%nat)
         (passes smooth elements bins threshold accepted runs).
Proof. exact passes_rise. Qed.
Print Assumptions C120_rising.

(* "An order is accepted once its own noise is below the threshold" is false:
   an order without any data is accepted with the noise of the order before
   it, and stays accepted when its data arrive and are too noisy.  This holds
   whatever the smoothing, as soon as there are quiet and noisy curves. *)
Theorem C120_stale_refuted :
  forall smooth bins threshold quiet noisy,
  (0 < bins)%nat ->
  negligible bins quiet = false -> 0 < fst (smooth quiet) ->
  snd (smooth quiet) < threshold ->
  negligible bins noisy = false -> 0 < fst (smooth noisy) ->
  threshold <= snd (smooth noisy) ->
  exists run1 run2,
    passes smooth 1 bins threshold (0, 0)%nat [run1; run2]
    = [(2, 2); (2, 2)]%nat /\
    passes smooth 1 bins threshold (0, 0)%nat [run2] = [(1, 1)]%nat.
Proof.
  intros. eexists. eexists. now apply (stale_order smooth bins threshold quiet noisy).
Qed.
Print Assumptions C120_stale_refuted.

(* "Statistics that are not there yet make a version fail, not the program"
   is false: without a signal at order 1 of Sigma an exception ends it. *)
Theorem C120_crash_refuted :
  forall (smooth : (nat -> C) -> R * R) (elements bins : nat)
         ns np ks kp threshold accepted fs,
  Forall (regular ns np ks kp) fs ->
  Forall (fun s => sNormAccu s <> 0) (sigmas fs) ->
  fs <> [] -> (3 * length fs <= 4 * readableCount fs)%nat ->
  1e-3 <= Rabs (sumR (map sNormAccu (sigmas fs))) ->
  silent smooth elements bins (fun e t => pooledAverage (sigmas fs) 0 e t) ->
  collectPass smooth elements bins threshold accepted fs = Crash.
Proof. exact pass_crash. Qed.
Print Assumptions C120_crash_refuted.

(* A smoothing for the examples: two bins, their mean and their spread. *)
Definition meanSpread (y : nat -> C) : R * R :=
  (Rabs (fst (y 0%nat) + fst (y 1%nat)) / 2,
   Rabs (fst (y 0%nat) - fst (y 1%nat)) / 2).
Definition quietCurve : nat -> C := fun _ => RtoC 1.
Definition noisyCurve : nat -> C := fun t => RtoC (if Nat.eqb t 0 then 5 else 1).
Example C120_case :
  (0 < 2)%nat /\
  negligible 2 quietCurve = false /\ 0 < fst (meanSpread quietCurve) /\
  snd (meanSpread quietCurve) < 1/10 /\
  negligible 2 noisyCurve = false /\ 0 < fst (meanSpread noisyCurve) /\
  1/10 <= snd (meanSpread noisyCurve).
Proof.
  assert (A : forall c, 1 <= c -> 1e-8 < Cmod (RtoC c)).
  { intros c H. rewrite Cmod_R, Rabs_pos_eq; lra. }
  split; [lia|]. split.
  { apply negligible_iff. exists 0%nat. split; [lia|]. apply A. lra. }
  split. { cbn. rewrite Rabs_pos_eq; lra. }
  split. { cbn. rewrite Rabs_pos_eq; lra. }
  split.
  { apply negligible_iff. exists 0%nat. split; [lia|]. apply A. cbn. lra. }
  split; cbn; rewrite Rabs_pos_eq; lra.
Qed.

(* C120_crash_refuted: one run that has measured its normalisation only. *)
Example C120_crash_case :
  let fs := [both (Stat 3 100 [flat 0; flat 0])] in
  Forall (regular 3 3 2 2) fs /\
  Forall (fun s => sNormAccu s <> 0) (sigmas fs) /\
  fs <> [] /\ (3 * length fs <= 4 * readableCount fs)%nat /\
  1e-3 <= Rabs (sumR (map sNormAccu (sigmas fs))) /\
  silent meanSpread 4 2 (fun e t => pooledAverage (sigmas fs) 0 e t).
Proof.
  cbn zeta. split.
  { repeat constructor; cbn; eexists; eexists;
      (split; [reflexivity|]); (split; [reflexivity|]); repeat split. }
  split; [cbn; repeat constructor; cbn; lra|]. split; [discriminate|].
  split; [cbn; lia|]. split; [cbn; rewrite Rabs_pos_eq; lra|].
  intros e (_ & (t & _ & M) & _).
  replace (pooledAverage _ 0 e t) with (RtoC 0) in M.
  - rewrite Cmod_R, Rabs_R0 in M. lra.
  - unfold pooledAverage, estimate, flat, Cdiv, Cinv, Cmult, Cplus, RtoC.
    cbn. unfold Cplus. cbn. f_equal; field.
Qed.
