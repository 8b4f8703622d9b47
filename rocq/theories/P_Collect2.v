Require Import Reals List Arith Bool Lra Lia Permutation.
Require Import FunctionalExtensionality.
From Coquelicot Require Import Complex.
Require Import Verif.Collect Verif.CollectSpec Verif.P_Collect.
Import ListNotations.
Local Open Scope R_scope.

Lemma ratio_iff n k : (0 < k)%nat ->
  (INR n / INR k < 0.75 <-> (4 * n < 3 * k)%nat).
Proof.
  intros K. assert (P : 0 < INR k) by (apply lt_0_INR; lia).
  assert (E : INR n / INR k < 0.75 <-> 4 * INR n < 3 * INR k).
  { split; intros H.
    - apply (Rmult_lt_compat_r (INR k)) in H; [|exact P].
      unfold Rdiv in H. rewrite Rmult_assoc, Rinv_l in H by lra. lra.
    - apply (Rmult_lt_reg_r (INR k)); [exact P|].
      unfold Rdiv. rewrite Rmult_assoc, Rinv_l by lra. lra. }
  rewrite E. split; intros H.
  - apply INR_lt. rewrite !mult_INR. cbn [INR]. lra.
  - apply lt_INR in H. rewrite !mult_INR in H. cbn [INR] in H. lra.
Qed.

Lemma collect_some ns np ks kp fs : Forall (regular ns np ks kp) fs ->
  collectStatis fs <> None <->
  fs <> [] /\ (3 * length fs <= 4 * readableCount fs)%nat.
Proof.
  intros F. destruct fs as [|f0 fs0] eqn:Efs; [cbn; tauto|].
  rewrite <- Efs in *.
  assert (Ne : fs <> []) by (rewrite Efs; discriminate).
  rewrite (collect_eq _ _ _ _ _ F Ne).
  assert (K : (0 < length fs)%nat) by (rewrite Efs; cbn; lia).
  pose proof (ratio_iff (readableCount fs) (length fs) K) as R.
  destruct (Rlt_dec _ _) as [L|L].
  - split; [tauto|]. intros [_ H]. apply R in L. lia.
  - split; [|discriminate]. intros _. split; [exact Ne|].
    destruct (le_lt_dec (3 * length fs) (4 * readableCount fs)); [assumption|].
    exfalso. apply L, R. lia.
Qed.

Lemma collect_pool ns np ks kp fs st : Forall (regular ns np ks kp) fs ->
  collectStatis fs = Some st ->
  exists S P, st = (Some S, Some P) /\
    alikeStat ns ks S /\ alikeStat np kp P /\
    sNormAccu S = sumR (map sNormAccu (sigmas fs)) /\
    sNormAccu P = sumR (map sNormAccu (polars fs)) /\
    (forall o e t, nth o (sAccu S) slabZero e t
      = sumC (map (fun d => nth o (sAccu d) slabZero e t) (sigmas fs))) /\
    (forall o e t, nth o (sAccu P) slabZero e t
      = sumC (map (fun d => nth o (sAccu d) slabZero e t) (polars fs))).
Proof.
  intros F E.
  assert (N : collectStatis fs <> None) by (rewrite E; discriminate).
  apply (collect_some _ _ _ _ _ F) in N. destruct N as [Ne L].
  rewrite (collect_eq _ _ _ _ _ F Ne) in E.
  destruct (Rlt_dec _ _); [discriminate|]. injection E as <-.
  destruct (regular_sigmas _ _ _ _ _ F) as (A & B & LA & LB).
  assert (K : (0 < length fs)%nat) by (destruct fs; cbn; [easy|lia]).
  destruct (joinAll_none ns ks (sigmas fs) A) as (S & ES & AS & NS & WS).
  { intros H. rewrite H in LA. cbn in LA. lia. }
  destruct (joinAll_none np kp (polars fs) B) as (P & EP & AP & NP & WP).
  { intros H. rewrite H in LB. cbn in LB. lia. }
  exists S, P. rewrite ES, EP. split; [reflexivity|].
  split; [exact AS|]. split; [exact AP|]. now repeat (split; [assumption|]).
Qed.

Lemma upTo_ext n f g : (forall o, f o = g o) -> upTo n f = upTo n g.
Proof. intros H. unfold upTo. f_equal. now apply map_ext. Qed.

Lemma Rabs_nz x : 1e-3 <= Rabs x -> x <> 0.
Proof. intros H ->. rewrite Rabs_R0 in H. lra. Qed.

Section Pass.
Variable smooth : (nat -> C) -> R * R.
Variables elements bins : nat.
Let pass := collectPass smooth elements bins.

Lemma pass_average ns np ks kp th acc fs sigma polar n m :
  Forall (regular ns np ks kp) fs ->
  Forall (fun s => sNormAccu s <> 0) (sigmas fs ++ polars fs) ->
  pass th acc fs = Done (sigma, polar, (n, m)) ->
  (forall e t, sigma e t = upTo n (fun o => pooledAverage (sigmas fs) o e t)) /\
  (forall e t, polar e t = upTo m (fun o => pooledAverage (polars fs) o e t)).
Proof.
  intros F Nz. unfold pass, collectPass.
  destruct (collectStatis fs) as [st|] eqn:E; [|discriminate].
  destruct (collect_pool _ _ _ _ _ _ F E)
    as (S & P & -> & AS & AP & NS & NP & WS & WP).
  unfold updateBoth. cbn [fst snd].
  pose proof (update_ok smooth elements bins th (fst acc) S) as US.
  pose proof (update_ok smooth elements bins th (snd acc) P) as UP.
  destruct (updateOne smooth elements bins th (fst acc) (Some S))
    as [[[w k]| |] s']; cbn [fst]; try discriminate.
  destruct (updateOne smooth elements bins th (snd acc) (Some P))
    as [[[v l]| |] p']; cbn [fst]; try discriminate.
  destruct (_ || _); [discriminate|]. intros H. injection H as -> -> -> ->.
  destruct (regular_sigmas _ _ _ _ _ F) as (A & B & _ & _).
  apply Forall_app in Nz. destruct Nz as [Nz1 Nz2].
  split; intros e t.
  - destruct US as (G & W & _). rewrite W. apply upTo_ext. intros o.
    apply (pooled_ok ns); auto; [|apply AS|now apply Rabs_nz].
    rewrite Forall_forall in A, Nz1. apply Forall_forall. intros s I.
    split; [now apply A|now apply Nz1].
  - destruct UP as (G & W & _). rewrite W. apply upTo_ext. intros o.
    apply (pooled_ok np); auto; [|apply AP|now apply Rabs_nz].
    rewrite Forall_forall in B, Nz2. apply Forall_forall. intros s I.
    split; [now apply B|now apply Nz2].
Qed.

Lemma pass_perm ns np ks kp th acc fs fs' : Permutation fs fs' ->
  Forall (regular ns np ks kp) fs -> pass th acc fs = pass th acc fs'.
Proof.
  intros P F. unfold pass, collectPass. now rewrite (perm_collect _ _ _ _ _ _ P F).
Qed.

Lemma pass_orders ns np ks kp th acc fs sigma polar n m :
  Forall (regular ns np ks kp) fs ->
  pass th acc fs = Done (sigma, polar, (n, m)) ->
  (1 <= n /\ 1 <= m /\ Nat.min (fst acc) ks <= n <= ks /\
   Nat.min (snd acc) kp <= m <= kp)%nat.
Proof.
  intros F. unfold pass, collectPass.
  destruct (collectStatis fs) as [st|] eqn:E; [|discriminate].
  destruct (collect_pool _ _ _ _ _ _ F E)
    as (S & P & -> & AS & AP & _).
  unfold updateBoth. cbn [fst snd].
  pose proof (update_ok smooth elements bins th (fst acc) S) as US.
  pose proof (update_ok smooth elements bins th (snd acc) P) as UP.
  destruct (updateOne smooth elements bins th (fst acc) (Some S))
    as [[[w k]| |] s']; cbn [fst]; try discriminate.
  destruct (updateOne smooth elements bins th (snd acc) (Some P))
    as [[[v l]| |] p']; cbn [fst]; try discriminate.
  destruct (_ || _) eqn:D; [discriminate|]. intros H. injection H as -> -> -> ->.
  apply orb_false_iff in D. destruct D as [D1 D2].
  apply Nat.eqb_neq in D1. apply Nat.eqb_neq in D2.
  destruct AS as [_ LS], AP as [_ LP]. rewrite LS in US. rewrite LP in UP.
  destruct US as (_ & _ & US & _). destruct UP as (_ & _ & UP & _).
  lia.
Qed.

Lemma passes_rise ns np ks kp th runs : forall acc,
  Forall (Forall (regular ns np ks kp)) runs ->
  (fst acc <= ks /\ snd acc <= kp)%nat ->
  rising acc (passes smooth elements bins th acc runs) /\
  Forall (fun a => (fst a <= ks /\ snd a <= kp)%nat)
         (passes smooth elements bins th acc runs).
Proof.
  induction runs as [|fs runs IH]; intros acc F B; cbn [passes].
  - split; [exact I|constructor].
  - inversion F as [|? ? F0 F']; subst.
    destruct (collectPass smooth elements bins th acc fs)
      as [[[sg po] [n m]]| |] eqn:E.
    + destruct (pass_orders _ _ _ _ _ _ _ _ _ _ _ F0 E) as (_ & _ & H1 & H2).
      assert (B' : (fst (n, m) <= ks /\ snd (n, m) <= kp)%nat) by (cbn; lia).
      destruct (IH (n, m) F' B') as [R Q].
      split; [|constructor; assumption]. cbn [rising].
      split; [cbn; lia|exact R].
    + destruct (IH acc F' B) as [R Q].
      split; [|constructor; assumption]. cbn [rising]. split; [lia|exact R].
    + split; [exact I|constructor].
Qed.

Lemma pass_accept ns np ks kp th acc fs sigma polar n m :
  Forall (regular ns np ks kp) fs ->
  Forall (fun s => sNormAccu s <> 0) (sigmas fs) ->
  pass th acc fs = Done (sigma, polar, (n, m)) ->
  let w := fun o e t => pooledAverage (sigmas fs) o e t in
  (forall o, (fst acc <= o < n)%nat ->
     exists r, lastNoise smooth elements bins w o r /\ r < th) /\
  ((n < ks)%nat ->
     exists r, lastNoise smooth elements bins w n r /\ th <= r).
Proof.
  intros F Nz. unfold pass, collectPass.
  destruct (collectStatis fs) as [st|] eqn:E; [|discriminate].
  destruct (collect_pool _ _ _ _ _ _ F E)
    as (S & P & -> & AS & AP & NS & _ & WS & _).
  unfold updateBoth. cbn [fst snd].
  pose proof (update_ok smooth elements bins th (fst acc) S) as US.
  destruct (updateOne smooth elements bins th (fst acc) (Some S))
    as [[[w k]| |] s']; cbn [fst]; try discriminate.
  destruct (updateOne smooth elements bins th (snd acc) (Some P))
    as [[[v l]| |] p']; cbn [fst]; try discriminate.
  destruct (_ || _) eqn:D; [discriminate|]. intros H. injection H as -> -> -> ->.
  destruct US as (G & _ & _ & U1 & U2 & _).
  destruct (regular_sigmas _ _ _ _ _ F) as (A & _).
  assert (X : scaled S = (fun o e t => pooledAverage (sigmas fs) o e t)).
  { extensionality o. extensionality e. extensionality t. unfold scaled.
    apply (pooled_ok ns); auto; [|apply AS|now apply Rabs_nz].
    rewrite Forall_forall in A, Nz. apply Forall_forall. intros s I.
    split; [now apply A|now apply Nz]. }
  rewrite X in U1, U2. destruct AS as [_ LS]. rewrite LS in U2.
  split; assumption.
Qed.

Lemma pass_crash ns np ks kp th acc fs :
  Forall (regular ns np ks kp) fs ->
  Forall (fun s => sNormAccu s <> 0) (sigmas fs) ->
  fs <> [] -> (3 * length fs <= 4 * readableCount fs)%nat ->
  1e-3 <= Rabs (sumR (map sNormAccu (sigmas fs))) ->
  silent smooth elements bins (fun e t => pooledAverage (sigmas fs) 0 e t) ->
  pass th acc fs = Crash.
Proof.
  intros F Nz Ne L G Si. unfold pass, collectPass.
  destruct (collectStatis fs) as [st|] eqn:E; cycle 1.
  { exfalso. apply (proj2 (collect_some _ _ _ _ _ F)) in E; auto. }
  destruct (collect_pool _ _ _ _ _ _ F E)
    as (S & P & -> & AS & AP & NS & _ & WS & _).
  unfold updateBoth. cbn [fst snd]. rewrite <- NS in G.
  destruct (regular_sigmas _ _ _ _ _ F) as (A & _).
  rewrite (update_crash smooth elements bins th (fst acc) S G); [reflexivity|].
  assert (X : scaled S 0 = (fun e t => pooledAverage (sigmas fs) 0 e t)).
  { extensionality e. extensionality t. unfold scaled.
    apply (pooled_ok ns); auto; [|apply AS|now apply Rabs_nz].
    rewrite Forall_forall in A, Nz. apply Forall_forall. intros s I.
    split; [now apply A|now apply Nz]. }
  now rewrite X.
Qed.

End Pass.

(* concrete files *)
Definition flat (c : R) : slab := fun _ _ => RtoC c.
Definition both (s : stat) : option file := Some (File (Some s) (Some s)).

Lemma slab_eq (x y : slab) : (forall e t, x e t = y e t) -> x = y.
Proof. intros H. extensionality e. extensionality t. apply H. Qed.

Definition plain : stat := Stat 1 1 [flat 1].
Definition two : stat := Stat 1 1 [flat 1; flat 0].
Definition odd : stat := Stat 2 1 [flat (1/2)].

Ltac norms := repeat match goal with
  | |- context [Req_EM_T ?a ?b] => destruct (Req_EM_T a b); try lra
  | |- context [Rlt_dec ?a ?b] => destruct (Rlt_dec a b); try lra
  end.

Ltac go := repeat (progress (
  cbn [mergeFiles mergeFile mergePart mergeFrom plusInPlace fSigma fPolar
       sNorm sNormAccu sAccu length Nat.eqb map combine fst snd]; norms)).

Ltac quarter := match goal with
  | H : _ < 0.75 |- _ => apply ratio_iff in H; cbn in H; lia
  | H : ~ _ < 0.75 |- _ => apply H, ratio_iff; cbn; lia
  end.

Lemma odd_last : exists S P,
  collectStatis [both plain; both plain; both plain; both odd]
  = Some (Some S, Some P) /\ (forall e t, estimate S 0 e t = RtoC (7/8)).
Proof.
  unfold collectStatis, both, plain, odd, two.
  go.
  - exfalso. quarter.
  - do 2 eexists. split; [reflexivity|]. intros ? ?. unfold estimate, slabAdd, flat.
    cbn. unfold Cmult, Cplus, RtoC. cbn. f_equal; field.
Qed.

Lemma odd_first :
  collectStatis [both odd; both plain; both plain; both plain] = None.
Proof.
  unfold collectStatis, both, plain, odd, two.
  go; [reflexivity|]. exfalso. quarter.
Qed.

Lemma plain_estimate e t : estimate plain 0 e t = RtoC 1.
Proof. unfold estimate, plain, flat, Cmult, RtoC. cbn. f_equal; field. Qed.
Lemma odd_estimate e t : estimate odd 0 e t = RtoC 1.
Proof. unfold estimate, odd, flat, Cmult, RtoC. cbn. f_equal; field. Qed.

Lemma short_file : exists S P,
  collectStatis [both two; both two; both two; both plain]
  = Some (Some S, Some P) /\ (forall e t, estimate S 1 e t = RtoC (1/4)) /\
  (forall e t, estimate two 1 e t = RtoC 0).
Proof.
  unfold collectStatis, both, plain, odd, two.
  go.
  - exfalso. quarter.
  - do 2 eexists. split; [reflexivity|].
    split; intros ? ?; unfold estimate, slabAdd, flat;
    cbn; unfold Cmult, Cplus, RtoC; cbn; f_equal; field.
Qed.

(* order 2 empty at first, noisy later *)
Definition curve (y : nat -> C) : slab := fun _ t => y t.
Lemma scale1 l : map (slabScale (1 / 1 * 1)) l = l.
Proof.
  rewrite <- (map_id l) at 2. apply map_ext. intros x. apply slab_eq.
  intros e t. unfold slabScale. replace (1 / 1 * 1) with 1 by field.
  apply Cmult_1_l.
Qed.

Definition single (ws : list slab) : list (option file) := [both (Stat 1 1 ws)].
Lemma single_collect ws :
  collectStatis (single ws)
  = Some (Some (Stat 1 1 ws), Some (Stat 1 1 ws)).
Proof.
  unfold collectStatis, single, both.
  cbn [mergeFiles mergeFile mergePart mergeFrom fSigma fPolar fst snd length].
  norms; [|reflexivity]. exfalso. quarter.
Qed.

Lemma stale_order smooth bins th quiet noisy :
  (0 < bins)%nat ->
  negligible bins quiet = false -> 0 < fst (smooth quiet) ->
  snd (smooth quiet) < th ->
  negligible bins noisy = false -> 0 < fst (smooth noisy) ->
  th <= snd (smooth noisy) ->
  let run1 := single [curve quiet; slabZero] in
  let run2 := single [curve quiet; curve noisy] in
  passes smooth 1 bins th (0, 0)%nat [run1; run2] = [(2, 2); (2, 2)]%nat /\
  passes smooth 1 bins th (0, 0)%nat [run2] = [(1, 1)]%nat.
Proof.
  intros B Q1 Q2 Q3 N1 N2 N3 r1 r2.
  assert (Z : negligible bins (fun t => slabZero 0%nat t) = true).
  { destruct (negligible bins (fun t => slabZero 0%nat t)) eqn:E; [reflexivity|].
    apply negligible_iff in E. destruct E as (t & _ & M). unfold slabZero in M.
    rewrite Cmod_R, Rabs_R0 in M. lra. }
  assert (U : forall ws acc, ws <> [] ->
     updateOne smooth 1 bins th acc (Some (Stat 1 1 ws)) =
     match acceptOrders smooth 1 bins th acc 0 None ws with
     | Done n => (Done (slabSum (firstn n ws), n), Some (Stat 1 0 ws))
     | Failure => (Failure, Some (Stat 1 0 ws))
     | Crash => (Crash, Some (Stat 1 0 ws))
     end).
  { intros ws acc Ne. unfold updateOne. cbn [sNormAccu sNorm sAccu].
    rewrite Rabs_R1. destruct (Rlt_dec 1 1e-3) as [L|_]; [exfalso; lra|].
    rewrite scale1. destruct ws; [easy|]. reflexivity. }
  assert (A1 : forall acc, acceptOrders smooth 1 bins th acc 0 None
                 [curve quiet; slabZero] = Done 2%nat).
  { intros acc. cbn [acceptOrders seq scanElements].
    unfold curve. change (fun t => quiet t) with quiet. rewrite Q1.
    destruct (smooth quiet) as [a s] eqn:E; cbn [fst snd] in *.
    destruct (Rlt_dec 0 a); [|exfalso; lra]. cbn [scanElements].
    destruct (Rlt_dec s th); [|exfalso; lra]. cbn [orb].
    change (slabZero 0%nat) with (fun t => slabZero 0%nat t). rewrite Z.
    destruct (Rlt_dec s th); [|exfalso; lra]. reflexivity. }
  assert (A2 : forall acc, acceptOrders smooth 1 bins th acc 0 None
                 [curve quiet; curve noisy]
               = Done (if Nat.leb 2 acc then 2 else 1)%nat).
  { intros acc. cbn [acceptOrders seq scanElements].
    unfold curve. change (fun t => quiet t) with quiet.
    change (fun t => noisy t) with noisy. rewrite Q1, N1.
    destruct (smooth quiet) as [a s] eqn:E.
    destruct (smooth noisy) as [a' s'] eqn:E'; cbn [fst snd] in *.
    destruct (Rlt_dec 0 a); [|exfalso; lra].
    destruct (Rlt_dec 0 a'); [|exfalso; lra]. cbn [scanElements].
    destruct (Rlt_dec s th); [|exfalso; lra]. cbn [orb].
    destruct (Rlt_dec s' th); [exfalso; lra|]. cbn [orb].
    destruct (Nat.leb 2 acc); reflexivity. }
  split; cbn [passes]; unfold collectPass, r1, r2; rewrite !single_collect;
    unfold updateBoth; cbn [fst snd]; rewrite !U by discriminate;
    rewrite ?A1; cbn [fst snd orb Nat.eqb].
  - rewrite ?single_collect. cbn [fst snd]. rewrite !U by discriminate.
    rewrite !A2. reflexivity.
  - rewrite !A2. reflexivity.
Qed.
