Require Import Reals List Arith Bool Lra Lia Permutation.
Require Import FunctionalExtensionality.
From Coquelicot Require Import Complex.
Require Import Verif.Collect Verif.CollectSpec.
Import ListNotations.
Local Open Scope R_scope.

Lemma slabAdd_comm x y : slabAdd x y = slabAdd y x.
Proof. extensionality e. extensionality t. apply Cplus_comm. Qed.
Lemma slabAdd_assoc x y z : slabAdd (slabAdd x y) z = slabAdd x (slabAdd y z).
Proof.
  extensionality e. extensionality t. unfold slabAdd. now rewrite Cplus_assoc.
Qed.

(* adding stats of the same kind *)
Definition cubeAdd (a b : list slab) : list slab :=
  map (fun p => slabAdd (fst p) (snd p)) (combine a b).
Definition statAdd (s d : stat) : stat :=
  Stat (sNorm s) (sNormAccu s + sNormAccu d) (cubeAdd (sAccu s) (sAccu d)).

Lemma cubeAdd_length a b :
  length a = length b -> length (cubeAdd a b) = length a.
Proof.
  intros E. unfold cubeAdd. rewrite map_length, combine_length. lia.
Qed.

Lemma cubeAdd_nth a : forall b o e t, length a = length b ->
  nth o (cubeAdd a b) slabZero e t
  = Cplus (nth o a slabZero e t) (nth o b slabZero e t).
Proof.
  induction a as [|x a IH]; intros [|y b] o e t E; try discriminate.
  - destruct o; cbn; unfold slabZero; now rewrite Cplus_0_l.
  - destruct o; [reflexivity|]. cbn in E. injection E as E.
    cbn [nth cubeAdd map combine]. exact (IH b o e t E).
Qed.

Lemma cubeAdd_comm a : forall b, cubeAdd a b = cubeAdd b a.
Proof.
  induction a as [|x a IH]; intros [|y b]; try reflexivity.
  unfold cubeAdd in *; cbn [map combine fst snd].
  now rewrite slabAdd_comm, IH.
Qed.
Lemma cubeAdd_assoc a : forall b c,
  cubeAdd (cubeAdd a b) c = cubeAdd a (cubeAdd b c).
Proof.
  induction a as [|x a IH]; intros [|y b] [|z c]; try reflexivity.
  unfold cubeAdd in *; cbn [map combine fst snd].
  now rewrite slabAdd_assoc, IH.
Qed.

Definition join (e : option stat) (d : stat) : option stat :=
  match e with None => Some d | Some s => Some (statAdd s d) end.
Definition joinAll (e : option stat) (l : list stat) : option stat :=
  fold_left join l e.

Definition fine (n : R) (k : nat) (e : option stat) : Prop :=
  match e with None => True | Some s => alikeStat n k s end.

Lemma merge_join n k e d : fine n k e -> alikeStat n k d ->
  mergeFrom e d = (join e d, true) /\ fine n k (join e d).
Proof.
  destruct e as [s|]; cbn; [|auto].
  intros [N K] [N' K'].
  unfold plusInPlace. rewrite K, K', Nat.eqb_refl.
  split.
  - destruct (Req_EM_T (sNorm s) (sNorm d)) as [_|D]; [reflexivity|].
    rewrite N, N' in D. now destruct D.
  - split; [exact N|]. cbn. rewrite cubeAdd_length; lia.
Qed.

Lemma mergeFiles_join ns np ks kp fs : forall e p n,
  Forall (regular ns np ks kp) fs -> fine ns ks e -> fine np kp p ->
  mergeFiles (e, p) n fs
  = ((joinAll e (sigmas fs), joinAll p (polars fs)), (n + readableCount fs)%nat)
  /\ fine ns ks (joinAll e (sigmas fs)) /\ fine np kp (joinAll p (polars fs)).
Proof.
  induction fs as [|f fs IH]; intros e p n F E P.
  - cbn. rewrite Nat.add_0_r. auto.
  - inversion F as [|? ? R F']; subst.
    destruct f as [[s0 p0]|]; cbn [mergeFiles mergeFile].
    + destruct R as (s & q & Es & Eq & As & Aq). cbn in Es, Eq. subst.
      cbn [fSigma fPolar mergePart fst snd].
      destruct (merge_join _ _ _ _ E As) as [-> E'].
      destruct (merge_join _ _ _ _ P Aq) as [-> P'].
      destruct (IH (join e s) (join p q) (S n) F' E' P') as (H & H1 & H2).
      rewrite H. unfold readableCount; cbn [filter length].
      split; [|now split].
      f_equal. lia.
    + destruct (IH e p n F' E P) as (H & H1 & H2).
      rewrite H. now split.
Qed.

Lemma join_swap e a b : forall n, 
  (forall s, e = Some s -> sNorm s = n) -> sNorm a = n -> sNorm b = n ->
  join (join e a) b = join (join e b) a.
Proof.
  intros n He Ha Hb. destruct e as [s|]; unfold join, statAdd; cbn [sNorm sNormAccu sAccu].
  - rewrite !cubeAdd_assoc, (cubeAdd_comm (sAccu a)).
    rewrite !Rplus_assoc, (Rplus_comm (sNormAccu a)). reflexivity.
  - rewrite Ha, Hb, (cubeAdd_comm (sAccu a)), (Rplus_comm (sNormAccu a)).
    reflexivity.
Qed.

Lemma join_norm e d n : (forall s, e = Some s -> sNorm s = n) -> sNorm d = n ->
  forall s, join e d = Some s -> sNorm s = n.
Proof.
  intros He Hd s. destruct e; cbn; intros H; injection H as <-; cbn; auto.
Qed.

Lemma joinAll_perm n l l' : Permutation l l' ->
  Forall (fun s => sNorm s = n) l ->
  forall e, (forall s, e = Some s -> sNorm s = n) ->
  joinAll e l = joinAll e l'.
Proof.
  induction 1 as [|x l l' P IH|x y l|l l' l'' P IH P' IH']; intros F e He.
  - reflexivity.
  - inversion F; subst. apply IH; [assumption|]. now apply join_norm.
  - inversion F as [|? ? Hy F']; subst. inversion F' as [|? ? Hx F'']; subst.
    unfold joinAll. cbn [fold_left]. f_equal.
    eapply join_swap; eauto.
  - rewrite IH by assumption. apply IH'; [|assumption].
    eapply Permutation_Forall; eauto.
Qed.

Lemma perm_flat_map {A B} (f : A -> list B) l l' :
  Permutation l l' -> Permutation (flat_map f l) (flat_map f l').
Proof.
  induction 1; cbn.
  - constructor.
  - now apply Permutation_app_head.
  - rewrite !app_assoc. apply Permutation_app_tail. apply Permutation_app_comm.
  - eapply perm_trans; eauto.
Qed.

Lemma regular_sigmas ns np ks kp fs : Forall (regular ns np ks kp) fs ->
  Forall (alikeStat ns ks) (sigmas fs) /\ Forall (alikeStat np kp) (polars fs)
  /\ length (sigmas fs) = readableCount fs
  /\ length (polars fs) = readableCount fs.
Proof.
  induction 1 as [|f fs R F IH]; [repeat split; constructor|].
  destruct IH as (A & B & C & D).
  destruct f as [[s0 p0]|]; [|now auto].
  destruct R as (s & q & Es & Eq & As & Aq). cbn in Es, Eq. subst.
  unfold readableCount in *; cbn [sigmas polars flat_map filter length app] in *.
  repeat split; try constructor; auto.
Qed.

Lemma perm_readable fs fs' :
  Permutation fs fs' -> readableCount fs = readableCount fs'.
Proof.
  unfold readableCount. induction 1; cbn; auto.
  - destruct x; cbn; auto.
  - destruct x, y; cbn; auto.
  - congruence.
Qed.

Lemma collect_eq ns np ks kp fs : Forall (regular ns np ks kp) fs ->
  fs <> [] ->
  collectStatis fs
  = if Rlt_dec (INR (readableCount fs) / INR (length fs)) 0.75 then None
    else Some (joinAll None (sigmas fs), joinAll None (polars fs)).
Proof.
  intros F Ne. unfold collectStatis. destruct fs as [|f fs]; [easy|].
  destruct (mergeFiles_join ns np ks kp (f :: fs) None None 0 F I I)
    as (H & _ & _).
  rewrite H. cbn [Nat.add]. reflexivity.
Qed.

Lemma perm_collect ns np ks kp fs fs' : Permutation fs fs' ->
  Forall (regular ns np ks kp) fs -> collectStatis fs = collectStatis fs'.
Proof.
  intros P F. destruct fs as [|f0 fs0] eqn:Efs.
  - apply Permutation_nil in P. now subst.
  - rewrite <- Efs in *.
    assert (Ne : fs <> []) by (rewrite Efs; discriminate).
    assert (Ne' : fs' <> []).
    { intros ->. apply Permutation_sym, Permutation_nil in P. easy. }
    assert (F' : Forall (regular ns np ks kp) fs')
      by (eapply Permutation_Forall; eauto).
    rewrite (collect_eq _ _ _ _ _ F Ne), (collect_eq _ _ _ _ _ F' Ne').
    rewrite (perm_readable _ _ P), (Permutation_length P).
    destruct (regular_sigmas _ _ _ _ _ F) as (A & B & _).
    rewrite (joinAll_perm ns (sigmas fs) (sigmas fs')); cycle 1.
    { now apply perm_flat_map. }
    { eapply Forall_impl; [|exact A]. now intros s [? _]. }
    { discriminate. }
    rewrite (joinAll_perm np (polars fs) (polars fs')); cycle 1.
    { now apply perm_flat_map. }
    { eapply Forall_impl; [|exact B]. now intros s [? _]. }
    { discriminate. }
    reflexivity.
Qed.

(* the pooled data *)
Lemma joinAll_some n k l : forall s, alikeStat n k s ->
  Forall (alikeStat n k) l ->
  exists S, joinAll (Some s) l = Some S /\ alikeStat n k S /\
    sNormAccu S = sNormAccu s + sumR (map sNormAccu l) /\
    forall o e t, nth o (sAccu S) slabZero e t
      = Cplus (nth o (sAccu s) slabZero e t)
              (sumC (map (fun d => nth o (sAccu d) slabZero e t) l)).
Proof.
  induction l as [|d l IH]; intros s As F.
  - exists s. cbn. repeat split; try apply As; [lra|].
    intros. now rewrite Cplus_0_r.
  - inversion F as [|? ? Ad F']; subst.
    assert (A' : alikeStat n k (statAdd s d)).
    { destruct As as [N K], Ad as [N' K']. split; [exact N|].
      cbn. rewrite cubeAdd_length; lia. }
    destruct (IH _ A' F') as (S & E & AS & N & W).
    exists S. split; [exact E|]. split; [exact AS|]. split.
    + rewrite N. change (sumR (map sNormAccu (d :: l)))
        with (sNormAccu d + sumR (map sNormAccu l)).
      cbn [statAdd sNormAccu]. lra.
    + intros. rewrite W. cbn [statAdd sAccu map sumC fold_right].
      rewrite cubeAdd_nth by (destruct As, Ad; congruence).
      now rewrite Cplus_assoc.
Qed.

Lemma joinAll_none n k l : Forall (alikeStat n k) l -> l <> [] ->
  exists S, joinAll None l = Some S /\ alikeStat n k S /\
    sNormAccu S = sumR (map sNormAccu l) /\
    forall o e t, nth o (sAccu S) slabZero e t
      = sumC (map (fun d => nth o (sAccu d) slabZero e t) l).
Proof.
  intros F Ne. destruct l as [|d l]; [easy|]. inversion F; subst.
  destruct (joinAll_some n k l d) as (S & E & A & N & W); auto.
  exists S. repeat split; auto; apply A.
Qed.

Lemma sumC_scale a l : Cmult a (sumC l) = sumC (map (Cmult a) l).
Proof.
  induction l as [|x l IH]; cbn.
  - unfold sumC; cbn. now rewrite Cmult_0_r.
  - unfold sumC in *; cbn. now rewrite Cmult_plus_distr_l, IH.
Qed.

Lemma pooled_ok n l S o e t :
  Forall (fun s => sNorm s = n /\ sNormAccu s <> 0) l ->
  sNorm S = n -> sNormAccu S = sumR (map sNormAccu l) ->
  nth o (sAccu S) slabZero e t
      = sumC (map (fun d => nth o (sAccu d) slabZero e t) l) ->
  sNormAccu S <> 0 ->
  estimate S o e t = pooledAverage l o e t.
Proof.
  intros F N NA W Nz. unfold estimate, pooledAverage. rewrite W, <- NA, N.
  assert (E : sumC (map (fun s => Cmult (RtoC (sNormAccu s)) (estimate s o e t)) l)
          = Cmult (RtoC n) (sumC (map (fun d => nth o (sAccu d) slabZero e t) l))).
  { rewrite sumC_scale, map_map. clear W NA. induction F as [|s l [Ns Zs] F IH].
    - reflexivity.
    - cbn [map sumC fold_right]. unfold sumC in IH. rewrite IH. f_equal.
      unfold estimate. rewrite Cmult_assoc. f_equal.
      rewrite <- RtoC_mult, Ns. f_equal. field. exact Zs. }
  rewrite E. unfold Cdiv, Rdiv. rewrite RtoC_mult, RtoC_inv by exact Nz.
  ring.
Qed.

Section Accept.
Variable smooth : (nat -> C) -> R * R.
Variables elements bins : nat.
Let scan := scanElements smooth bins.
Let accept := acceptOrders smooth elements bins.

Lemma accept_range th acc ys : forall o err n,
  accept th acc o err ys = Done n ->
  (o <= n <= o + length ys)%nat /\
  (Nat.min acc (o + length ys) <= Nat.max o n)%nat.
Proof.
  induction ys as [|y ys IH]; intros o err n; unfold accept; cbn.
  - intros H. injection H as <-. split; lia.
  - destruct (scanElements _ _ _ _ _ _) as [e|]; [|discriminate].
    destruct (Rlt_dec e th) as [L|L]; cbn [orb].
    + intros H. apply IH in H. lia.
    + destruct acc as [|acc'].
      * intros H. injection H as <-. lia.
      * destruct (Nat.leb_spec o acc').
        -- intros H'. apply IH in H'. lia.
        -- intros H'. injection H' as <-. lia.
Qed.

Lemma negligible_iff y : negligible bins y = false <->
  exists t, (t < bins)%nat /\ 1e-8 < Cmod (y t).
Proof.
  unfold negligible. split.
  - intros H. destruct (forallb _ _) eqn:E in H; [discriminate|]. clear H.
    assert (X : forall l, forallb (fun t => if Rle_dec (Cmod (y t)) 1e-8
              then true else false) l = false ->
              exists t, In t l /\ 1e-8 < Cmod (y t)).
    { induction l as [|t l IH]; cbn; [discriminate|].
      destruct (Rle_dec _ _) as [L|L]; cbn.
      - intros H. destruct (IH H) as (u & I & J). exists u; auto.
      - intros _. exists t. split; [auto|lra]. }
    destruct (X _ E) as (t & I & J). apply in_seq in I. exists t.
    split; [lia|exact J].
  - intros (t & L & J). destruct (forallb _ _) eqn:E; [|reflexivity].
    rewrite forallb_forall in E. specialize (E t).
    destruct (Rle_dec _ _) as [L'|L'] in E; [lra|].
    assert (false = true) by (apply E, in_seq; lia). discriminate.
Qed.

(* the scan over es, started with average avg: nothing above avg, or the first
   of the largest *)
Definition live (y : slab) (e : nat) : Prop := negligible bins (y e) = false.

Lemma scan_ok y es : forall avg err,
  (scan y es avg err = err /\
   forall e, In e es -> live y e -> fst (smooth (y e)) <= avg) \/
  (exists pre e post, es = pre ++ e :: post /\ live y e /\
   avg < fst (smooth (y e)) /\ scan y es avg err = Some (snd (smooth (y e))) /\
   (forall e', In e' pre -> live y e' ->
      fst (smooth (y e')) < fst (smooth (y e))) /\
   (forall e', In e' post -> live y e' ->
      fst (smooth (y e')) <= fst (smooth (y e)))).
Proof.
  unfold scan. induction es as [|e es IH]; intros avg err; cbn [scanElements].
  - left. split; [reflexivity|]. now intros ? [].
  - destruct (negligible bins (y e)) eqn:N.
    + destruct (IH avg err) as [[E L]|(pre & x & post & -> & Lx & A & E & P & Q)].
      * left. split; [exact E|]. intros z [<-|I] Lz; [unfold live in Lz; congruence|auto].
      * right. exists (e :: pre), x, post. repeat (split; [auto; fail|]).
        split; [|exact Q].
        intros z [<-|I] Lz; [unfold live in Lz; congruence|auto].
    + destruct (smooth (y e)) as [a s] eqn:Es.
      destruct (Rlt_dec avg a) as [L|L].
      * destruct (IH a (Some s)) as [[E M]|(pre & x & post & -> & Lx & A & E & P & Q)].
        -- right. exists [], e, es. rewrite E, Es. cbn [fst snd].
           repeat (split; [auto; fail|]). split; [now intros ? []|]. auto.
        -- right. exists (e :: pre), x, post.
           split; [reflexivity|]. split; [exact Lx|]. split; [lra|].
           split; [exact E|]. split; [|exact Q].
           intros z [<-|I] Lz; [rewrite Es; exact A|auto].
      * destruct (IH avg err) as [[E M]|(pre & x & post & -> & Lx & A & E & P & Q)].
        -- left. split; [exact E|].
           intros z [<-|I] Lz; [rewrite Es; cbn; lra|auto].
        -- right. exists (e :: pre), x, post. repeat (split; [auto; fail|]).
           split; [|exact Q].
           intros z [<-|I] Lz; [rewrite Es; cbn; lra|auto].
Qed.

Lemma carries_live y e : carries smooth elements bins y e <->
  (e < elements)%nat /\ live y e /\ 0 < fst (smooth (y e)).
Proof. unfold carries, live. now rewrite negligible_iff. Qed.

Lemma scan_noise y err :
  (silent smooth elements bins y /\ scan y (seq 0 elements) 0 err = err) \/
  (exists r, noise smooth elements bins y r /\
             scan y (seq 0 elements) 0 err = Some r).
Proof.
  destruct (scan_ok y (seq 0 elements) 0 err)
    as [[E M]|(pre & x & post & Es & Lx & A & E & P & Q)].
  - left. split; [|exact E]. intros e Ce. apply carries_live in Ce.
    destruct Ce as (I & L & G). assert (In e (seq 0 elements)) by (apply in_seq; lia).
    specialize (M e H L). lra.
  - right. exists (snd (smooth (y x))). split; [|exact E].
    assert (Px : forall i, (i < length pre)%nat -> nth i pre 0%nat = i).
    { intros i Hi.
      assert (H : nth i (seq 0 elements) 0%nat = nth i pre 0%nat)
        by (rewrite Es; now apply app_nth1).
      rewrite <- H. rewrite seq_nth; [lia|].
      rewrite <- (seq_length elements 0), Es, app_length. cbn. lia. }
    assert (Lp : x = length pre /\ (length pre < elements)%nat).
    { assert (H : nth (length pre) (seq 0 elements) 0%nat = x)
        by (rewrite Es; apply nth_middle).
      assert (Hl : (length pre < elements)%nat)
        by (rewrite <- (seq_length elements 0), Es, app_length; cbn; lia).
      rewrite seq_nth in H by exact Hl. cbn in H. auto. }
    exists x. split; [|split; [reflexivity|]].
    + apply carries_live. split; [lia|]. split; [exact Lx|exact A].
    + intros e' Ce. apply carries_live in Ce. destruct Ce as (I & L & G).
      assert (J : In e' (pre ++ x :: post)) by (rewrite <- Es; apply in_seq; lia).
      assert (K : (e' < x)%nat -> In e' pre).
      { intros Lt. destruct Lp as [Lp _]. rewrite <- (Px e') by lia.
        apply nth_In. lia. }
      apply in_app_or in J. split.
      * destruct J as [J|[<-|J]]; [|lra|now apply Q].
        apply Rlt_le. now apply P.
      * intros Lt. apply P; [now apply K|exact L].
Qed.

Lemma noise_not_silent y r :
  noise smooth elements bins y r -> ~ silent smooth elements bins y.
Proof. intros (e & C & _) S. exact (S e C). Qed.

(* err holds the noise of the last order before o that carries a signal *)
Definition held (f : nat -> slab) (o : nat) (err : option R) : Prop :=
  match err with
  | None => forall i, (i < o)%nat -> silent smooth elements bins (f i)
  | Some r => exists o', (o' < o)%nat /\ noise smooth elements bins (f o') r /\
                forall i, (o' < i < o)%nat -> silent smooth elements bins (f i)
  end.

Lemma held_step f o err : held f o err ->
  held f (S o) (scan (f o) (seq 0 elements) 0 err).
Proof.
  intros H. destruct (scan_noise (f o) err) as [[Si ->]|(r & N & ->)].
  - destruct err as [r|]; cbn in *.
    + destruct H as (o' & L & N & Q). exists o'. split; [lia|]. split; [exact N|].
      intros i Hi. destruct (Nat.eq_dec i o) as [->|]; [exact Si|apply Q; lia].
    + intros i Hi. destruct (Nat.eq_dec i o) as [->|]; [exact Si|apply H; lia].
  - exists o. split; [lia|]. split; [exact N|]. intros i Hi. lia.
Qed.

Lemma held_last f o r : held f (S o) (Some r) ->
  lastNoise smooth elements bins f o r.
Proof.
  intros (o' & L & N & Q). exists o'. split; [lia|]. split; [exact N|].
  intros i Hi. apply Q. lia.
Qed.

Lemma accept_ok th acc f ys : forall o err,
  (forall i, (i < length ys)%nat -> nth i ys slabZero = f (o + i)%nat) ->
  held f o err ->
  match accept th acc o err ys with
  | Done n =>
      (o <= n <= o + length ys)%nat /\
      (forall i, (o <= i < n)%nat -> (acc <= i)%nat ->
         exists r, lastNoise smooth elements bins f i r /\ r < th) /\
      ((n < o + length ys)%nat -> (acc <= n)%nat /\
         exists r, lastNoise smooth elements bins f n r /\ th <= r)
  | Crash => forall i, (i <= o)%nat -> silent smooth elements bins (f i)
  | Failure => False
  end.
Proof.
  induction ys as [|y ys IH]; intros o err Hf He; unfold accept;
    cbn [acceptOrders length].
  - split; [lia|]. split; intros; lia.
  - pose proof (Hf 0%nat ltac:(cbn; lia)) as H0. cbn in H0.
    rewrite Nat.add_0_r in H0. subst y.
    pose proof (held_step f o err He) as Hs. unfold scan in Hs.
    destruct (scanElements smooth bins (f o) (seq 0 elements) 0 err) as [e|].
    + assert (Hf' : forall i, (i < length ys)%nat ->
                nth i ys slabZero = f (S o + i)%nat).
      { intros i Hi. specialize (Hf (S i)). cbn in Hf. rewrite Hf by lia.
        f_equal. lia. }
      destruct ((if Rlt_dec e th then true else false) || (S o <=? acc)%nat) eqn:D.
      * specialize (IH (S o) (Some e) Hf' Hs). unfold accept in IH.
        destruct (acceptOrders smooth elements bins th acc (S o) (Some e) ys)
          as [n| |] eqn:EA; [|exact IH|].
        -- destruct IH as (R1 & R2 & R3). split; [lia|]. split.
           ++ intros i Hi Ai. destruct (Nat.eq_dec i o) as [->|]; [|apply R2; lia].
              exists e. split; [now apply held_last|].
              destruct (Rlt_dec e th); [assumption|].
              cbn in D. destruct acc; [discriminate|].
              apply Nat.leb_le in D. lia.
           ++ intros Hn. apply R3. lia.
        -- intros i Hi. apply IH. lia.
      * split; [lia|]. split; [intros; lia|]. intros _.
        apply orb_false_iff in D. destruct D as [D1 D2].
        apply Nat.leb_gt in D2. split; [lia|].
        exists e. split; [now apply held_last|].
        destruct (Rlt_dec e th); [discriminate|lra].
    + intros i Hi. apply Hs. lia.
Qed.

(* a crash cannot come later than the first order *)
Lemma accept_crash th acc f ys : forall o e,
  (forall i, (i < length ys)%nat -> nth i ys slabZero = f (o + i)%nat) ->
  accept th acc o (Some e) ys <> Crash.
Proof.
  induction ys as [|y ys IH]; intros o e Hf; unfold accept;
    cbn [acceptOrders]; [discriminate|].
  destruct (scan_noise y (Some e)) as [[_ E]|(r & _ & E)]; unfold scan in E;
    rewrite E.
  - destruct (_ || _); [|discriminate]. apply (IH (S o) e).
    intros i Hi. specialize (Hf (S i)). cbn in Hf. rewrite Hf by lia. f_equal. lia.
  - destruct (_ || _); [|discriminate]. apply (IH (S o) r).
    intros i Hi. specialize (Hf (S i)). cbn in Hf. rewrite Hf by lia. f_equal. lia.
Qed.

End Accept.

Lemma slabSum_nth ys : forall n e t,
  slabSum (firstn n ys) e t
  = sumC (map (fun o => nth o ys slabZero e t) (seq 0 (Nat.min n (length ys)))).
Proof.
  induction ys as [|y ys IH]; intros n e t.
  - rewrite firstn_nil. cbn. now rewrite Nat.min_0_r.
  - destruct n as [|n]; [reflexivity|].
    change (firstn (S n) (y :: ys)) with (y :: firstn n ys).
    change (slabSum (y :: firstn n ys)) with (slabAdd y (slabSum (firstn n ys))).
    cbn [length Nat.min]. cbn [seq map]. unfold sumC. cbn [fold_right nth].
    unfold slabAdd. f_equal. rewrite IH, <- seq_shift, map_map. reflexivity.
Qed.

Lemma scale_nth a l o e t :
  nth o (map (slabScale a) l) slabZero e t
  = Cmult (RtoC a) (nth o l slabZero e t).
Proof.
  revert o; induction l as [|x l IH]; intros [|o]; cbn; auto;
    unfold slabZero; now rewrite Cmult_0_r.
Qed.

Definition scaled (s : stat) (o : nat) : slab := fun e t => estimate s o e t.

Section One.
Variable smooth : (nat -> C) -> R * R.
Variables elements bins : nat.

Lemma update_ok th acc s :
  match updateOne smooth elements bins th acc (Some s) with
  | (Done (w, n), s') =>
      1e-3 <= Rabs (sNormAccu s) /\
      (forall e t, w e t = upTo n (fun o => estimate s o e t)) /\
      (Nat.min acc (length (sAccu s)) <= n <= length (sAccu s))%nat /\
      (forall i, (acc <= i < n)%nat ->
         exists r, lastNoise smooth elements bins (scaled s) i r /\ r < th) /\
      ((n < length (sAccu s))%nat ->
         exists r, lastNoise smooth elements bins (scaled s) n r /\ th <= r) /\
      fst (updateOne smooth elements bins th acc s') = Failure
  | (Failure, s') => Rabs (sNormAccu s) < 1e-3 /\ s' = Some s
  | (Crash, s') => 1e-3 <= Rabs (sNormAccu s) /\
      silent smooth elements bins (scaled s 0)
  end.
Proof.
  unfold updateOne. destruct (Rlt_dec (Rabs (sNormAccu s)) 1e-3) as [L|L].
  { auto. }
  set (k := 1 / sNormAccu s * sNorm s).
  assert (Hw : forall o, nth o (map (slabScale k) (sAccu s)) slabZero = scaled s o).
  { intros o. extensionality e. extensionality t. rewrite scale_nth.
    unfold scaled, estimate. f_equal. f_equal. unfold k, Rdiv. ring. }
  pose proof (map_length (slabScale k) (sAccu s)) as HL.
  set (w := map (slabScale k) (sAccu s)) in *.
  destruct w as [|w0 ws] eqn:Ew.
  { split; [lra|]. intros e (_ & (t & _ & M) & _).
    specialize (Hw 0%nat). cbn in Hw. rewrite <- Hw in M. unfold slabZero in M.
    rewrite Cmod_R in M. rewrite Rabs_R0 in M. lra. }
  rewrite <- Ew in *. clear Ew w0 ws.
  pose proof (accept_ok smooth elements bins th acc (scaled s) w 0 None) as A.
  specialize (A (fun i _ => Hw i)). cbn [held] in A.
  specialize (A ltac:(intros; lia)).
  destruct (acceptOrders smooth elements bins th acc 0 None w) as [n| |] eqn:EA.
  - apply accept_range in EA. cbn [Nat.add] in *. rewrite HL in *.
    destruct A as (A1 & A2 & A3).
    split; [lra|]. split.
    { intros e t. rewrite slabSum_nth, HL. unfold upTo.
      replace (Nat.min n (length (sAccu s))) with n by lia.
      f_equal. apply map_ext. intros o. now rewrite Hw. }
    split; [lia|]. split; [intros i Hi; apply A2; lia|].
    split; [intros Hn; now apply A3|].
    cbn [updateOne sNormAccu]. rewrite Rabs_R0.
    destruct (Rlt_dec 0 1e-3); [reflexivity|lra].
  - destruct A.
  - split; [lra|]. apply A. lia.
Qed.

(* a silent first order does crash *)
Lemma update_crash th acc s : 1e-3 <= Rabs (sNormAccu s) ->
  silent smooth elements bins (scaled s 0) ->
  fst (updateOne smooth elements bins th acc (Some s)) = Crash.
Proof.
  intros L Si. unfold updateOne.
  destruct (Rlt_dec (Rabs (sNormAccu s)) 1e-3) as [L'|_]; [lra|].
  set (k := 1 / sNormAccu s * sNorm s).
  assert (Hw : nth 0 (map (slabScale k) (sAccu s)) slabZero = scaled s 0).
  { extensionality e. extensionality t. rewrite scale_nth.
    unfold scaled, estimate. f_equal. f_equal. unfold k, Rdiv. ring. }
  destruct (map (slabScale k) (sAccu s)) as [|y ys]; [reflexivity|].
  cbn [nth] in Hw. subst y. cbn [acceptOrders].
  destruct (scan_noise smooth elements bins (scaled s 0) None)
    as [[_ E]|(r & N & _)].
  - rewrite E. reflexivity.
  - destruct (noise_not_silent _ _ _ _ _ N Si).
Qed.

End One.
