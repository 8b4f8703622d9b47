(** Proofs about Bundle.v *)
From Coq Require Import ZArith List Bool Arith Lia Permutation ZifyBool.
From Verif Require Import Base RNG P_RNG Bundle.
Import ListNotations.
Open Scope nat_scope.

Lemma upd_same {A} (f : nat -> A) k x : upd f k x k = x.
Proof. unfold upd. now rewrite Nat.eqb_refl. Qed.
Lemma upd_other {A} (f : nat -> A) k x j : j <> k -> upd f k x j = f j.
Proof. unfold upd. intros H. apply Nat.eqb_neq in H. now rewrite H. Qed.
Lemma upd_eq {A} (f : nat -> A) k x j : upd f k x j = if Nat.eq_dec j k then x else f j.
Proof. destruct (Nat.eq_dec j k); [subst; apply upd_same|now apply upd_other]. Qed.

Definition live (b : bundle) (s : nat) : Prop := s < 20 /\ nm b s < avail b.

Record BInv (b : bundle) : Prop := {
  bi_av : avail b <= 20;
  bi_names : forall i, i < 20 -> names b i < 20 /\ nm b (names b i) = i;
  bi_nm : forall s, s < 20 -> nm b s < 20 /\ names b (nm b s) = s
}.

Lemma live_exist b s : bexist b s = true <-> live b s.
Proof.
  unfold bexist, live, MAX_BUNDLE. rewrite andb_true_iff, !Nat.ltb_lt. tauto.
Qed.
Lemma live_dec b s : {live b s} + {~ live b s}.
Proof. destruct (bexist b s) eqn:E; [left|right]; rewrite <- live_exist; congruence. Qed.

Lemma BInv_new : BInv bundle_new.
Proof. constructor; simpl; intros; lia. Qed.

Lemma names_inj b i j : BInv b -> i < 20 -> j < 20 -> names b i = names b j -> i = j.
Proof. intros B Hi Hj E. destruct (bi_names b B i Hi), (bi_names b B j Hj). congruence. Qed.
Lemma nm_inj b i j : BInv b -> i < 20 -> j < 20 -> nm b i = nm b j -> i = j.
Proof. intros B Hi Hj E. destruct (bi_nm b B i Hi), (bi_nm b B j Hj). congruence. Qed.

Lemma badd_spec b : BInv b -> avail b < 20 ->
  exists a b', badd b = Ok (a, b') /\ a = names b (avail b) /\ a < 20 /\ ~ live b a /\ BInv b'
    /\ avail b' = S (avail b) /\ (forall x, live b' x <-> live b x \/ x = a)
    /\ names b' = names b /\ (forall x, x < 20 -> nm b' x = nm b x).
Proof.
  intros B H. unfold badd, MAX_BUNDLE.
  destruct (Nat.ltb_spec 20 (avail b)); [lia|]. destruct (Nat.leb_spec 20 (avail b)); [lia|].
  destruct (bi_names b B (avail b) H) as [H2 H3].
  set (a := names b (avail b)) in *.
  assert (Hnm : forall x, upd (nm b) a (avail b) x = nm b x).
  { intros x. rewrite upd_eq. destruct (Nat.eq_dec x a); subst; auto. }
  eexists a, _. split; [reflexivity|].
  split; [reflexivity|]. split; [exact H2|].
  split; [unfold live; lia|].
  split; [|split; [reflexivity|split; [|split; [reflexivity|intros; apply Hnm]]]].
  - constructor; simpl; intros; rewrite ?Hnm; [lia|now apply (bi_names b B)|now apply (bi_nm b B)].
  - intros x. unfold live; simpl. rewrite Hnm. split.
    + intros [? ?]. destruct (Nat.eq_dec x a); [auto|left]. split; auto.
      assert (nm b x <> avail b); [|lia]. intro E. apply n. unfold a. rewrite <- E.
      symmetry. now apply (bi_nm b B).
    + intros [[? ?]| ->]; lia.
Qed.

Lemma bswap_spec b t : BInv b -> live b t ->
  BInv (bswap b (nm b t) t) /\ avail (bswap b (nm b t) t) = avail b - 1
  /\ (forall x, live (bswap b (nm b t) t) x <-> live b x /\ x <> t).
Proof.
  intros B [Ht Hl].
  destruct (bi_nm b B t Ht) as [H1 H2].
  pose proof (bi_av b B) as Hav.
  assert (Hlast : avail b - 1 < 20) by lia.
  destruct (bi_names b B (avail b - 1) Hlast) as [H3 H4].
  set (last := names b (avail b - 1)) in *.
  assert (Enm : forall x, x < 20 -> nm (bswap b (nm b t) t) x =
            if Nat.eq_dec x last then nm b t else if Nat.eq_dec x t then avail b - 1 else nm b x).
  { intros x Hx. unfold bswap; simpl. fold last. rewrite !upd_eq. reflexivity. }
  assert (Ena : forall i, i < 20 -> names (bswap b (nm b t) t) i =
            if Nat.eq_dec i (avail b - 1) then t else if Nat.eq_dec i (nm b t) then last else names b i).
  { intros x Hx. unfold bswap; simpl. fold last. rewrite !upd_eq. reflexivity. }
  assert (Eav : avail (bswap b (nm b t) t) = avail b - 1) by reflexivity.
  assert (HB : BInv (bswap b (nm b t) t)).
  { constructor.
    - lia.
    - intros i Hi. rewrite Ena by auto.
      destruct (Nat.eq_dec i (avail b - 1)) as [->|n1].
      + split; auto. rewrite Enm by auto.
        destruct (Nat.eq_dec t last) as [E|]; [|destruct (Nat.eq_dec t t); congruence].
        rewrite E. auto.
      + destruct (Nat.eq_dec i (nm b t)) as [->|n2].
        * split; auto. rewrite Enm by auto. destruct (Nat.eq_dec last last); congruence.
        * destruct (bi_names b B i Hi) as [H5 H6]. split; auto. rewrite Enm by auto.
          destruct (Nat.eq_dec (names b i) last) as [E|]; [rewrite E in H6; congruence|].
          destruct (Nat.eq_dec (names b i) t) as [E|]; congruence.
    - intros s Hs. rewrite Enm by auto.
      destruct (Nat.eq_dec s last) as [->|n1].
      + split; auto. rewrite Ena by auto.
        destruct (Nat.eq_dec (nm b t) (avail b - 1)) as [E|].
        * unfold last. rewrite <- E. auto.
        * destruct (Nat.eq_dec (nm b t) (nm b t)); congruence.
      + destruct (Nat.eq_dec s t) as [->|n2].
        * split; auto. rewrite Ena by auto. destruct (Nat.eq_dec (avail b - 1) (avail b - 1)); congruence.
        * destruct (bi_nm b B s Hs) as [H5 H6]. split; auto. rewrite Ena by auto.
          destruct (Nat.eq_dec (nm b s) (avail b - 1)) as [E|].
          { exfalso; apply n1. unfold last. rewrite <- E. auto. }
          destruct (Nat.eq_dec (nm b s) (nm b t)) as [E|]; [|auto].
          exfalso; apply n2. congruence. }
  split; [exact HB|]. split; [exact Eav|].
  intros x. unfold live. rewrite Eav. split.
  - intros [Hx Hn]. rewrite Enm in Hn by auto.
    destruct (Nat.eq_dec x last) as [->|n1].
    + split; [lia|]. intros E. rewrite <- E in Hn. lia.
    + destruct (Nat.eq_dec x t); [lia|]. split; [lia|auto].
  - intros [[Hx Hn] Hne]. split; auto. rewrite Enm by auto.
    destruct (Nat.eq_dec x last) as [->|n1].
    + assert (nm b t <> avail b - 1); [|lia]. intros E. apply Hne. unfold last. rewrite <- E. auto.
    + destruct (Nat.eq_dec x t); [contradiction|].
      assert (nm b x <> avail b - 1); [|lia]. intros E. apply n1. unfold last. rewrite <- E.
      symmetry. now apply (bi_nm b B).
Qed.

Lemma bremove_spec b t : BInv b -> live b t ->
  exists b', bremove b t = Ok b' /\ BInv b' /\ avail b' = avail b - 1
    /\ (forall x, live b' x <-> live b x /\ x <> t) /\ b' = bswap b (nm b t) t.
Proof.
  intros B L. unfold bremove. rewrite (proj2 (live_exist b t) L). simpl.
  destruct (Nat.eqb_spec (avail b) 0); [destruct L; lia|].
  destruct (bswap_spec b t B L) as [H1 [H2 H3]].
  eexists. split; [reflexivity|]. auto.
Qed.
Lemma bremove_dead b t : ~ live b t -> bremove b t = Abort.
Proof.
  intros H. unfold bremove. destruct (bexist b t) eqn:E; [|reflexivity].
  apply live_exist in E. contradiction.
Qed.

Lemma bat_spec b i : BInv b -> i < avail b -> bat b i = Ok (names b i) /\ live b (names b i).
Proof.
  intros B H. pose proof (bi_av b B). destruct (bi_names b B i) as [H1 H2]; [lia|].
  unfold bat, MAX_BUNDLE, live. destruct (Nat.leb_spec (avail b) i); [lia|].
  destruct (Nat.leb_spec 20 i); [lia|]. split; [reflexivity|]. lia.
Qed.

Lemma bpick_spec b x : BInv b -> 0 < avail b -> (0 <= x)%Z ->
  exists s, bpick b x = Ok s /\ live b s.
Proof.
  intros B H Hx. pose proof (bi_av b B). unfold bpick.
  destruct (irn_ok 0 (Z.of_nat (avail b) - 1) x) as [y [E Hy]]; try lia.
  rewrite E. cbn [obind].
  assert (Ec : ((0 <=? y) && (y <? Z.of_nat MAX_BUNDLE))%Z = true) by (unfold MAX_BUNDLE; lia).
  rewrite Ec. eexists; split; [reflexivity|].
  destruct (bi_names b B (Z.to_nat y)); [lia|]. split; auto. lia.
Qed.

(** ** the list of live slots *)
Definition liveL (b : bundle) : list nat := map (names b) (seq 0 (avail b)).

Lemma liveL_in b x : BInv b -> In x (liveL b) <-> live b x.
Proof.
  intros B. pose proof (bi_av b B). unfold liveL. rewrite in_map_iff. split.
  - intros [i [E Hi]]. apply in_seq in Hi. destruct (bi_names b B i) as [H1 H2]; [lia|].
    subst x. split; auto. lia.
  - intros [Hx Hn]. exists (nm b x). split; [now apply (bi_nm b B)|]. apply in_seq. lia.
Qed.
Lemma NoDup_map_inj {A B} (f : A -> B) l :
  (forall x y, In x l -> In y l -> f x = f y -> x = y) -> NoDup l -> NoDup (map f l).
Proof.
  intros Hf Hl. induction Hl as [|x l Hx Hl IH]; simpl; constructor.
  - rewrite in_map_iff. intros [y [E Hy]]. apply Hx. rewrite <- (Hf y x); auto; [now right|now left].
  - apply IH. intros; apply Hf; auto; now right.
Qed.
Lemma liveL_nodup b : BInv b -> NoDup (liveL b).
Proof.
  intros B. pose proof (bi_av b B). apply NoDup_map_inj; [|apply seq_NoDup].
  intros x y Hx Hy E. apply in_seq in Hx, Hy. apply (names_inj b); auto; lia.
Qed.
Lemma liveL_length b : length (liveL b) = avail b.
Proof. unfold liveL. now rewrite map_length, seq_length. Qed.

Lemma liveL_perm b b' (t : nat) : BInv b -> BInv b' -> (forall x, live b' x <-> live b x /\ x <> t) ->
  live b t -> Permutation (liveL b) (t :: liveL b').
Proof.
  intros B B' H L. apply NoDup_Permutation.
  - now apply liveL_nodup.
  - constructor; [|now apply liveL_nodup]. rewrite liveL_in by auto. rewrite H. tauto.
  - intros x. simpl. rewrite !liveL_in by auto. rewrite H.
    destruct (Nat.eq_dec t x); [subst; tauto|]. split; [|intros [?|?]; [contradiction|tauto]].
    intros; right; split; auto.
Qed.
Lemma liveL_perm_add b b' (a : nat) : BInv b -> BInv b' -> (forall x, live b' x <-> live b x \/ x = a) ->
  ~ live b a -> Permutation (liveL b') (a :: liveL b).
Proof.
  intros B B' H L. apply NoDup_Permutation.
  - now apply liveL_nodup.
  - constructor; [|now apply liveL_nodup]. now rewrite liveL_in by auto.
  - intros x. simpl. rewrite !liveL_in by auto. rewrite H. intuition congruence.
Qed.

(** ** refinement to a finite set *)
Inductive bev := EvAdd (a : nat) | EvRem (t : nat).
(** Replaying a history of additions (with the slot each returned) and removals. *)
Fixpoint replay (b : bundle) (l : list bev) : outcome bundle :=
  match l with
  | [] => Ok b
  | EvAdd a :: r => obind (badd b) (fun '(a', b') => if Nat.eqb a a' then replay b' r else Abort)
  | EvRem t :: r => obind (bremove b t) (fun b' => replay b' r)
  end.
(** The abstract set: what was added and not removed since. *)
Fixpoint members (S : list nat) (l : list bev) : list nat :=
  match l with
  | [] => S
  | EvAdd a :: r => members (a :: S) r
  | EvRem t :: r => members (remove Nat.eq_dec t S) r
  end.

Definition rel (b : bundle) (S : list nat) : Prop :=
  BInv b /\ NoDup S /\ avail b = length S /\ (forall x, In x S <-> live b x).

Lemma NoDup_remove_list t S : NoDup S -> NoDup (remove Nat.eq_dec t S).
Proof.
  induction 1 as [|x l Hx Hl IH]; simpl; [constructor|].
  destruct (Nat.eq_dec t x); auto. constructor; auto.
  intros Hin. apply in_remove in Hin. tauto.
Qed.
Lemma remove_length_in t S : NoDup S -> In t S -> length (remove Nat.eq_dec t S) = length S - 1.
Proof.
  induction 1 as [|x l Hx Hl IH]; simpl; [tauto|]. intros [->|Hin].
  - destruct (Nat.eq_dec t t); [|congruence]. rewrite notin_remove by auto. lia.
  - destruct (Nat.eq_dec t x) as [->|]; [contradiction|]. simpl. rewrite IH by auto.
    destruct l; simpl in *; [tauto|lia].
Qed.

Lemma replay_rel l : forall b S b', rel b S -> replay b l = Ok b' -> rel b' (members S l).
Proof.
  induction l as [|[a|t] r IH]; simpl; intros b S b' HR HE.
  - injection HE as <-. exact HR.
  - destruct HR as [B [ND [HA HL]]].
    assert (Hlt : avail b < 20).
    { unfold badd, MAX_BUNDLE in HE. destruct (Nat.ltb_spec 20 (avail b)); [discriminate|].
      destruct (Nat.leb_spec 20 (avail b)); [discriminate|auto]. }
    destruct (badd_spec b B Hlt) as [a' [b1 [E1 [_ [Ha [Hd [B1 [A1 [L1 _]]]]]]]]].
    rewrite E1 in HE. simpl in HE. destruct (Nat.eqb_spec a a'); [subst a'|discriminate].
    apply (IH b1); auto. split; [exact B1|split; [|split]].
    + constructor; auto. now rewrite HL.
    + simpl. lia.
    + intros x. simpl. rewrite HL, L1. intuition.
  - destruct HR as [B [ND [HA HL]]]. destruct (live_dec b t) as [L|L].
    + destruct (bremove_spec b t B L) as [b1 [E1 [B1 [A1 [L1 _]]]]]. rewrite E1 in HE. simpl in HE.
      apply (IH b1); auto. split; [exact B1|split; [|split]].
      * now apply NoDup_remove_list.
      * rewrite remove_length_in; auto; [lia|now apply HL].
      * intros x. split; [intros Hin; apply in_remove in Hin; apply L1; rewrite <- HL; tauto|].
        intros Hl. apply L1 in Hl. apply in_in_remove; [tauto|]. rewrite HL. tauto.
    + rewrite (bremove_dead b t L) in HE. discriminate.
Qed.

Lemma bundle_refines_set : forall l b, replay bundle_new l = Ok b ->
  let S := members [] l in
  NoDup S /\ (forall x, In x S -> x < 20) /\ bhowmany b = length S /\
  (forall x, bexist b x = true <-> In x S) /\
  (forall x, In x S -> nm b x < length S /\ bat b (nm b x) = Ok x) /\
  (forall i, i < length S -> exists x, In x S /\ bat b i = Ok x /\ nm b x = i) /\
  (length S < 20 -> exists a b', badd b = Ok (a, b') /\ ~ In a S /\ a < 20) /\
  (forall x, In x S -> exists b', bremove b x = Ok b') /\
  (forall x, ~ In x S -> bremove b x = Abort).
Proof.
  intros l b E S.
  assert (HR : rel b S).
  { apply (replay_rel l bundle_new [] b); auto. split; [exact BInv_new|].
    split; [constructor|split; [reflexivity|]]. intros x; unfold live; simpl; lia. }
  destruct HR as [B [ND [HA HL]]].
  split; [exact ND|]. split; [intros x Hx; apply HL in Hx; apply Hx|].
  split; [exact HA|]. split; [intros x; rewrite live_exist; symmetry; apply HL|].
  split.
  { intros x Hx. apply HL in Hx. destruct Hx as [Hx Hn]. split; [lia|].
    destruct (bat_spec b (nm b x) B Hn) as [E1 _]. rewrite E1. f_equal. now apply (bi_nm b B). }
  split.
  { intros i Hi. destruct (bat_spec b i B) as [E1 L1]; [lia|]. exists (names b i).
    split; [now apply HL|]. split; auto. apply (bi_names b B). pose proof (bi_av b B). lia. }
  split.
  { intros Hlt. destruct (badd_spec b B) as [a [b' [E1 [_ [Ha [Hd _]]]]]]; [lia|].
    exists a, b'. split; auto. split; auto. now rewrite HL. }
  split.
  { intros x Hx. apply HL in Hx. destruct (bremove_spec b x B Hx) as [b' [E1 _]]. eauto. }
  intros x Hx. apply bremove_dead. now rewrite <- HL.
Qed.

Lemma full_add_UB :
  exists (l : list bev) (b : bundle),
    replay bundle_new l = Ok b /\ length (members [] l) = 20 /\ badd b = UB /\ badd b <> Abort.
Proof.
  exists (map EvAdd (seq 0 20)).
  assert (H : match replay bundle_new (map EvAdd (seq 0 20)) with Ok _ => true | _ => false end = true)
    by (vm_compute; reflexivity).
  remember (map EvAdd (seq 0 20)) as l eqn:El.
  assert (HL : length (members [] l) = 20) by (rewrite El; vm_compute; reflexivity).
  clear El. destruct (replay bundle_new l) as [b| |] eqn:E; [|discriminate H|discriminate H].
  destruct (bundle_refines_set _ _ E) as [_ [_ [HA _]]].
  exists b. split; [reflexivity|]. split; [exact HL|].
  assert (HU : badd b = UB).
  { unfold badd. unfold bhowmany in HA. rewrite HA, HL. reflexivity. }
  rewrite HU. split; [reflexivity|discriminate].
Qed.
