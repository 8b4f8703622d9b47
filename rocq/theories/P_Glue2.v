(** The conversions keep the counts and give the values *)
From Coq Require Import ZArith List Bool Arith Lia ZifyBool String.
From Verif Require Import Base Num PyDict Glue GlueSpec P_Check P_Glue.
From Verif Require P_RNG.
Import ListNotations.
Open Scope nat_scope.

Section PGlue2.
Context {N : Num}.
Notation heap := (@heap N).
Notation cval := (@cval N).
Notation py := (@py N).
Notation tval := (@tval N).
Notation body := (@body N).

(** ** lists of values *)
Fixpoint all2 {A B} (P : A -> B -> Prop) (l : list A) (k : list B) : Prop := match l, k with [], [] => True | a :: l, b :: k => P a b /\ all2 P l k | _, _ => False end.
Lemma den_list (B : nat -> option body) l a : den B (PList l) a <-> exists k, B a = Some (BList (map Some k)) /\ all2 (den B) l k.
Proof.
  cbn [den]. split; intros (k & Q & R); exists k; (split; [exact Q|]); clear Q; revert k R; induction l as [|o l IH]; intros [|x k]; cbn [all2]; auto; intros [D R]; (split; [exact D|now apply IH]).
Qed.
Lemma den_tup (B : nat -> option body) l a : den B (PTup l) a <-> exists k, B a = Some (BTup (map Some k)) /\ all2 (den B) l k.
Proof.
  cbn [den]. split; intros (k & Q & R); exists k; (split; [exact Q|]); clear Q; revert k R; induction l as [|o l IH]; intros [|x k]; cbn [all2]; auto; intros [D R]; (split; [exact D|now apply IH]).
Qed.
Definition entry (B : nat -> option body) (p : string * py) (q : nat * nat) : Prop := B (fst q) = Some (BStr (fst p)) /\ den B (snd p) (snd q).
Lemma den_dict (B : nat -> option body) l a : den B (PDict l) a <-> exists k, B a = Some (BDict k) /\ all2 (entry B) l k.
Proof.
  cbn [den]. split; intros (k & Q & R); exists k; (split; [exact Q|]); clear Q; revert k R; induction l as [|[s o] l IH]; intros [|[x y] k]; cbn [all2]; auto.
  - intros (A & D & R). split; [split; auto|now apply IH].
  - intros ((A & D) & R). split; [exact A|]. split; [exact D|]. now apply IH.
Qed.
Definition pair_rep (B : nat -> option body) (p : string * tval) (q : string * cval) : Prop := fst p = fst q /\ rep B (snd p) (snd q).
Lemma rep_list (B : nat -> option body) l k : rep B (XList l) (VList k) <-> all2 (rep B) l k.
Proof.
  cbn [rep]. revert k. induction l as [|o l IH]; intros [|x k]; cbn [all2]; try reflexivity. rewrite (IH k). tauto.
Qed.
Lemma rep_map (B : nat -> option body) l k : rep B (XMap l) (VMap k) <-> all2 (pair_rep B) l k.
Proof.
  cbn [rep]. revert k. induction l as [|[s o] l IH]; intros [|[x y] k]; cbn [all2]; try reflexivity. rewrite (IH k). unfold pair_rep. cbn [fst snd]. tauto.
Qed.
Fixpoint py_rect' (P : py -> Prop) (H0 : P PNone) (H1 : forall b, P (PBool b)) (H2 : forall z, P (PInt z)) (H3 : forall x, P (PFloat x)) (H4 : forall s, P (PStr s))
  (H5 : forall l, Forall P l -> P (PList l)) (H6 : forall l, Forall P l -> P (PTup l)) (H7 : forall l, Forall (fun p => P (snd p)) l -> P (PDict l)) (o : py) : P o :=
  let rec := py_rect' P H0 H1 H2 H3 H4 H5 H6 H7 in
  match o with
  | PNone => H0 | PBool b => H1 b | PInt z => H2 z | PFloat x => H3 x | PStr s => H4 s
  | PList l => H5 l ((fix go l : Forall P l := match l with [] => Forall_nil _ | x :: r => Forall_cons x (rec x) (go r) end) l)
  | PTup l => H6 l ((fix go l : Forall P l := match l with [] => Forall_nil _ | x :: r => Forall_cons x (rec x) (go r) end) l)
  | PDict l => H7 l ((fix go l : Forall (fun p => P (snd p)) l := match l with [] => Forall_nil _ | x :: r => Forall_cons x (rec (snd x)) (go r) end) l)
  end.
Fixpoint tval_rect' (P : tval -> Prop) (H1 : forall b, P (XBool b)) (H2 : forall z, P (XInt z)) (H3 : forall x, P (XReal x)) (H4 : forall s, P (XStr s))
  (H5 : forall l, Forall P l -> P (XList l)) (H6 : forall l, Forall (fun p => P (snd p)) l -> P (XMap l)) (H7 : forall o, P (XObj o)) (x : tval) : P x :=
  let rec := tval_rect' P H1 H2 H3 H4 H5 H6 H7 in
  match x with
  | XBool b => H1 b | XInt z => H2 z | XReal x => H3 x | XStr s => H4 s
  | XList l => H5 l ((fix go l : Forall P l := match l with [] => Forall_nil _ | x :: r => Forall_cons x (rec x) (go r) end) l)
  | XMap l => H6 l ((fix go l : Forall (fun p => P (snd p)) l := match l with [] => Forall_nil _ | x :: r => Forall_cons x (rec (snd x)) (go r) end) l)
  | XObj o => H7 o
  end.
Lemma all2_mono {A B} (P Q : A -> B -> Prop) l : Forall (fun a => forall b, P a b -> Q a b) l -> forall k, all2 P l k -> all2 Q l k.
Proof. induction 1 as [|a l H _ IH]; intros [|b k]; cbn; auto. intros [X Y]. auto. Qed.
Definition le_obj (B B' : nat -> option body) : Prop := forall a b, B a = Some b -> B' a = Some b.
Lemma den_mono (B B' : nat -> option body) : le_obj B B' -> forall o a, den B o a -> den B' o a.
Proof.
  intros L. induction o as [| | | | |l IH|l IH|l IH] using py_rect'; intros a; try (cbn [den]; apply L).
  - rewrite !den_list. intros (k & Q & R). exists k. split; [now apply L|]. revert R. now apply all2_mono.
  - rewrite !den_tup. intros (k & Q & R). exists k. split; [now apply L|]. revert R. now apply all2_mono.
  - rewrite !den_dict. intros (k & Q & R). exists k. split; [now apply L|]. revert R. apply all2_mono. eapply Forall_impl; [|exact IH]. intros p Hp q [X Y]. split; auto.
Qed.
Lemma rep_mono (B B' : nat -> option body) : le_obj B B' -> forall x v, rep B x v -> rep B' x v.
Proof.
  intros L. induction x as [| | | |l IH|l IH|o] using tval_rect'; intros v; destruct v as [| | | |k|k| |p]; cbn [rep]; auto.
  - intros R. revert k R. induction IH as [|x l Hx _ IHl]; intros [|v k]; auto. intros [X Y]. split; [now apply Hx|now apply IHl].
  - intros R. revert k R. induction IH as [|[s x] l Hx _ IHl]; intros [|[s' v] k]; auto. cbn [snd] in Hx. intros (X & Y & Z). split; [exact X|]. split; [now apply Hx|now apply IHl].
  - destruct p; auto. now apply den_mono.
Qed.
Lemma same_le (h h' : heap) : sameb h h' -> le_obj (objectAt h) (objectAt h').
Proof. intros [_ S] a b Q. now rewrite S. Qed.
Lemma den_alive (B : nat -> option body) o a : den B o a -> exists b, B a = Some b.
Proof. destruct o; cbn [den]; eauto; intros (k & Q & _); eauto. Qed.
Lemma rep_owned (B : nat -> option body) : forall x v, rep B x v -> forall a, In a (owned v) -> exists b, B a = Some b.
Proof.
  induction x as [| | | |l IH|l IH|o] using tval_rect'; intros v R a; destruct v as [| | | |k|k| |[p|]]; cbn [rep] in R; try contradiction; cbn [owned ptrs]; try (intros []).
  - intros I. apply in_flat_map in I as (w & Iw & Ia). revert k R Iw. induction IH as [|x l Hx _ IHl]; intros [|v k]; cbn; try tauto. intros [X Y] [->|I]; [now apply (Hx _ X a)|]. now apply (IHl k).
  - intros I. apply in_flat_map in I as (w & Iw & Ia). revert k R Iw. induction IH as [|[s x] l Hx _ IHl]; intros [|[s' v] k]; cbn; try tauto. cbn [snd] in Hx. intros (E & X & Y) [<-|I]; [now apply (Hx _ X a)|]. now apply (IHl k).
  - subst. eapply den_alive. exact R.
  - contradiction.
Qed.

(** ** dropping references others hold too *)
Lemma release_same n : forall w (h : heap) e, WF h (w ++ e) -> (forall x, In x w -> 0 < cnt x e + cnt x (refs h)) -> List.length w <= n ->
  exists h', release n w h = Ok h' /\ WF h' e /\ sameb h h'.
Proof.
  induction n as [|n IH]; intros [|a w] h e H C L; cbn in L; try lia; cbn [release].
  - exists h. repeat split; auto.
  - exists h. repeat split; auto.
  - destruct (WF_alive h _ a H) as (c & Q & R); [cbn [List.app]; rewrite cnt_cons, Nat.eqb_refl; lia|]. rewrite Q. cbn [List.app] in R. rewrite cnt_cons, Nat.eqb_refl, cnt_app in R.
    pose proof (C a (or_introl eq_refl)) as Ca. destruct (Nat.leb_spec (c_rc c) 1) as [X|_]; [lia|]. pose proof (cellAt_lt _ _ _ Q) as LT.
    assert (SB : sameb h (put h a (Some (mkCell (pred (c_rc c)) (c_body c))))).
    { split; [apply put_len|]. intros z. unfold objectAt. rewrite cellAt_put by exact LT. destruct (Nat.eqb_spec a z) as [<-|D]; [now rewrite Q|reflexivity]. }
    destruct (IH w (put h a (Some (mkCell (pred (c_rc c)) (c_body c)))) e) as (h' & E & W & S).
    + intros z. rewrite cellAt_put by exact LT. rewrite (sameb_cnt _ _ SB). specialize (H z). cbn [List.app] in H. rewrite cnt_cons in H. destruct (Nat.eqb_spec a z) as [Eq|D]; [|exact H].
      rewrite <- Eq in *. rewrite Q in H. cbn [c_rc]. rewrite cnt_app in *. lia.
    + intros x I. rewrite (sameb_cnt _ _ SB). apply C. now right.
    + lia.
    + exists h'. split; [exact E|]. split; [exact W|]. eapply sameb_trans; eauto.
Qed.
Lemma drop_same w (h : heap) e : WF h (w ++ e) -> (forall x, In x w -> 0 < cnt x e + cnt x (refs h)) -> exists h', drop w h = Ok h' /\ WF h' e /\ sameb h h'.
Proof. intros H C. apply release_same; auto. lia. Qed.

(** ** Convert *)
Definition gives (h : heap) (r : option tval) (b : bool) (v : option cval) : Prop :=
  match r with Some x => b = true /\ exists v', v = Some v' /\ rep (objectAt h) x v' | None => b = false end.
Definition Conv (f : nat -> heap -> outcome (bool * option cval * heap)) (tc : py -> option tval) : Prop :=
  forall h ext o a, WF h ext -> den (objectAt h) o a ->
  exists b v h', f a h = Ok (b, v, h') /\ WF h' (ownedo v ++ ext) /\ sameb h h' /\ gives h' (tc o) b v.
Lemma alive_cnt (h : heap) e a b : WF h e -> objectAt h a = Some b -> 0 < cnt a e + cnt a (refs h).
Proof. apply alive_in. Qed.
Lemma gives_same (h h' : heap) r b v : sameb h h' -> gives h r b v -> gives h' r b v.
Proof. intros S. destruct r as [x|]; cbn; auto. intros (-> & v' & -> & R). split; auto. exists v'. split; auto. revert R. apply rep_mono. now apply same_le. Qed.
Lemma byValue_ok f tc : Conv f tc -> Conv (fun a => byValue f (Some a)) tc.
Proof.
  intros C h ext o a H D. destruct (den_alive _ _ _ D) as (b0 & Q). pose proof (alive_cnt h ext a b0 H Q) as L. unfold byValue. cbn [incrp deref].
  destruct (incref_ok h ext a H L) as (h1 & E1 & W1 & S1). rewrite E1. cbn [obind]. destruct (C h1 (a :: ext) o a W1) as (b & v & h2 & E2 & W2 & S2 & G2); [revert D; apply den_mono; now apply same_le|]. rewrite E2. cbn [obind].
  destruct (drop_same [a] h2 (ownedo v ++ ext)) as (h3 & E3 & W3 & S3).
  - eapply WF_ext; [exact W2|]. intros z. cbn [List.app]. rewrite cnt_app, !cnt_cons, cnt_app. lia.
  - intros x [<-|[]]. rewrite (sameb_cnt _ _ S2), (sameb_cnt _ _ S1), cnt_app. lia.
  - unfold decref. cbn [ptrs]. rewrite E3. cbn [obind]. exists b, v, h3. split; [reflexivity|]. split; [exact W3|]. split; [eapply sameb_trans; [exact S1|]; eapply sameb_trans; eauto|]. eapply gives_same; eauto.
Qed.
Lemma onItem_ok f tc : Conv f tc -> Conv (fun a => onItem f (Some a)) tc.
Proof.
  intros C h ext o a H D. destruct (den_alive _ _ _ D) as (b0 & Q). pose proof (alive_cnt h ext a b0 H Q) as L. unfold onItem. cbn [incrp].
  destruct (incref_ok h ext a H L) as (h1 & E1 & W1 & S1). rewrite E1. cbn [obind]. destruct (byValue_ok f tc C h1 (a :: ext) o a W1) as (b & v & h2 & E2 & W2 & S2 & G2); [revert D; apply den_mono; now apply same_le|]. rewrite E2. cbn [obind].
  destruct (drop_same [a] h2 (ownedo v ++ ext)) as (h3 & E3 & W3 & S3).
  - eapply WF_ext; [exact W2|]. intros z. cbn [List.app]. rewrite cnt_app, !cnt_cons, cnt_app. lia.
  - intros x [<-|[]]. rewrite (sameb_cnt _ _ S2), (sameb_cnt _ _ S1), cnt_app. lia.
  - unfold decref. cbn [ptrs]. rewrite E3. cbn [obind]. exists b, v, h3. split; [reflexivity|]. split; [exact W3|]. split; [eapply sameb_trans; [exact S1|]; eapply sameb_trans; eauto|]. eapply gives_same; eauto.
Qed.
Lemma scalar_ok (f : py -> option cval) (tc : py -> option tval) :
  (forall b, match f (pyOf b) with Some v => owned v = [] | None => True end) ->
  (forall (h : heap) o a b, objectAt h a = Some b -> den (objectAt h) o a -> match tc o with Some x => exists v, f (pyOf b) = Some v /\ rep (objectAt h) x v | None => f (pyOf b) = None end) ->
  Conv (scalar f) tc.
Proof.
  intros O G h ext o a H D. destruct (den_alive _ _ _ D) as (b & Q). unfold scalar. rewrite (look_ok _ _ _ Q). cbn [obind]. specialize (G h o a b Q D). specialize (O b).
  destruct (tc o) as [x|] eqn:Et.
  - destruct G as (v & E & R). rewrite E in O |- *. exists true, (Some v), h. split; [reflexivity|]. cbn [ownedo]. rewrite O. split; [exact H|]. split; [apply sameb_refl|]. cbn. eauto.
  - rewrite G. exists false, None, h. split; [reflexivity|]. split; [exact H|]. split; [apply sameb_refl|]. reflexivity.
Qed.
Lemma all2_len {A B} (P : A -> B -> Prop) l : forall k, all2 P l k -> List.length l = List.length k.
Proof. induction l as [|a l IH]; intros [|b k]; cbn; try tauto. intros [_ R]. f_equal. auto. Qed.
Lemma all2_app {A B} (P : A -> B -> Prop) l l' : forall k k', all2 P l k -> all2 P l' k' -> all2 P (l ++ l') (k ++ k').
Proof. induction l as [|a l IH]; intros [|b k] k'; cbn; try tauto. intros [X Y] Z. auto. Qed.
Lemma owned_list l : owned (VList l) = flat_map owned l.
Proof. reflexivity. Qed.
Lemma items_same (h h' : heap) xs vs : sameb h h' -> all2 (rep (objectAt h)) xs vs -> all2 (rep (objectAt h')) xs vs.
Proof. intros S. apply all2_mono. apply Forall_forall. intros x _ v. apply rep_mono. now apply same_le. Qed.
Lemma trees_same (h h' : heap) os ks : sameb h h' -> all2 (den (objectAt h)) os ks -> all2 (den (objectAt h')) os ks.
Proof. intros S. apply all2_mono. apply Forall_forall. intros x _ v. apply den_mono. now apply same_le. Qed.
Lemma convItems_ok f tc : Conv f tc -> forall os ks acc xs (h : heap) ext, WF h (flat_map owned acc ++ ext) -> all2 (den (objectAt h)) os ks -> all2 (rep (objectAt h)) xs acc ->
  exists b vs h', convItems f (map Some ks) acc h = Ok (b, vs, h') /\ WF h' (flat_map owned vs ++ ext) /\ sameb h h' /\
    match cvAll tc os with Some q => b = true /\ all2 (rep (objectAt h')) (xs ++ q) vs | None => b = false end.
Proof.
  intros C. induction os as [|o os IH]; intros [|k ks] acc xs h ext H D R; cbn [all2] in D; try contradiction; cbn [map convItems cvAll].
  - exists true, acc, h. split; [reflexivity|]. split; [exact H|]. split; [apply sameb_refl|]. rewrite app_nil_r. auto.
  - destruct D as [D Ds]. destruct (onItem_ok f tc C h _ o k H D) as (b & v & h1 & E & W & S & G). rewrite E. cbn [obind]. destruct (tc o) as [x|]; cbn [gives] in G.
    + destruct G as (-> & v' & -> & Rv). cbn [ownedo] in W. destruct (IH ks (acc ++ [v']) (xs ++ [x]) h1 ext) as (b & vs & h2 & E2 & W2 & S2 & G2).
      * eapply WF_ext; [exact W|]. intros z. rewrite flat_map_app. cbn [flat_map]. rewrite !cnt_app, cnt_nil. lia.
      * eapply trees_same; eauto.
      * apply all2_app; [eapply items_same; eauto|cbn; auto].
      * exists b, vs, h2. split; [exact E2|]. split; [exact W2|]. split; [eapply sameb_trans; eauto|]. destruct (cvAll tc os) as [q|]; [|exact G2]. rewrite <- app_assoc in G2. exact G2.
    + subst b. destruct (drop_same (ownedo v) h1 (flat_map owned acc ++ ext) W) as (h2 & E2 & W2 & S2).
      * intros x I. destruct (in_alive h1 _ x W) as (bx & Qx); [rewrite cnt_app; apply cnt_In in I; lia|]. destruct S as [S1 S3]. rewrite S3 in Qx. pose proof (alive_cnt h _ x bx H Qx). rewrite (sameb_cnt h h1) by (split; auto). exact H0.
      * assert (X : convItems f (map Some ks) acc h1 = convItems f (map Some ks) acc h1) by reflexivity. rewrite E2. cbn [obind]. exists false, acc, h2. split; [destruct v; reflexivity|]. split; [exact W2|]. split; [eapply sameb_trans; eauto|reflexivity].
Qed.

Lemma mapHas_eq k acc xs (B : nat -> option body) : all2 (pair_rep B) xs acc -> existsb (fun p => String.eqb k (fst p)) xs = mapHas k acc.
Proof. revert acc. induction xs as [|[s x] xs IH]; intros [|[s' v] acc]; cbn; try tauto. intros [[E _] R]. cbn in E. now rewrite E, (IH acc R). Qed.
Definition ownedm (m : list (string * cval)) : list nat := flat_map (fun p => owned (snd p)) m.
Lemma pairs_same (h h' : heap) xs vs : sameb h h' -> all2 (pair_rep (objectAt h)) xs vs -> all2 (pair_rep (objectAt h')) xs vs.
Proof. intros S. apply all2_mono. apply Forall_forall. intros x _ v [E R]. split; [exact E|]. revert R. apply rep_mono. now apply same_le. Qed.
Lemma entries_same (h h' : heap) os ks : sameb h h' -> all2 (entry (objectAt h)) os ks -> all2 (entry (objectAt h')) os ks.
Proof. intros S. apply all2_mono. apply Forall_forall. intros x _ v [E R]. split; [now apply (same_le _ _ S)|]. revert R. apply den_mono. now apply same_le. Qed.
Lemma convEntries_ok f tc : Conv f tc -> forall (os : list (string * py)) ks acc xs (h : heap) ext, WF h (ownedm acc ++ ext) -> all2 (entry (objectAt h)) os ks -> all2 (pair_rep (objectAt h)) xs acc ->
  exists b vs h', convEntries f ks acc h = Ok (b, vs, h') /\ WF h' (ownedm vs ++ ext) /\ sameb h h' /\
    match cvAll tc (map snd os) with Some q => b = true /\ all2 (pair_rep (objectAt h')) (firsts (combine (map fst os) q) xs) vs | None => b = false end.
Proof.
  intros C. induction os as [|[s o] os IH]; intros [|[k p] ks] acc xs h ext H D R; cbn [all2] in D; try contradiction; cbn [map convEntries cvAll fst snd].
  - exists true, acc, h. split; [reflexivity|]. split; [exact H|]. split; [apply sameb_refl|]. auto.
  - destruct D as [[Qk D] Ds]. cbn [fst snd] in Qk, D. pose proof (alive_cnt h _ k _ H Qk) as Lk. destruct (incref_ok h _ k H Lk) as (h1 & E1 & W1 & S1). rewrite E1. cbn [obind].
    assert (Qk1 : objectAt h1 k = Some (BStr s)) by (now apply (same_le _ _ S1)). rewrite (look_ok _ _ _ Qk1). cbn [obind].
    destruct (drop_same [k] h1 (ownedm acc ++ ext)) as (h2 & E2 & W2 & S2); [exact W1|intros x [<-|[]]; rewrite (sameb_cnt _ _ S1); exact Lk|]. unfold decref. cbn [ptrs]. rewrite E2. cbn [obind pyOf cvStr].
    pose proof (sameb_trans _ _ _ S1 S2) as S12. destruct (byValue_ok f tc C h2 _ o p W2) as (b & v & h3 & E3 & W3 & S3 & G3); [revert D; apply den_mono; now apply same_le|]. rewrite E3. cbn [obind].
    pose proof (sameb_trans _ _ _ S12 S3) as S123.
    assert (AL : forall x, In x (ownedo v) -> 0 < cnt x (ownedm acc ++ ext) + cnt x (refs h3)).
    { intros x I. destruct (in_alive h3 _ x W3) as (bx & Qx); [rewrite cnt_app; apply cnt_In in I; lia|]. rewrite (proj2 S123) in Qx. pose proof (alive_cnt h _ x bx H Qx). rewrite (sameb_cnt _ _ S123). exact H0. }
    destruct (tc o) as [x|]; cbn [gives] in G3.
    + destruct G3 as (-> & v' & -> & Rv). cbn [ownedo] in W3. pose proof (pairs_same _ _ _ _ S123 R) as R3. pose proof (mapHas_eq s acc xs _ R3) as MH. destruct (mapHas s acc) eqn:Em.
      * destruct (drop_same (owned v') h3 (ownedm acc ++ ext) W3 AL) as (h4 & E4 & W4 & S4). rewrite E4. cbn [obind]. pose proof (sameb_trans _ _ _ S123 S4) as S1234.
        destruct (IH ks acc xs h4 ext W4) as (b & vs & h5 & E5 & W5 & S5 & G5); [eapply entries_same; eauto|eapply pairs_same; eauto|]. exists b, vs, h5. split; [exact E5|]. split; [exact W5|]. split; [eapply sameb_trans; eauto|].
        destruct (cvAll tc (map snd os)) as [q|]; [|exact G5]. cbn [combine firsts]. rewrite MH. exact G5.
      * destruct (IH ks (acc ++ [(s, v')]) (xs ++ [(s, x)]) h3 ext) as (b & vs & h5 & E5 & W5 & S5 & G5); [| |apply all2_app; [exact R3|cbn; repeat split; auto]|].
        -- eapply WF_ext; [exact W3|]. intros z. unfold ownedm. rewrite flat_map_app. cbn [flat_map snd]. rewrite !cnt_app, cnt_nil. lia.
        -- eapply entries_same; eauto.
        -- exists b, vs, h5. split; [exact E5|]. split; [exact W5|]. split; [eapply sameb_trans; eauto|].
        destruct (cvAll tc (map snd os)) as [q|]; [|exact G5]. cbn [combine firsts]. rewrite MH. exact G5.
    + subst b. destruct (drop_same (ownedo v) h3 (ownedm acc ++ ext) W3 AL) as (h4 & E4 & W4 & S4). rewrite E4. cbn [obind]. exists false, acc, h4. split; [destruct v; reflexivity|]. split; [exact W4|]. split; [eapply sameb_trans; eauto|reflexivity].
Qed.
Ltac den_cases D Q := cbn [den] in D; try (rewrite D in Q; injection Q as <-); try (destruct D as (k & D & _); rewrite D in Q; injection Q as <-).
Lemma conv_ok t : flat t = true -> Conv (conv t) (tconv t).
Proof.
  induction t as [| | | | | |t IH|t IH|l|]; intros F; cbn [flat] in F; try discriminate.
  1-6: cbn [conv]; apply scalar_ok; [intros b; destruct b; cbn; auto|]; intros h o a b Q D; destruct o; den_cases D Q; cbn; try reflexivity; try (eexists; split; reflexivity).
  - intros h ext o a H D. destruct (den_alive _ _ _ D) as (b & Q). pose proof D as D'. cbn [conv tconv]. rewrite (look_ok _ _ _ Q). cbn [obind].
    destruct o as [| | | | |os|os|os]; den_cases D Q; try (exists false, (Some (VList [])), h; split; [reflexivity|]; split; [exact H|]; split; [apply sameb_refl|reflexivity]).
    apply den_list in D' as (k' & Q' & A). rewrite D in Q'. injection Q' as Q'. rewrite Q' in *. clear Q' k D.
    destruct (convItems_ok _ _ (IH F) os k' [] [] h ext H A I) as (b & vs & h' & E & W & S & G). rewrite E. cbn [obind]. exists b, (Some (VList vs)), h'. split; [reflexivity|]. split; [exact W|]. split; [exact S|].
    cbn [cvList]. destruct (cvAll (tconv t) os) as [q|]; cbn [option_map gives]; [|exact G]. destruct G as [-> G]. split; [reflexivity|]. exists (VList vs). split; [reflexivity|]. apply rep_list. exact G.
  - intros h ext o a H D. destruct (den_alive _ _ _ D) as (b & Q). pose proof D as D'. cbn [conv tconv]. rewrite (look_ok _ _ _ Q). cbn [obind].
    destruct o as [| | | | |os|os|os]; den_cases D Q; try (exists false, (Some (VMap [])), h; split; [reflexivity|]; split; [exact H|]; split; [apply sameb_refl|reflexivity]).
    apply den_dict in D' as (k' & Q' & A). rewrite D in Q'. injection Q' as Q'. rewrite Q' in *. clear Q' k D.
    destruct (convEntries_ok _ _ (IH F) os k' [] [] h ext H A I) as (b & vs & h' & E & W & S & G). rewrite E. cbn [obind]. exists b, (Some (VMap vs)), h'. split; [reflexivity|]. split; [exact W|]. split; [exact S|].
    destruct (cvAll (tconv t) (map snd os)) as [q|]; cbn [option_map gives]; [|exact G]. destruct G as [-> G]. split; [reflexivity|]. exists (VMap vs). split; [reflexivity|]. apply rep_map. exact G.
  - intros h ext o a H D. destruct (den_alive _ _ _ D) as (b & Q). cbn [conv tconv]. destruct (incref_ok h ext a H (alive_cnt h ext a b H Q)) as (h1 & E1 & W1 & S1). rewrite E1. cbn [obind].
    exists true, (Some (VObj (Some a))), h1. split; [reflexivity|]. split; [exact W1|]. split; [exact S1|]. cbn [gives]. split; [reflexivity|]. exists (VObj (Some a)). split; [reflexivity|]. cbn [rep]. revert D. apply den_mono. now apply same_le.
Qed.
Lemma convert_ok t h ext o a : flat t = true -> WF h ext -> den (objectAt h) o a ->
  exists b v h', convert t (Some a) h = Ok (b, v, h') /\ WF h' (ownedo v ++ ext) /\ sameb h h' /\ gives h' (tconv t o) b v.
Proof. intros F H D. exact (byValue_ok _ _ (conv_ok t F) h ext o a H D). Qed.

(** ** CastToPy *)
(** addresses of containers that are being filled are left out *)
Definition mask (m : list nat) (h : heap) (x : nat) : option body := if in_dec Nat.eq_dec x m then None else objectAt h x.
Lemma mask_nil h x : mask [] h x = objectAt h x.
Proof. reflexivity. Qed.
Lemma mask_le m h : le_obj (mask m h) (objectAt h).
Proof. intros a b. unfold mask. destruct (in_dec _ a m); [discriminate|auto]. Qed.
Lemma objectAt_lt (h : heap) a b : objectAt h a = Some b -> a < List.length h.
Proof. unfold objectAt. destruct (cellAt h a) eqn:E; [|discriminate]. intros _. eapply cellAt_lt; eauto. Qed.
Lemma mask_grows m (h h' : heap) : grows h h' -> le_obj (mask m h) (mask m h').
Proof. intros [L G] a b. unfold mask. destruct (in_dec _ a m); auto. intros Q. rewrite (G a); auto. eapply objectAt_lt; eauto. Qed.
Lemma mask_more m (h h' : heap) : grows h h' -> le_obj (mask m h) (mask (List.length h :: m) h').
Proof.
  intros [L G] a b. unfold mask. destruct (in_dec _ a m); [discriminate|]. intros Q. pose proof (objectAt_lt _ _ _ Q) as LT. destruct (in_dec _ a (List.length h :: m)) as [[E|I]|]; [lia|contradiction|]. now rewrite (G a).
Qed.
Lemma mask_less a m (h : heap) : le_obj (mask (a :: m) h) (mask m h).
Proof. intros x b. unfold mask. destruct (in_dec _ x (a :: m)) as [|n]; [discriminate|]. destruct (in_dec _ x m) as [I|]; [exfalso; apply n; now right|auto]. Qed.
Lemma mask_set a m (h : heap) b b' : objectAt h a = Some b -> forall x, mask (a :: m) (setBody a b' h) x = mask (a :: m) h x.
Proof. intros Q x. unfold mask. destruct (in_dec _ x (a :: m)) as [|n]; auto. rewrite (setBody_at _ _ _ _ _ Q). destruct (Nat.eqb_spec a x) as [Eq|]; auto. exfalso. apply n. now left. Qed.
Lemma mask_same m (h h' : heap) : sameb h h' -> forall x, mask m h' x = mask m h x.
Proof. intros [_ S] x. unfold mask. destruct (in_dec _ x m); auto. Qed.
Lemma eq_le (B B' : nat -> option body) : (forall x, B' x = B x) -> le_obj B B'.
Proof. intros E a b Q. now rewrite E. Qed.
Fixpoint psize (o : py) : nat :=
  match o with
  | PList l | PTup l => S (list_sum (map psize l))
  | PDict l => S (list_sum (map (fun p => psize (snd p) + 1) l))
  | _ => 1
  end.
(** the objects from [n] on have values that weigh at most [s] *)
Definition small (n : nat) (m : list nat) (h : heap) (s : nat) : Prop := forall x b, n <= x -> mask m h x = Some b -> exists o, den (mask m h) o x /\ psize o <= s.
Definition booleans (h : heap) : Prop := objectAt h 0 = Some (BBool false) /\ objectAt h 1 = Some (BBool true).
Definition Cast (x : tval) : Prop := forall v h ext m, WF h ext -> booleans h -> (forall a, In a m -> 2 <= a < List.length h) -> rep (mask m h) x v -> keyed x ->
  exists a h', cast v h = Ok (Some a, h') /\ WF h' (a :: ext) /\ grows h h' /\ den (mask m h') (tpy x) a /\ small (List.length h) m h' (psize (tpy x)).

Definition fillL (a : nat) : nat -> list cval -> heap -> outcome heap :=
  fix fill (i : nat) (l : list cval) (h : heap) : outcome heap :=
      match l with
      | [] => Ok h
      | v :: r =>
        obind (cast v h) (fun '(p, h) =>
        obind (incrp p h) (fun h => obind (listSet a i p h) (fun h =>
        obind (decref p h) (fun h => fill (S i) r h))))
      end.
Definition fillM (a : nat) : list (string * cval) -> heap -> outcome heap :=
  fix fill (l : list (string * cval)) (h : heap) : outcome heap :=
      match l with
      | [] => Ok h
      | (k, v) :: r =>
        let '(b, h) := alloc (BStr k) h in
        obind (cast v h) (fun '(p, h) =>
        obind (dictSet a (Some b) p h) (fun h =>
        obind (decref p h) (fun h => obind (decref (Some b) h) (fun h => fill r h))))
      end.
Lemma cast_list l (h : heap) : cast (VList l) h = obind (fillL (List.length h) 0 l (h ++ [Some (mkCell 1 (BList (repeat None (List.length l))))])) (fun h' => Ok (Some (List.length h), h')).
Proof. reflexivity. Qed.
Lemma cast_map l (h : heap) : cast (VMap l) h = obind (fillM (List.length h) l (h ++ [Some (mkCell 1 (BDict []))])) (fun h' => Ok (Some (List.length h), h')).
Proof. reflexivity. Qed.
Lemma setSlot_mid {A} (l r : list A) x y : setSlot (l ++ x :: r) (List.length l) y = l ++ y :: r.
Proof. induction l as [|z l IH]; cbn; [reflexivity|]. now rewrite IH. Qed.
Lemma nth_mid {A} (l r : list A) x : nth_error (l ++ x :: r) (List.length l) = Some x.
Proof. rewrite nth_error_app2, Nat.sub_diag by lia. reflexivity. Qed.
Lemma small_step n m (h h1 : heap) s s' : grows h h1 -> small n m h s -> small (List.length h) m h1 s' -> s' <= s -> small n m h1 s.
Proof.
  intros G A B L x b Lx Q. destruct (Nat.lt_ge_cases x (List.length h)) as [Y|Y].
  - assert (Q0 : mask m h x = Some b) by (revert Q; unfold mask; destruct (in_dec _ x m); auto; rewrite (proj2 G x Y); auto). destruct (A x b Lx Q0) as (o & D & P). exists o. split; [|exact P]. revert D. apply den_mono. now apply mask_grows.
  - destruct (B x b Y Q) as (o & D & P). exists o. split; [exact D|lia].
Qed.
Lemma small_eq n m (h h' : heap) s : (forall x, mask m h' x = mask m h x) -> small n m h s -> small n m h' s.
Proof. intros E A x b L Q. rewrite E in Q. destruct (A x b L Q) as (o & D & P). exists o. split; [|exact P]. revert D. apply den_mono. now apply eq_le. Qed.
Lemma den_eq (B B' : nat -> option body) o a : (forall x, B' x = B x) -> den B o a -> den B' o a.
Proof. intros E. apply den_mono. now apply eq_le. Qed.
Lemma booleans_grows (h h' : heap) : grows h h' -> booleans h -> booleans h'.
Proof. intros [_ G] [A B]. split; rewrite G; auto; eapply objectAt_lt; eauto. Qed.
Lemma fillL_ok (xs : list tval) : Forall Cast xs -> forall (h0 : heap) ext m s vs os ks h, let a := List.length h0 in
  (forall b, In b m -> 2 <= b < List.length h0) -> booleans h0 -> grows h0 h -> WF h (a :: ext) ->
  objectAt h a = Some (BList (map Some ks ++ repeat None (List.length vs))) -> all2 (den (mask (a :: m) h)) os ks -> small (List.length h0) (a :: m) h s ->
  all2 (rep (mask m h0)) xs vs -> Forall keyed xs -> Forall (fun x => psize (tpy x) <= s) xs ->
  exists h' ks', fillL a (List.length ks) vs h = Ok h' /\ WF h' (a :: ext) /\ grows h0 h' /\ objectAt h' a = Some (BList (map Some ks')) /\
    all2 (den (mask (a :: m) h')) (os ++ map tpy xs) ks' /\ small (List.length h0) (a :: m) h' s.
Proof.
  induction 1 as [|x xs Hx _ IH]; intros h0 ext m s [|v vs] os ks h a Hm HB G W Q D SM R K P; cbn [all2] in R; try contradiction.
  - exists h, ks. cbn [map]. cbn [List.length repeat] in Q. rewrite app_nil_r in Q. rewrite app_nil_r. repeat (split; [assumption || reflexivity|]). assumption.
  - destruct R as [R Rs]. inversion K as [|? ? K1 K2]; subst. inversion P as [|? ? P1 P2]; subst.
    change (fillL a (List.length ks) (v :: vs) h) with (obind (cast v h) (fun '(p, h) => obind (incrp p h) (fun h => obind (listSet a (List.length ks) p h) (fun h => obind (decref p h) (fun h => fillL a (S (List.length ks)) vs h))))).
    pose proof (objectAt_lt _ _ _ Q) as La.
    destruct (Hx v h (a :: ext) (a :: m) W) as (k & h1 & E1 & W1 & G1 & D1 & SM1).
    { eapply booleans_grows; eauto. }
    { intros b [<-|I]; [destruct HB as [_ HB]; apply objectAt_lt in HB; lia|]. specialize (Hm b I). lia. }
    { revert R. apply rep_mono. now apply mask_more. }
    { exact K1. }
    rewrite E1. cbn [obind incrp]. destruct (den_alive _ _ _ D1) as (bk & Qk). pose proof (mask_le _ _ _ _ Qk) as Qk1.
    destruct (incref_ok h1 _ k W1 (alive_cnt h1 _ k bk W1 Qk1)) as (h2 & E2 & W2 & S2). rewrite E2. cbn [obind].
    assert (Q2 : objectAt h2 a = Some (BList (map Some ks ++ None :: repeat None (List.length vs)))) by (rewrite (proj2 S2), (proj2 G1 a La); exact Q).
    set (l1 := map Some ks ++ None :: repeat None (List.length vs)) in *.
    assert (N1 : nth_error l1 (List.length ks) = Some None) by (unfold l1; rewrite <- (map_length (@Some nat) ks); apply nth_mid).
    unfold listSet. rewrite (look_ok _ _ _ Q2). cbn [obind]. rewrite N1. unfold decref at 1. unfold drop at 1. cbn [ptrs List.length release].
    assert (RL : forall (n : nat) (g : heap), release n [] g = Ok g) by (intros [|n] g; reflexivity). rewrite RL. cbn [obind].
    set (h3 := setBody a (BList (setSlot l1 (List.length ks) (Some k))) h2).
    assert (KK : forall y, cnt y (somes (setSlot l1 (List.length ks) (Some k))) = cnt y (somes l1) + cnt y [k]) by (intros y; pose proof (somes_setSlot l1 (List.length ks) None (Some k) y N1) as Z; cbn [ptrs] in Z; rewrite cnt_nil in Z; lia).
    assert (W3 : WF h3 (k :: a :: ext)) by (apply (setBody_ok h2 _ _ a _ _ W2 Q2); intros y; cbn [kids]; rewrite (KK y), !cnt_cons, cnt_nil; lia).
    destruct (drop_same [k] h3 (a :: ext) W3) as (h4 & E4 & W4 & S4).
    { intros x0 [<-|[]]. pose proof (setBody_cnt h2 a _ (BList (setSlot l1 (List.length ks) (Some k))) k Q2) as Z. cbn [kids] in Z. fold h3 in Z. rewrite (KK k), cnt_cons, Nat.eqb_refl in Z. lia. }
    unfold decref. cbn [ptrs]. rewrite E4. cbn [obind].
    assert (M4 : forall z, mask (a :: m) h4 z = mask (a :: m) h1 z) by (intros z; rewrite (mask_same _ _ _ S4); unfold h3; rewrite (mask_set _ _ _ _ _ Q2); now apply mask_same).
    assert (L4 : List.length h4 = List.length h1) by (rewrite (proj1 S4); unfold h3; rewrite setBody_len; apply S2).
    assert (G4 : grows h0 h4).
    { split; [rewrite L4; destruct G, G1; lia|]. intros z Lz. rewrite (proj2 S4). unfold h3. rewrite (setBody_at _ _ _ _ _ Q2). destruct (Nat.eqb_spec a z) as [Eq|_]; [unfold a in Eq; lia|]. rewrite (proj2 S2). destruct G as [G0 G']. rewrite (proj2 G1) by lia. auto. }
    assert (Q4 : objectAt h4 a = Some (BList (map Some (ks ++ [k]) ++ repeat None (List.length vs)))).
    { rewrite (proj2 S4). unfold h3. rewrite (setBody_at _ _ _ _ _ Q2), Nat.eqb_refl. unfold l1. rewrite <- (map_length (@Some nat) ks), setSlot_mid, map_app, <- app_assoc. reflexivity. }
    specialize (IH h0 ext m s vs (os ++ [tpy x]) (ks ++ [k]) h4). cbv zeta in IH. fold a in IH. destruct IH as (h' & ks' & E' & W' & G' & Q' & D' & SM'); auto.
    + apply all2_app; [|cbn [all2]; split; [revert D1; now apply den_eq|exact I]]. revert D. apply all2_mono. apply Forall_forall. intros o _ z Dz. eapply den_eq; [exact M4|]. revert Dz. apply den_mono. now apply mask_grows.
    + eapply small_eq; [exact M4|]. eapply small_step; eauto.
    + exists h', ks'. rewrite app_length, Nat.add_1_r in E'. split; [exact E'|]. rewrite <- app_assoc in D'. cbn [List.app] in D'. repeat (split; [assumption|]). assumption.
Qed.

Lemma findKey_none (h : heap) s (os : list (string * py)) B ks : le_obj B (objectAt h) -> all2 (entry B) os ks -> ~ In s (map fst os) -> findKey s ks h = Ok None.
Proof.
  intros L. revert ks. induction os as [|[s' o] os IH]; intros [|[k v] ks]; cbn [all2]; [reflexivity|intros []|intros []|]. intros [[Q _] A] NI. cbn [fst snd map] in Q, NI. cbn [findKey]. rewrite (look_ok _ _ _ (L _ _ Q)). cbn [obind].
  destruct (String.eqb_spec s s') as [->|D]; [exfalso; apply NI; now left|]. rewrite (IH ks A) by (intros I; apply NI; now right). reflexivity.
Qed.
Lemma kids_app l k : kids (@BDict N (l ++ k)) = kids (@BDict N l) ++ kids (@BDict N k).
Proof. cbn [kids]. apply flat_map_app. Qed.
Lemma fillM_ok (xs : list (string * tval)) : Forall (fun p => Cast (snd p)) xs -> forall (h0 : heap) ext m s vs (os : list (string * py)) ks h, let a := List.length h0 in
  (forall b, In b m -> 2 <= b < List.length h0) -> booleans h0 -> grows h0 h -> WF h (a :: ext) ->
  objectAt h a = Some (BDict ks) -> all2 (entry (mask (a :: m) h)) os ks -> small (List.length h0) (a :: m) h s -> 1 <= s ->
  all2 (pair_rep (mask m h0)) xs vs -> Forall (fun p => keyed (snd p)) xs -> Forall (fun p => psize (tpy (snd p)) <= s) xs -> NoDup (map fst os ++ map fst xs) ->
  exists h' ks', fillM a vs h = Ok h' /\ WF h' (a :: ext) /\ grows h0 h' /\ objectAt h' a = Some (BDict ks') /\
    all2 (entry (mask (a :: m) h')) (os ++ map (fun p => (fst p, tpy (snd p))) xs) ks' /\ small (List.length h0) (a :: m) h' s.
Proof.
  induction 1 as [|[sx x] xs Hx _ IH]; intros h0 ext m s [|[sv v] vs] os ks h a Hm HB G W Q D SM S1 R K P ND; cbn [all2] in R; try contradiction.
  - exists h, ks. cbn [map]. rewrite app_nil_r. repeat (split; [assumption || reflexivity|]). assumption.
  - destruct R as [[Es R] Rs]. cbn [fst snd] in *. subst sv. inversion K as [|? ? K1 K2]; subst. inversion P as [|? ? P1 P2]; subst. cbn [snd] in *.
    change (fillM a ((sx, v) :: vs) h) with (obind (cast v (h ++ [Some (mkCell 1 (BStr sx))])) (fun '(p, h1) => obind (dictSet a (Some (List.length h)) p h1) (fun h2 => obind (decref p h2) (fun h3 => obind (decref (Some (List.length h)) h3) (fun h4 => fillM a vs h4))))).
    pose proof (objectAt_lt _ _ _ Q) as La. set (b := List.length h). set (hb := h ++ [Some (mkCell 1 (BStr sx))]).
    destruct (alloc_ok h (a :: ext) (BStr sx) (a :: ext) W) as [Wb Gb]; [intros y; cbn [kids]; rewrite cnt_nil; lia|]. fold hb b in Wb, Gb.
    assert (Qb : objectAt hb b = Some (BStr sx)) by apply alloc_body.
    assert (Lhb : List.length hb = S b) by (unfold hb; rewrite app_length; cbn; lia).
    destruct (Hx v hb (b :: a :: ext) (a :: m) Wb) as (k & h1 & E1 & W1 & G1 & D1 & SM1).
    { eapply booleans_grows; [exact Gb|]. eapply booleans_grows; eauto. }
    { intros z [<-|I]; [destruct HB as [_ HB]; apply objectAt_lt in HB; lia|]. specialize (Hm z I). destruct G. lia. }
    { revert R. apply rep_mono. apply mask_more. eapply grows_trans; eauto. }
    { exact K1. }
    rewrite E1. cbn [obind]. destruct (den_alive _ _ _ D1) as (bk & Qk). pose proof (mask_le _ _ _ _ Qk) as Qk1.
    assert (Qa1 : objectAt h1 a = Some (BDict ks)) by (rewrite (proj2 G1 a) by lia; rewrite (proj2 Gb a La); exact Q).
    assert (Qb1 : objectAt h1 b = Some (BStr sx)) by (rewrite (proj2 G1 b) by lia; exact Qb).
    assert (Ghh1 : grows h h1) by (eapply grows_trans; eauto).
    assert (D0 : all2 (entry (mask (a :: m) h1)) os ks).
    { revert D. apply all2_mono. apply Forall_forall. intros o _ z [X Y]. split; [now apply (mask_grows _ _ _ Ghh1)|]. revert Y. apply den_mono. now apply mask_grows. }
    assert (NI : ~ In sx (map fst os)) by (cbn [map fst] in ND; apply NoDup_remove_2 in ND; intros I; apply ND; apply in_or_app; now left).
    unfold dictSet. rewrite (look_ok _ _ _ Qa1). cbn [obind lookp]. rewrite (look_ok _ _ _ Qb1). cbn [obind]. rewrite (look_ok _ _ _ Qk1). cbn [obind].
    rewrite (findKey_none h1 sx os _ ks (mask_le (a :: m) h1) D0 NI). cbn [obind].
    destruct (incref_ok h1 _ b W1 (alive_cnt h1 _ b _ W1 Qb1)) as (h2 & E2 & W2 & S2). rewrite E2. cbn [obind].
    assert (Qk2 : objectAt h2 k = Some bk) by (rewrite (proj2 S2); exact Qk1).
    destruct (incref_ok h2 _ k W2 (alive_cnt h2 _ k _ W2 Qk2)) as (h3 & E3 & W3 & S3). rewrite E3. cbn [obind].
    pose proof (sameb_trans _ _ _ S2 S3) as S23. assert (Qa3 : objectAt h3 a = Some (BDict ks)) by (rewrite (proj2 S23); exact Qa1).
    set (h5 := setBody a (BDict (ks ++ [(b, k)])) h3).
    assert (W5 : WF h5 (k :: b :: a :: ext)) by (apply (setBody_ok h3 _ _ a _ _ W3 Qa3); intros y; rewrite kids_app, cnt_app; cbn [kids flat_map fst snd List.app]; rewrite !cnt_cons, cnt_nil; lia).
    assert (C5 : forall y, cnt y (refs h5) = cnt y (refs h3) + cnt y [b; k]).
    { intros y. pose proof (setBody_cnt h3 a _ (BDict (ks ++ [(b, k)])) y Qa3) as Z. fold h5 in Z. rewrite kids_app, cnt_app in Z. change (kids (@BDict N [(b, k)])) with [b; k] in Z. lia. }
    destruct (drop_same [k] h5 (b :: a :: ext) W5) as (h6 & E6 & W6 & S6).
    { intros z [<-|[]]. rewrite (C5 k), !cnt_cons, Nat.eqb_refl. lia. }
    destruct (drop_same [b] h6 (a :: ext) W6) as (h7 & E7 & W7 & S7).
    { intros z [<-|[]]. rewrite (sameb_cnt _ _ S6), (C5 b), !cnt_cons, Nat.eqb_refl. lia. }
    unfold decref. cbn [ptrs]. rewrite E6. cbn [obind]. rewrite E7. cbn [obind]. pose proof (sameb_trans _ _ _ S6 S7) as S67.
    assert (M7 : forall z, mask (a :: m) h7 z = mask (a :: m) h1 z) by (intros z; rewrite (mask_same _ _ _ S67); unfold h5; rewrite (mask_set _ _ _ _ _ Qa3); now apply mask_same).
    assert (L7 : List.length h7 = List.length h1) by (rewrite (proj1 S67); unfold h5; rewrite setBody_len; apply S23).
    assert (G7 : grows h0 h7).
    { split; [rewrite L7; destruct G, G1; lia|]. intros z Lz. rewrite (proj2 S67). unfold h5. rewrite (setBody_at _ _ _ _ _ Qa3). destruct (Nat.eqb_spec a z) as [Eq|_]; [unfold a in Eq; lia|]. rewrite (proj2 S23). destruct G as [G0 G']. rewrite (proj2 Ghh1) by lia. auto. }
    assert (Q7 : objectAt h7 a = Some (BDict (ks ++ [(b, k)]))).
    { rewrite (proj2 S67). unfold h5. rewrite (setBody_at _ _ _ _ _ Qa3), Nat.eqb_refl. reflexivity. }
    assert (Mb : mask (a :: m) h7 b = Some (BStr sx)).
    { rewrite M7. unfold mask. destruct (in_dec _ b (a :: m)) as [[Eq|I]|]; [unfold b in Eq; lia|specialize (Hm b I); destruct G; unfold b in *; lia|exact Qb1]. }
    specialize (IH h0 ext m s vs (os ++ [(sx, tpy x)]) (ks ++ [(b, k)]) h7). cbv zeta in IH. fold a in IH. destruct IH as (h' & ks' & E' & W' & G' & Q' & D' & SM'); auto.
    + apply all2_app; [|cbn [all2]; split; [split; [exact Mb|cbn [snd]; revert D1; now apply den_eq]|exact I]]. revert D0. apply all2_mono. apply Forall_forall. intros o _ z [X Y]. split; [rewrite M7; exact X|]. revert Y. now apply den_eq.
    + intros z bz Lz Qz. rewrite M7 in Qz. destruct (Nat.lt_trichotomy z b) as [Y|[Y|Y]].
      * assert (Q0 : mask (a :: m) h z = Some bz) by (revert Qz; unfold mask; destruct (in_dec _ z (a :: m)); auto; rewrite (proj2 Ghh1 z Y); auto). destruct (SM z bz Lz Q0) as (o & Do & Po). exists o. split; [|exact Po]. eapply den_eq; [exact M7|]. revert Do. apply den_mono. now apply mask_grows.
      * rewrite Y. exists (PStr sx). split; [exact Mb|exact S1].
      * destruct (SM1 z bz ltac:(lia) Qz) as (o & Do & Po). exists o. split; [eapply den_eq; eauto|lia].
    + rewrite map_app, <- app_assoc. exact ND.
    + exists h', ks'. split; [exact E'|]. rewrite <- app_assoc in D'. repeat (split; [assumption|]). assumption.
Qed.
Lemma keyed_list l : keyed (@XList N l) -> Forall keyed l.
Proof. cbn [keyed]. induction l as [|x l IH]; intros K; constructor; [apply K|apply IH, K]. Qed.
Lemma keyed_map l : keyed (@XMap N l) -> NoDup (map fst l) /\ Forall (fun p => keyed (snd p)) l.
Proof. cbn [keyed]. intros [ND K]. split; [exact ND|]. clear ND. induction l as [|[s x] l IH]; constructor; [apply K|apply IH, K]. Qed.
Lemma list_sum_in n l : In n l -> n <= list_sum l.
Proof. induction l as [|m l IH]; [intros []|]. change (list_sum (m :: l)) with (m + list_sum l). intros [->|I]; [lia|]. specialize (IH I). lia. Qed.
Lemma psize_pos o : 1 <= psize o.
Proof. destruct o; cbn; lia. Qed.
Lemma alloc_leaf (h : heap) ext b m o (v : cval) : WF h ext -> (forall a, In a m -> 2 <= a < List.length h) -> kids b = [] -> cast v h = Ok (Some (List.length h), h ++ [Some (mkCell 1 b)]) ->
  (forall B a, B a = Some b -> den B o a) -> exists a h', cast v h = Ok (Some a, h') /\ WF h' (a :: ext) /\ grows h h' /\ den (mask m h') o a /\ small (List.length h) m h' (psize o).
Proof.
  intros W Hm Kb E D. destruct (alloc_ok h ext b ext W) as [W' G]; [intros y; rewrite Kb, cnt_nil; lia|]. set (h1 := h ++ [Some (mkCell 1 b)]) in *.
  assert (Q : mask m h1 (List.length h) = Some b).
  { unfold mask. destruct (in_dec _ (List.length h) m) as [I|]; [specialize (Hm _ I); lia|]. apply alloc_body. }
  exists (List.length h), h1. split; [exact E|]. split; [exact W'|]. split; [exact G|]. split; [now apply D|].
  intros x bx L Qx. assert (x = List.length h). { apply mask_le in Qx. apply objectAt_lt in Qx. unfold h1 in Qx. rewrite app_length in Qx. cbn in Qx. lia. } subst x. exists o. split; [now apply D|lia].
Qed.
Lemma small_done (h h' : heap) m a s o : a = List.length h -> ~ In a m -> den (mask m h') o a -> psize o = S s -> small (List.length h) (a :: m) h' s -> small (List.length h) m h' (psize o).
Proof.
  intros -> NI D P SM x b L Q. destruct (Nat.eq_dec x (List.length h)) as [->|NE]; [exists o; split; [exact D|lia]|].
  assert (Q' : mask (List.length h :: m) h' x = Some b). { revert Q. unfold mask. destruct (in_dec _ x m); [discriminate|]. destruct (in_dec _ x (List.length h :: m)) as [[Eq|I]|]; [congruence|contradiction|auto]. }
  destruct (SM x b L Q') as (o' & D' & P'). exists o'. split; [revert D'; apply den_mono, mask_less|lia].
Qed.
Lemma cast_any x : Cast x.
Proof.
  induction x as [b|z|r|s|l IH|l IH|o] using tval_rect'; intros v h ext m W HB Hm R K; destruct v as [b'|z'|r'|s'|k|k| |p]; cbn [rep] in R; try contradiction.
  - subst b'. cbn [cast]. set (a := (if b then 1 else 0)). assert (Q : objectAt h a = Some (BBool b)) by (destruct HB, b; assumption).
    destruct (incref_ok h ext a W (alive_cnt h ext a _ W Q)) as (h1 & E & W1 & S1). rewrite E. cbn [obind]. exists a, h1. split; [reflexivity|]. split; [exact W1|]. split; [now apply sameb_grows|]. cbn [tpy den]. split.
    + unfold mask. destruct (in_dec _ a m) as [I|]; [specialize (Hm a I); unfold a in Hm; destruct b; lia|]. rewrite (proj2 S1). exact Q.
    + intros x bx L Qx. apply mask_le in Qx. apply objectAt_lt in Qx. rewrite (proj1 S1) in Qx. lia.
  - subst z'. apply (alloc_leaf h ext (BInt z)); auto; reflexivity.
  - subst r'. apply (alloc_leaf h ext (BFloat r)); auto; reflexivity.
  - subst s'. apply (alloc_leaf h ext (BStr (cstr s))); auto; reflexivity.
  - fold (rep (mask m h) (XList l) (VList k)) in R. apply rep_list in R. rewrite cast_list. set (hb := h ++ [Some (mkCell 1 (BList (repeat None (List.length k))))]).
    destruct (alloc_ok h ext (BList (repeat None (List.length k))) ext W) as [Wb Gb]; [intros y; cbn [kids]; replace (somes (repeat None (List.length k))) with (@nil nat) by (clear; induction (List.length k); auto); rewrite cnt_nil; lia|]. fold hb in Wb, Gb.
    assert (Na : ~ In (List.length h) m) by (intros I; specialize (Hm _ I); lia).
    destruct (fillL_ok l IH h ext m (list_sum (map psize (map tpy l))) k [] [] hb) as (h' & ks' & E & W' & G' & Q' & D' & SM'); auto.
    + apply alloc_body.
    + exact I.
    + intros x b L Q. exfalso. pose proof Q as Q0. apply mask_le in Q0. apply objectAt_lt in Q0. unfold hb in Q0. rewrite app_length in Q0. cbn in Q0. assert (x = List.length h) by lia. subst x. revert Q. unfold mask. destruct (in_dec _ _ (List.length h :: m)) as [|n]; [discriminate|]. exfalso. apply n. now left.
    + now apply keyed_list.
    + apply Forall_forall. intros x I. apply list_sum_in. rewrite map_map. now apply (in_map (fun x => psize (tpy x))).
    + change (List.length (@nil nat)) with 0 in E. rewrite E. cbn [obind]. exists (List.length h), h'. split; [reflexivity|]. split; [exact W'|]. split; [exact G'|]. cbn [List.app] in D'.
      assert (DN : den (mask m h') (tpy (XList l)) (List.length h)).
      { cbn [tpy]. apply den_list. exists ks'. split; [unfold mask; destruct (in_dec _ (List.length h) m); [contradiction|exact Q']|]. revert D'. apply all2_mono. apply Forall_forall. intros o _ z. apply den_mono, mask_less. }
      split; [exact DN|]. exact (small_done h h' m _ _ _ eq_refl Na DN eq_refl SM').
  - fold (rep (mask m h) (XMap l) (VMap k)) in R. apply rep_map in R. rewrite cast_map. set (hb := h ++ [Some (mkCell 1 (BDict []))]).
    destruct (alloc_ok h ext (BDict []) ext W) as [Wb Gb]; [intros y; cbn [kids flat_map]; rewrite cnt_nil; lia|]. fold hb in Wb, Gb.
    assert (Na : ~ In (List.length h) m) by (intros I; specialize (Hm _ I); lia). apply keyed_map in K as [ND K].
    destruct l as [|p0 l0].
    { destruct k as [|? ?]; [|contradiction R]. exists (List.length h), hb. split; [reflexivity|]. split; [exact Wb|]. split; [exact Gb|]. assert (DN : den (mask m hb) (tpy (XMap [])) (List.length h)) by (apply den_dict; exists []; split; [unfold mask; destruct (in_dec _ (List.length h) m); [contradiction|apply alloc_body]|exact I]).
      split; [exact DN|]. apply (small_done h hb m _ 0 _ eq_refl Na DN eq_refl). intros x b L Q. exfalso. pose proof Q as Q0. apply mask_le in Q0. apply objectAt_lt in Q0. unfold hb in Q0. rewrite app_length in Q0. cbn in Q0. assert (x = List.length h) by lia. subst x. revert Q. unfold mask. destruct (in_dec _ _ (List.length h :: m)) as [|n]; [discriminate|]. exfalso. apply n. now left. }
    set (l := p0 :: l0) in *.
    destruct (fillM_ok l IH h ext m (list_sum (map (fun p => psize (snd p) + 1) (map (fun p => (fst p, tpy (snd p))) l))) k [] [] hb) as (h' & ks' & E & W' & G' & Q' & D' & SM'); auto.
    + apply alloc_body.
    + exact I.
    + intros x b L Q. exfalso. pose proof Q as Q0. apply mask_le in Q0. apply objectAt_lt in Q0. unfold hb in Q0. rewrite app_length in Q0. cbn in Q0. assert (x = List.length h) by lia. subst x. revert Q. unfold mask. destruct (in_dec _ _ (List.length h :: m)) as [|n]; [discriminate|]. exfalso. apply n. now left.
    + unfold l. cbn [map list_sum fold_right]. lia.
    + apply Forall_forall. intros x I. rewrite map_map. cbn [snd]. pose proof (list_sum_in _ _ (in_map (fun p : string * tval => psize (tpy (snd p)) + 1) _ _ I)). lia.
    + rewrite E. cbn [obind]. exists (List.length h), h'. split; [reflexivity|]. split; [exact W'|]. split; [exact G'|]. cbn [List.app] in D'.
      assert (DN : den (mask m h') (tpy (XMap l)) (List.length h)).
      { cbn [tpy]. apply den_dict. exists ks'. split; [unfold mask; destruct (in_dec _ (List.length h) m); [contradiction|exact Q']|]. revert D'. apply all2_mono. apply Forall_forall. intros o _ z [X Y]. split; [now apply mask_less in X|]. revert Y. apply den_mono, mask_less. }
      split; [exact DN|]. exact (small_done h h' m _ _ _ eq_refl Na DN eq_refl SM').
  - destruct p as [a|]; [|contradiction]. cbn [cast incrp]. destruct (den_alive _ _ _ R) as (b & Q). pose proof (mask_le _ _ _ _ Q) as Q0. destruct (incref_ok h ext a W (alive_cnt h ext a _ W Q0)) as (h1 & E & W1 & S1). rewrite E. cbn [obind].
    exists a, h1. split; [reflexivity|]. split; [exact W1|]. split; [now apply sameb_grows|]. cbn [tpy]. split; [revert R; apply den_mono, mask_grows; now apply sameb_grows|].
    intros x bx L Qx. apply mask_le in Qx. apply objectAt_lt in Qx. rewrite (proj1 S1) in Qx. lia.
Qed.
Lemma cast_ok x v (h : heap) ext : WF h ext -> booleans h -> rep (objectAt h) x v -> keyed x ->
  exists a h', cast v h = Ok (Some a, h') /\ WF h' (a :: ext) /\ grows h h' /\ den (objectAt h') (tpy x) a /\ small (List.length h) [] h' (psize (tpy x)).
Proof. intros W HB R K. apply (cast_any x v h ext [] W HB); auto. intros a []. Qed.

(** ** destroying the result *)
Lemma all2_fun {A B} (P Q : A -> B -> Prop) (l l' : list A) : Forall (fun a => forall b a', P a b -> Q a' b -> a = a') l -> forall k, all2 P l k -> all2 Q l' k -> l = l'.
Proof. intros F. revert l'. induction F as [|a l H _ IH]; intros [|a' l'] [|b k]; cbn [all2]; try tauto. intros [X Y] [X' Y']. f_equal; eauto. Qed.
Lemma map_some_inj (k k' : list nat) : map Some k = map Some k' -> k = k'.
Proof. revert k'. induction k as [|x k IH]; intros [|y k']; cbn; intros E; try discriminate; auto. injection E as -> E. f_equal. auto. Qed.
Lemma den_unique (B : nat -> option body) : forall o o' a, den B o a -> den B o' a -> o = o'.
Proof.
  induction o as [| | | | |l IH|l IH|l IH] using py_rect'; intros o' a D D'.
  1-5: cbn [den] in D; destruct o'; cbn [den] in D'; try (destruct D' as (k' & D' & _)); rewrite D in D'; congruence.
  - apply den_list in D as (k & D & A). destruct o' as [| | | | |l'|l'|l']; try (cbn [den] in D'; congruence).
    + apply den_list in D' as (k' & D' & A'). rewrite D in D'. injection D' as D'. apply map_some_inj in D'. subst k'. f_equal. eapply all2_fun; eauto. eapply Forall_impl; [|exact IH]. cbn. eauto.
    + apply den_tup in D' as (k' & D' & _). congruence.
    + apply den_dict in D' as (k' & D' & _). congruence.
  - apply den_tup in D as (k & D & A). destruct o' as [| | | | |l'|l'|l']; try (cbn [den] in D'; congruence).
    + apply den_list in D' as (k' & D' & _). congruence.
    + apply den_tup in D' as (k' & D' & A'). rewrite D in D'. injection D' as D'. apply map_some_inj in D'. subst k'. f_equal. eapply all2_fun; eauto. eapply Forall_impl; [|exact IH]. cbn. eauto.
    + apply den_dict in D' as (k' & D' & _). congruence.
  - apply den_dict in D as (k & D & A). destruct o' as [| | | | |l'|l'|l']; try (cbn [den] in D'; congruence).
    + apply den_list in D' as (k' & D' & _). congruence.
    + apply den_tup in D' as (k' & D' & _). congruence.
    + apply den_dict in D' as (k' & D' & A'). rewrite D in D'. injection D' as <-. f_equal. eapply all2_fun; [|exact A|exact A']. eapply Forall_impl; [|exact IH]. intros [s o] Ho b [s' o'] [X Y] [X' Y']. cbn [fst snd] in *. f_equal; [congruence|eauto].
Qed.
Lemma somes_map (k : list nat) : somes (map Some k) = k.
Proof. induction k as [|x k IH]; cbn; congruence. Qed.
Lemma all2_pick {A B} (P : A -> B -> Prop) l : forall k y, all2 P l k -> In y k -> exists x, In x l /\ P x y.
Proof. induction l as [|a l IH]; intros [|b k] y; cbn; try tauto. intros [X Y] [<-|I]; [eauto|]. destruct (IH k y Y I) as (x & Ix & Px). eauto. Qed.
Lemma kid_size (B : nat -> option body) o p b x : den B o p -> B p = Some b -> In x (kids b) -> exists o', den B o' x /\ psize o' < psize o.
Proof.
  intros D Q I. destruct o as [| | | | |l|l|l]; try (cbn [den] in D; rewrite D in Q; injection Q as <-; destruct I).
  - apply den_list in D as (k & D & A). rewrite D in Q. injection Q as <-. cbn [kids] in I. rewrite somes_map in I. destruct (all2_pick _ _ _ _ A I) as (o & Io & Do). exists o. split; [exact Do|]. pose proof (list_sum_in _ _ (in_map psize _ _ Io)). cbn [psize]. lia.
  - apply den_tup in D as (k & D & A). rewrite D in Q. injection Q as <-. cbn [kids] in I. rewrite somes_map in I. destruct (all2_pick _ _ _ _ A I) as (o & Io & Do). exists o. split; [exact Do|]. pose proof (list_sum_in _ _ (in_map psize _ _ Io)). cbn [psize]. lia.
  - apply den_dict in D as (k & D & A). rewrite D in Q. injection Q as <-. cbn [kids] in I. apply in_flat_map in I as ([u w] & Iq & I). destruct (all2_pick _ _ _ _ A Iq) as ([s o] & Io & [X Y]). cbn [fst snd] in *.
    pose proof (list_sum_in _ _ (in_map (fun p : string * py => psize (snd p) + 1) _ _ Io)) as L. cbn [snd] in L. pose proof (psize_pos o). destruct I as [<-|[<-|[]]]; [exists (PStr s); split; [exact X|]|exists o; split; [exact Y|]]; cbn [psize] in *; lia.
Qed.
Lemma list_ext {A} (l l' : list A) : (forall n, nth_error l n = nth_error l' n) -> l = l'.
Proof.
  revert l'. induction l as [|x l IH]; intros [|y l'] H; auto; try (specialize (H 0); discriminate). pose proof (H 0) as E. injection E as ->. f_equal. apply IH. intros n. exact (H (S n)).
Qed.
Lemma WF_unique (h h' : heap) e : WF h e -> WF h' e -> sameb h h' -> h' = h.
Proof.
  intros W W' SB. assert (Q : forall a, cellAt h' a = cellAt h a).
  { intros a. specialize (W a). specialize (W' a). pose proof (proj2 SB a) as B. rewrite (sameb_cnt _ _ SB) in W'. unfold objectAt in B. destruct (cellAt h a) as [[r b]|], (cellAt h' a) as [[r' b']|]; cbn in *; try discriminate; auto. injection B as ->. do 2 f_equal. lia. }
  destruct SB as [L _]. apply list_ext. intros n. specialize (Q n). unfold cellAt in Q. destruct (nth_error h n) as [x|] eqn:E.
  - destruct (nth_error h' n) as [y|] eqn:E'; [congruence|]. apply nth_error_None in E'. assert (n < List.length h) by (apply nth_error_Some; congruence). lia.
  - apply nth_error_None in E. apply nth_error_None. lia.
Qed.
Lemma freed (h h1 : heap) a ext s : WF h ext -> WF h1 (a :: ext) -> grows h h1 -> small (List.length h) [] h1 s ->
  exists h2, drop [a] h1 = Ok h2 /\ h2 = h ++ repeat None (List.length h1 - List.length h).
Proof.
  intros W W1 G SM. destruct (drop_ok [a] h1 ext W1) as (h2 & E & W2 & SH & GG). exists h2. split; [exact E|]. specialize (GG h W G).
  assert (HE : forall x, List.length h <= x -> In x ext -> False).
  { intros x L I. destruct (in_alive h ext x W) as (b & Q); [apply cnt_In in I; lia|]. apply objectAt_lt in Q. lia. }
  assert (DEAD : forall n x b o, List.length h <= x -> objectAt h2 x = Some b -> den (objectAt h1) o x -> s - psize o <= n -> psize o <= s -> False).
  { induction n as [|n IH]; intros x b o L Q D Ln Po; pose proof (alive_in h2 ext x b W2 Q) as A; (assert (C : cnt x ext = 0) by (apply cnt_0; intros I; eapply HE; eauto)); (assert (I : In x (refs h2)) by (apply cnt_In; lia));
    apply refs_In in I as (p & c & Cp & K); (assert (Qp : objectAt h2 p = Some (c_body c)) by (unfold objectAt; now rewrite Cp)).
    all: assert (Lp : List.length h <= p) by
      (destruct (Nat.lt_ge_cases p (List.length h)) as [Y|]; [|assumption]; exfalso; rewrite (proj2 GG p Y) in Qp; destruct (kid_alive h ext p _ x W Qp K) as (b' & Qx); apply objectAt_lt in Qx; lia).
    all: pose proof (proj2 SH _ _ Qp) as Qp1; destruct (SM p _ Lp Qp1) as (op & Dp & Pp); destruct (kid_size _ _ _ _ _ Dp Qp1 K) as (ox & Dx & Px); pose proof (den_unique _ _ _ _ D Dx) as EQ; rewrite <- EQ in Px.
    - lia.
    - eapply (IH p _ op); eauto; lia. }
  set (k := List.length h1 - List.length h). assert (Lk : List.length h2 = List.length (h ++ repeat None k)) by (rewrite app_length, repeat_length, (proj1 SH); destruct G; unfold k; lia).
  assert (CA : forall y, cellAt (h ++ repeat None k) y = cellAt h y).
  { intros y. unfold cellAt. destruct (Nat.lt_ge_cases y (List.length h)) as [Y|Y]; [now rewrite nth_error_app1|]. rewrite nth_error_app2 by exact Y. rewrite (proj2 (nth_error_None h y) Y). destruct (nth_error (repeat None k) (y - List.length h)) as [z|] eqn:Ez; [|reflexivity]. apply nth_error_In in Ez. now apply repeat_spec in Ez. }
  assert (RF : refs (h ++ repeat None k) = refs h).
  { unfold refs. rewrite flat_map_app. replace (flat_map _ (repeat None k)) with (@nil nat); [now rewrite app_nil_r|]. clear. induction k; auto. }
  apply (WF_unique (h ++ repeat None k) h2 ext); [|exact W2|].
  - intros y. rewrite CA, RF. apply W.
  - split; [exact Lk|]. intros y. unfold objectAt at 2. rewrite CA. fold (objectAt h y). destruct (Nat.lt_ge_cases y (List.length h)) as [Y|Y]; [now apply GG|]. assert (Z : objectAt h y = None) by (destruct (objectAt h y) eqn:Z; auto; apply objectAt_lt in Z; lia). rewrite Z.
    destruct (objectAt h2 y) as [b|] eqn:Qy; auto. exfalso. destruct (SM y b Y (proj2 SH _ _ Qy)) as (o & D & P). eapply (DEAD _ y b o); eauto.
Qed.

(** ** there and back *)
Lemma fits_flat t : forall x : tval, fits t x -> (match t with TTup _ => False | _ => True end).
Proof. destruct t, x; cbn; auto. Qed.
Lemma cstr_cstr s : cstr (cstr s) = cstr s.
Proof. induction s as [|c s IH]; cbn; auto. destruct (Ascii.eqb c Ascii.zero) eqn:E; cbn; auto. now rewrite E, IH. Qed.
Lemma firsts_new {A} (l acc : list (string * A)) : NoDup (map fst acc ++ map fst l) -> firsts l acc = acc ++ l.
Proof.
  revert acc. induction l as [|[k x] l IH]; intros acc ND; cbn [firsts]; [now rewrite app_nil_r|]. cbn [map fst] in ND.
  assert (E : existsb (fun p : string * A => String.eqb k (fst p)) acc = false).
  { destruct (existsb _ acc) eqn:E; auto. apply existsb_exists in E as ([k' y] & I & Q). apply String.eqb_eq in Q. cbn in Q. subst k'. apply NoDup_remove_2 in ND. exfalso. apply ND. apply in_or_app. left. now apply (in_map fst) in I. }
  rewrite E, IH, <- app_assoc; [reflexivity|]. rewrite map_app, <- app_assoc. exact ND.
Qed.
Lemma tconv_tpy t : flat t = true -> forall x : tval, fits t x -> keyed x -> tconv t (tpy x) = Some x.
Proof.
  induction t as [| | | | | |t IH|t IH|l|]; intros F x H K; destruct x as [b|z|r|s|l'|l'|o]; cbn [fits] in H; try contradiction; cbn [flat] in F; try discriminate; cbn [tpy tconv]; try reflexivity.
  - unfold cvInt, asLong, in_s64, asInt. cbn [option_map]. replace ((- 2 ^ 63 <=? z) && (z <? 2 ^ 63))%Z with true by lia. rewrite P_RNG.s32_id by lia. reflexivity.
  - unfold cvUInt, asULong, asInt. cbn [option_map]. replace ((0 <=? z) && (z <? 2 ^ 64))%Z with true by lia. do 2 f_equal. unfold u32. apply Z.mod_small. lia.
  - unfold cvLL, asLong, in_s64, asInt. cbn [option_map]. replace ((- 2 ^ 63 <=? z) && (z <? 2 ^ 63))%Z with true by lia. reflexivity.
  - cbn [cvStr option_map]. now rewrite !H.
  - cbn [cvList]. apply keyed_list in K. assert (Q : cvAll (tconv t) (map tpy l') = Some l').
    { clear - IH F H K. induction l' as [|x l' IHl]; cbn [map cvAll]; auto. destruct H as [H1 H2]. inversion K; subst. rewrite (IH F x H1), IHl; auto. }
    now rewrite Q.
  - apply keyed_map in K as [ND K]. rewrite !map_map. cbn [snd fst]. assert (Q : cvAll (tconv t) (map (fun p => tpy (snd p)) l') = Some (map snd l')).
    { clear - IH F H K. induction l' as [|[k x] l' IHl]; cbn [map cvAll snd]; auto. destruct H as [H1 H2]. inversion K; subst. cbn [snd] in *. rewrite (IH F x H1), IHl; auto. }
    rewrite Q. cbn [option_map]. do 2 f_equal. assert (C : forall l : list (string * tval), combine (map fst l) (map snd l) = l) by (clear; induction l as [|[k x] l IH]; cbn; congruence). rewrite C. apply (firsts_new l' []). exact ND.
Qed.

(** ** Convert to a tuple uses up references of others *)
Definition addT (a : nat) : nat -> list ty -> heap -> outcome (list (bool * option cval) * heap) :=
  fix add (i : nat) (ts : list ty) (h : heap) : outcome (list (bool * option cval) * heap) :=
          match ts with
          | [] => Ok ([], h)
          | t :: r =>
            obind (look a h) (fun b => match b with
            | BTup l =>
              obind (onItem (conv t) (nth i l None) h) (fun '(b, v, h) =>
              obind (decref (Some a) h) (fun h =>
              obind (add (S i) r h) (fun '(q, h) => Ok ((b, v) :: q, h))))
            | _ => UB
            end)
          end.
Lemma conv_tup ts a (h : heap) : conv (TTup ts) a h =
    obind (look a h) (fun b => match b with
    | BTup l =>
      if (List.length l =? List.length ts)%nat && negb (List.length ts =? 0)%nat then
        obind (incref a h) (fun h =>
        obind (addT a O ts h) (fun '(q, h) =>
        Ok (match last q (false, None) with (b, _) => b end, Some (VTup (somes (map snd q))), h)))
      else Ok (false, None, h)
    | _ => Ok (false, None, h)
    end).
Proof. reflexivity. Qed.
Definition ownedq (q : list (bool * option cval)) : list nat := flat_map (fun p => ownedo (snd p)) q.
Lemma owned_somes q y : cnt y (flat_map owned (somes (map snd q))) = cnt y (ownedq q).
Proof. unfold ownedq. induction q as [|[b [v|]] q IH]; cbn [map snd somes flat_map ownedo]; auto. rewrite !cnt_app. now rewrite IH. Qed.
Lemma cnt_repeat y a n : cnt y (repeat a n) = if a =? y then n else 0.
Proof. induction n as [|n IH]; cbn [repeat]; [rewrite cnt_nil; now destruct (a =? y)|]. rewrite cnt_cons, IH. destruct (a =? y); lia. Qed.
Lemma addT_ok a ks os : forall ts i (h : heap) ext, forallb flat ts = true -> WF h (repeat a (List.length ts) ++ a :: ext) -> objectAt h a = Some (BTup (map Some ks)) -> all2 (den (objectAt h)) os ks -> i + List.length ts <= List.length ks ->
  exists q h', addT a i ts h = Ok (q, h') /\ WF h' (ownedq q ++ a :: ext) /\ sameb h h'.
Proof.
  induction ts as [|t ts IH]; intros i h ext F W Q D L.
  - exists [], h. split; [reflexivity|]. split; [exact W|apply sameb_refl].
  - cbn [forallb] in F. apply andb_true_iff in F as [F1 F2]. cbn [List.length] in L.
    change (addT a i (t :: ts) h) with (obind (look a h) (fun b => match b with BTup l => obind (onItem (conv t) (nth i l None) h) (fun '(b, v, h) => obind (decref (Some a) h) (fun h => obind (addT a (S i) ts h) (fun '(q, h) => Ok ((b, v) :: q, h)))) | _ => UB end)).
    rewrite (look_ok _ _ _ Q). cbn [obind]. destruct (nth_error ks i) as [k|] eqn:Ek; [|apply nth_error_None in Ek; lia].
    assert (En : nth i (map Some ks) None = Some k) by (apply nth_error_nth; rewrite nth_error_map, Ek; reflexivity). rewrite En.
    assert (Dk : exists o, den (objectAt h) o k) by (apply nth_error_In in Ek; destruct (all2_pick _ _ _ _ D Ek) as (o & _ & Do); eauto). destruct Dk as (o & Dk).
    destruct (onItem_ok _ _ (conv_ok t F1) h _ o k W Dk) as (b & v & h1 & E1 & W1 & S1 & _). rewrite E1. cbn [obind].
    destruct (drop_same [a] h1 (ownedo v ++ repeat a (List.length ts) ++ a :: ext)) as (h2 & E2 & W2 & S2).
    { eapply WF_ext; [exact W1|]. intros y. cbn [List.length repeat List.app]. rewrite !cnt_app, !cnt_cons, !cnt_app, !cnt_cons. lia. }
    { intros x [<-|[]]. rewrite !cnt_app, cnt_cons, Nat.eqb_refl. lia. }
    unfold decref. cbn [ptrs]. rewrite E2. cbn [obind]. pose proof (sameb_trans _ _ _ S1 S2) as S12.
    destruct (IH (S i) h2 (ownedo v ++ ext) F2) as (q & h3 & E3 & W3 & S3).
    { eapply WF_ext; [exact W2|]. intros y. rewrite !cnt_app, !cnt_cons, !cnt_app. lia. }
    { rewrite (proj2 S12). exact Q. }
    { eapply trees_same; eauto. }
    { lia. }
    rewrite E3. cbn [obind]. exists ((b, v) :: q), h3. split; [reflexivity|]. split; [|eapply sameb_trans; eauto]. eapply WF_ext; [exact W3|]. intros y. unfold ownedq. cbn [flat_map snd]. rewrite !cnt_app, !cnt_cons, !cnt_app. lia.
Qed.
Lemma tuple_law ts a os (h : heap) ext : forallb flat ts = true -> ts <> [] -> List.length os = List.length ts -> den (objectAt h) (PTup os) a -> WF h (repeat a (List.length ts - 1) ++ a :: ext) ->
  exists b v h', convert (TTup ts) (Some a) h = Ok (b, v, h') /\ WF h' (ownedo v ++ a :: ext) /\ sameb h h'.
Proof.
  intros F NE Lo D W. apply den_tup in D as (ks & Q & A). pose proof (all2_len _ _ _ A) as Lk. unfold convert, byValue. cbn [incrp deref].
  destruct (incref_ok h _ a W (alive_cnt h _ a _ W Q)) as (h1 & E1 & W1 & S1). rewrite E1. cbn [obind]. assert (Q1 : objectAt h1 a = Some (BTup (map Some ks))) by (rewrite (proj2 S1); exact Q).
  rewrite conv_tup, (look_ok _ _ _ Q1). cbn [obind]. rewrite map_length. replace (List.length ks =? List.length ts) with true by (symmetry; apply Nat.eqb_eq; lia). destruct (Nat.eqb_spec (List.length ts) 0) as [Z|NZ]; [destruct ts; [contradiction|discriminate]|]. cbn [negb andb].
  destruct (incref_ok h1 _ a W1 (alive_cnt h1 _ a _ W1 Q1)) as (h2 & E2 & W2 & S2). rewrite E2. cbn [obind].
  destruct (addT_ok a ks os ts 0 h2 (a :: ext) F) as (q & h3 & E3 & W3 & S3).
  { eapply WF_ext; [exact W2|]. intros y. rewrite !cnt_cons, !cnt_app, !cnt_cons, !cnt_repeat. destruct (a =? y); lia. }
  { rewrite (proj2 S2). exact Q1. }
  { eapply trees_same; [exact S2|]. eapply trees_same; [exact S1|]. exact A. }
  { lia. }
  rewrite E3. cbn [obind]. set (v := VTup (somes (map snd q))).
  destruct (drop_same [a] h3 (owned v ++ a :: ext)) as (h4 & E4 & W4 & S4).
  { eapply WF_ext; [exact W3|]. intros y. unfold v. cbn [owned List.app]. rewrite !cnt_cons, !cnt_app, owned_somes, !cnt_cons. lia. }
  { intros x [<-|[]]. rewrite cnt_app, cnt_cons, Nat.eqb_refl. lia. }
  unfold decref. cbn [ptrs]. rewrite E4. cbn [obind]. destruct (last q (false, None)) as [b w]. exists b, (Some v), h4. split; [reflexivity|]. split; [exact W4|]. eapply sameb_trans; [exact S1|]. eapply sameb_trans; [exact S2|]. eapply sameb_trans; eauto.
Qed.

(** ** the constants of the interpreter stay *)
Definition scal (b : body) : Prop := match b with BList _ | BDict _ => False | _ => True end.
Definition later (h h' : heap) : Prop := List.length h <= List.length h' /\ forall a b', a < List.length h -> objectAt h' a = Some b' -> exists b, objectAt h a = Some b /\ (scal b -> b' = b).
Lemma later_refl h : later h h.
Proof. split; auto. intros a b' _ Q. eauto. Qed.
Lemma later_trans h1 h2 h3 : later h1 h2 -> later h2 h3 -> later h1 h3.
Proof.
  intros [L1 A] [L2 B]. split; [lia|]. intros a b3 L Q. destruct (B a b3 ltac:(lia) Q) as (b2 & Q2 & X). destruct (A a b2 L Q2) as (b1 & Q1 & Y). exists b1. split; [exact Q1|]. intros Z. specialize (Y Z). subst b2. auto.
Qed.
Lemma later_grows h h' : grows h h' -> later h h'.
Proof. intros [L G]. split; [exact L|]. intros a b' La Q. rewrite (G a La) in Q. eauto. Qed.
Lemma later_same h h' : sameb h h' -> later h h'.
Proof. intros S. now apply later_grows, sameb_grows. Qed.
Lemma later_shrinks h h' : shrinks h h' -> later h h'.
Proof. intros [L G]. split; [lia|]. intros a b' La Q. apply G in Q. eauto. Qed.
Lemma later_set h a b b' : objectAt h a = Some b -> ~ scal b -> later h (setBody a b' h).
Proof. intros Q NS. split; [rewrite setBody_len; lia|]. intros x bx L Qx. rewrite (setBody_at _ _ _ _ _ Q) in Qx. destruct (Nat.eqb_spec a x) as [Eq|D]; [rewrite <- Eq; exists b; split; [exact Q|contradiction]|eauto]. Qed.
Lemma shrinks_trans (h1 h2 h3 : heap) : shrinks h1 h2 -> shrinks h2 h3 -> shrinks h1 h3.
Proof. intros [A B] [C D]. split; [congruence|auto]. Qed.
Lemma release_later n : forall w h h', release n w h = Ok h' -> shrinks h h'.
Proof.
  induction n as [|n IH]; intros [|a w] h h'; cbn [release]; try (intros E; injection E as <-; split; auto; fail); try discriminate. destruct (cellAt h a) as [c|] eqn:C; [|discriminate]. pose proof (cellAt_lt _ _ _ C) as LT. intros E.
  assert (X : forall x, (forall b, option_map c_body x = Some b -> objectAt h a = Some b) -> shrinks h (put h a x)).
  { intros x H. split; [apply put_len|]. intros z b. unfold objectAt at 1. rewrite cellAt_put by exact LT. destruct (Nat.eqb_spec a z) as [Eq|D]; [rewrite <- Eq; apply H|auto]. }
  destruct (Nat.leb (c_rc c) 1); apply IH in E; (eapply shrinks_trans; [|exact E]); apply X; intros b; cbn; try discriminate. intros Q. injection Q as <-. unfold objectAt. now rewrite C.
Qed.
Lemma incref_same a h h' : incref a h = Ok h' -> sameb h h'.
Proof.
  unfold incref. destruct (cellAt h a) as [c|] eqn:C; [|discriminate]. intros E. injection E as <-. pose proof (cellAt_lt _ _ _ C) as LT. split; [apply put_len|]. intros z. unfold objectAt. rewrite cellAt_put by exact LT. destruct (Nat.eqb_spec a z) as [<-|D]; [now rewrite C|reflexivity].
Qed.
Lemma incrp_same p h h' : incrp p h = Ok h' -> sameb h h'.
Proof. destruct p; cbn; [apply incref_same|]. intros E. injection E as <-. apply sameb_refl. Qed.
Lemma look_at a h b : look a h = Ok b -> objectAt h a = Some b.
Proof. unfold look, objectAt. destruct (cellAt h a); [|discriminate]. intros E. now injection E as <-. Qed.
Lemma obind_inv {A B} (x : outcome A) (f : A -> outcome B) r : obind x f = Ok r -> exists a, x = Ok a /\ f a = Ok r.
Proof. destruct x; cbn; try discriminate. eauto. Qed.
Lemma decref_later p h h' : decref p h = Ok h' -> later h h'.
Proof. intros E. apply later_shrinks. eapply release_later. exact E. Qed.
Lemma listSet_later a i p h h' : listSet a i p h = Ok h' -> later h h'.
Proof.
  unfold listSet. intros E. apply obind_inv in E as (b & Q & E). apply look_at in Q. destruct b; try (now apply decref_later in E). destruct (nth_error l i); [|now apply decref_later in E]. eapply later_trans; [eapply later_set; [exact Q|auto]|]. eapply decref_later; eauto.
Qed.
Lemma dictSet_later a k v h h' : dictSet a k v h = Ok h' -> later h h'.
Proof.
  unfold dictSet. intros E. apply obind_inv in E as (b & Q & E). apply look_at in Q. apply obind_inv in E as (bk & Qk & E). apply obind_inv in E as (bv & Qv & E). destruct b, k, v, bk; try (injection E as <-; apply later_refl). apply obind_inv in E as ([i|] & _ & E).
  - destruct (nth_error l i) as [[k0 v0]|]; [|discriminate]. apply obind_inv in E as (h1 & E1 & E). apply incref_same in E1. eapply later_trans; [apply later_same; exact E1|]. eapply later_trans; [|eapply decref_later; exact E]. eapply later_set; [rewrite (proj2 E1); exact Q|auto].
  - apply obind_inv in E as (h1 & E1 & E). apply incref_same in E1. apply obind_inv in E as (h2 & E2 & E). apply incref_same in E2. injection E as <-. eapply later_trans; [apply later_same; exact E1|]. eapply later_trans; [apply later_same; exact E2|]. eapply later_set; [rewrite (proj2 E2), (proj2 E1); exact Q|auto].
Qed.
Lemma later_alloc (h : heap) b : later h (h ++ [Some (mkCell 1 b)]).
Proof. apply later_grows. split; [rewrite app_length; lia|]. intros a L. unfold objectAt. rewrite cellAt_app. destruct (Nat.ltb_spec a (List.length h)); [reflexivity|lia]. Qed.
Lemma gstep_later o (s s' : @gstate N) : gstep o s = Ok s' -> later (g_heap s) (g_heap s').
Proof.
  destruct o; cbn [gstep]; intros E.
  - injection E as <-. apply later_refl.
  - destruct b; injection E as <-; try apply later_refl; apply later_alloc.
  - injection E as <-. apply later_alloc.
  - injection E as <-. apply later_alloc.
  - apply obind_inv in E as (h & E1 & E). injection E as <-. eapply later_same, incref_same; eauto.
  - apply obind_inv in E as (h & E1 & E). injection E as <-. eapply later_same, incrp_same; eauto.
  - apply obind_inv in E as (b & _ & E). destruct b; try (injection E as <-; apply later_refl). apply obind_inv in E as (h & E1 & E). injection E as <-. eapply later_same, incrp_same; eauto.
  - destruct (_ || _); [injection E as <-; apply later_refl|]. apply obind_inv in E as (h1 & E1 & E). apply obind_inv in E as (h2 & E2 & E). injection E as <-. eapply later_trans; [eapply later_same, incrp_same; eauto|]. eapply decref_later; eauto.
  - apply obind_inv in E as (h1 & E1 & E). injection E as <-. eapply decref_later; eauto.
  - apply obind_inv in E as (h & E1 & E). injection E as <-. eapply later_same, incrp_same; eauto.
  - destruct (nth_error (g_raw s) i); injection E as <-; apply later_refl.
  - destruct (var x s); [|discriminate]. apply obind_inv in E as (h1 & E1 & E). apply obind_inv in E as (h2 & E2 & E). injection E as <-. eapply later_trans; [eapply later_same, incrp_same; eauto|]. eapply listSet_later; eauto.
  - destruct (var x s); [|discriminate]. apply obind_inv in E as (h1 & E1 & E). injection E as <-. eapply dictSet_later; eauto.
Qed.
Lemma grun_later l : forall s s' : @gstate N, grun l s = Ok s' -> later (g_heap s) (g_heap s').
Proof. induction l as [|o l IH]; intros s s' E; cbn [grun] in E; [injection E as <-; apply later_refl|]. apply obind_inv in E as (s1 & E1 & E). eapply later_trans; [eapply gstep_later; eauto|auto]. Qed.
Lemma roots_stay l (s : @gstate N) a : grun l g0 = Ok s -> In a roots -> objectAt (g_heap s) a = objectAt heap0 a.
Proof.
  intros E I. pose proof (grun_ok l g0 g0_ok) as W. rewrite E in W. apply grun_later in E. destruct (in_alive _ _ a W) as (b & Q); [apply cnt_In in I; unfold gext; rewrite !cnt_app; lia|].
  cbn [In roots] in I. destruct E as [_ E]. destruct (E a b) as (b0 & Q0 & X); [cbn; lia|exact Q|]. cbn [g_heap g0] in Q0. rewrite Q, Q0. f_equal. apply X. destruct I as [<-|[<-|[<-|[]]]]; cbn in Q0; injection Q0 as <-; exact I.
Qed.
Lemma all_gone l (s : @gstate N) rk : grun l g0 = Ok s -> (forall p, In p (g_vars s) -> p = None) -> g_raw s = [] -> ranked (g_heap s) rk -> forall a, ~ In a roots -> objectAt (g_heap s) a = None.
Proof.
  intros E V R RK a NI. pose proof (grun_ok l g0 g0_ok) as W. rewrite E in W. destruct (objectAt (g_heap s) a) as [b|] eqn:Q; auto. exfalso. destruct (no_leak _ _ rk W RK a b Q) as (n & RE).
  assert (X : gext s = roots). { unfold gext. rewrite R. replace (somes (g_vars s)) with (@nil nat); [reflexivity|]. clear - V. induction (g_vars s) as [|[x|] v IH]; cbn; auto; [specialize (V _ (or_introl eq_refl)); discriminate|]. apply IH. intros p I. apply V. now right. }
  rewrite X in RE. revert a b Q NI RE. assert (H : forall a, reach (g_heap s) roots n a -> In a roots); [|intros a b Q NI RE; apply NI, H, RE]. induction n as [|n IH]; intros a; cbn [reach]; auto. intros [I|(p & b & Rp & Qp & K)]; auto. apply IH in Rp. rewrite (roots_stay l s p E Rp) in Qp.
  cbn [In roots] in Rp. destruct Rp as [<-|[<-|[<-|[]]]]; cbn in Qp; injection Qp as <-; destruct K.
Qed.
End PGlue2.
