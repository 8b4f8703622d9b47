(** Reference counts behind the glue: every live object is counted as often as it is held *)
From Coq Require Import ZArith List Bool Arith Lia ZifyBool String.
From Verif Require Import Base Num PyDict Glue GlueSpec P_Check.
Import ListNotations.
Open Scope nat_scope.

Section PGlue.
Context {N : Num}.
Notation heap := (@heap N).
Notation cval := (@cval N).
Notation py := (@py N).

Lemma cnt_app a l m : cnt a (l ++ m) = cnt a l + cnt a m.
Proof. apply count_occ_app. Qed.
Lemma cnt_cons a b l : cnt a (b :: l) = (if Nat.eqb b a then 1 else 0) + cnt a l.
Proof. unfold cnt. cbn. destruct (Nat.eq_dec b a), (Nat.eqb_spec b a); congruence || lia. Qed.
Lemma cnt_nil a : cnt a [] = 0.
Proof. reflexivity. Qed.
Lemma cnt_In a l : 0 < cnt a l <-> In a l.
Proof. unfold cnt. rewrite (count_occ_In Nat.eq_dec). lia. Qed.
Lemma cnt_0 a l : cnt a l = 0 <-> ~ In a l.
Proof. rewrite <- cnt_In. lia. Qed.

(** ** the heap *)
Definition kidsO (x : option (@cell N)) : list nat := match x with Some c => kids (c_body c) | None => [] end.
Lemma put_len (h : heap) a x : List.length (put h a x) = List.length h.
Proof. revert a. induction h as [|y h IH]; intros [|a]; cbn; auto. Qed.
Lemma cellAt_put (h : heap) a x b : a < List.length h -> cellAt (put h a x) b = if Nat.eqb a b then x else cellAt h b.
Proof.
  unfold cellAt. revert a b. induction h as [|y h IH]; intros a b L; cbn in L; [lia|]. destruct a as [|a], b as [|b]; cbn; auto. apply IH. lia.
Qed.
Lemma cellAt_lt (h : heap) a c : cellAt h a = Some c -> a < List.length h.
Proof. unfold cellAt. destruct (nth_error h a) eqn:E; [|discriminate]. intros _. apply nth_error_Some. congruence. Qed.
Lemma cellAt_app (h : heap) x a : cellAt (h ++ [x]) a = if a <? List.length h then cellAt h a else if a =? List.length h then x else None.
Proof.
  unfold cellAt. destruct (Nat.ltb_spec a (List.length h)) as [L|L]; [rewrite nth_error_app1 by lia; reflexivity|].
  rewrite nth_error_app2 by lia. destruct (Nat.eqb_spec a (List.length h)) as [->|D]; [rewrite Nat.sub_diag; reflexivity|].
  destruct (a - List.length h) as [|n] eqn:E; [lia|]. cbn. destruct n; reflexivity.
Qed.
Lemma refs_cons x (h : heap) : refs (x :: h) = kidsO x ++ refs h.
Proof. reflexivity. Qed.
Lemma refs_put (h : heap) a x y : a < List.length h -> cnt y (refs (put h a x)) + cnt y (kidsO (cellAt h a)) = cnt y (refs h) + cnt y (kidsO x).
Proof.
  unfold cellAt. revert a. induction h as [|z h IH]; intros a L; cbn in L; [lia|]. destruct a as [|a]; cbn [put nth_error]; rewrite !refs_cons, !cnt_app.
  - lia.
  - specialize (IH a ltac:(lia)). lia.
Qed.
Lemma len_refs_put (h : heap) a x : a < List.length h -> List.length (refs (put h a x)) + List.length (kidsO (cellAt h a)) = List.length (refs h) + List.length (kidsO x).
Proof.
  unfold cellAt. revert a. induction h as [|z h IH]; intros a L; cbn in L; [lia|]. destruct a as [|a]; cbn [put nth_error]; rewrite !refs_cons, !app_length.
  - lia.
  - specialize (IH a ltac:(lia)). lia.
Qed.
Lemma refs_app (h : heap) x y : cnt y (refs (h ++ [x])) = cnt y (refs h) + cnt y (kidsO x).
Proof. unfold refs. rewrite flat_map_app, cnt_app. cbn. rewrite app_nil_r. reflexivity. Qed.
Lemma refs_In (h : heap) y : In y (refs h) <-> exists a c, cellAt h a = Some c /\ In y (kids (c_body c)).
Proof.
  unfold refs. rewrite in_flat_map. split.
  - intros (x & X & Y). apply In_nth_error in X as (a & X). destruct x as [c|]; [|destruct Y]. exists a, c. unfold cellAt. rewrite X. auto.
  - intros (a & c & X & Y). unfold cellAt in X. destruct (nth_error h a) as [x|] eqn:E; [|discriminate]. subst x. exists (Some c). split; [eapply nth_error_In; eauto|exact Y].
Qed.

(** ** the invariant: [ext] lists the references held outside the heap *)
Lemma WF_ext h e e' : WF h e -> (forall a, cnt a e = cnt a e') -> WF h e'.
Proof. intros H Q a. specialize (H a). rewrite <- (Q a). exact H. Qed.
Lemma WF_alive h e a : WF h e -> 0 < cnt a e + cnt a (refs h) -> exists c, cellAt h a = Some c /\ c_rc c = cnt a e + cnt a (refs h).
Proof. intros H L. specialize (H a). destruct (cellAt h a) as [c|]; [exists c; intuition|lia]. Qed.
(** nothing but counts differs *)
Definition sameb (h h' : heap) : Prop := List.length h' = List.length h /\ forall a, objectAt h' a = objectAt h a.
(** objects disappear, the others are as before *)
Definition shrinks (h h' : heap) : Prop := List.length h' = List.length h /\ forall a b, objectAt h' a = Some b -> objectAt h a = Some b.
(** [h] is [h0] with objects added *)
Definition grows (h0 h : heap) : Prop := List.length h0 <= List.length h /\ forall a, a < List.length h0 -> objectAt h a = objectAt h0 a.
Lemma sameb_refl h : sameb h h. Proof. split; auto. Qed.
Lemma sameb_trans h h1 h2 : sameb h h1 -> sameb h1 h2 -> sameb h h2.
Proof. intros [A1 A2] [B1 B2]. split; [congruence|]. intros a. now rewrite B2. Qed.
Lemma sameb_sym h h1 : sameb h h1 -> sameb h1 h.
Proof. intros [A1 A2]. split; auto. Qed.
Lemma grows_refl h : grows h h. Proof. split; auto. Qed.
Lemma grows_trans h h1 h2 : grows h h1 -> grows h1 h2 -> grows h h2.
Proof. intros [A1 A2] [B1 B2]. split; [lia|]. intros a L. rewrite B2 by lia. auto. Qed.
Lemma sameb_grows h h1 : sameb h h1 -> grows h h1.
Proof. intros [A1 A2]. split; [lia|]. auto. Qed.
Lemma sameb_shrinks h h1 : sameb h h1 -> shrinks h h1.
Proof. intros [A1 A2]. split; [auto|]. intros a b Q. now rewrite <- A2. Qed.
Lemma objectAt_cell (h : heap) a b : objectAt h a = Some b <-> exists c, cellAt h a = Some c /\ c_body c = b.
Proof. unfold objectAt. destruct (cellAt h a) as [c|]; cbn; split; [intros Q; injection Q as <-; eauto|intros (c' & Q & <-); now injection Q as <-|discriminate|intros (c & Q & _); discriminate]. Qed.
Lemma objectAt_lt (h : heap) a b : objectAt h a = Some b -> a < List.length h.
Proof. intros Q. apply objectAt_cell in Q as (c & Q & _). eapply cellAt_lt; eauto. Qed.
Lemma sameb_cnt h h' : sameb h h' -> forall x, cnt x (refs h') = cnt x (refs h).
Proof.
  intros [L B] x. revert h' L B. induction h as [|y h IH]; intros [|y' h'] L B; cbn in L; try lia; auto.
  cbn [refs flat_map]. fold (refs h) (refs h'). rewrite !cnt_app, (IH h'); [|lia|intros a; exact (B (S a))]. f_equal. specialize (B 0). unfold objectAt, cellAt in B. cbn in B. destruct y, y'; cbn in B; try discriminate; auto. injection B as B. now rewrite B.
Qed.
Lemma grows_cnt h h' : grows h h' -> forall x, cnt x (refs h) <= cnt x (refs h').
Proof.
  intros [L B] x. revert h' L B. induction h as [|y h IH]; intros [|y' h'] L B; cbn in L; try lia; cbn [refs flat_map]; try (cbn; lia).
  fold (refs h) (refs h'). rewrite !cnt_app. specialize (IH h' ltac:(lia) (fun a L => B (S a) ltac:(cbn; lia))). specialize (B 0 ltac:(cbn; lia)). unfold objectAt, cellAt in B. cbn in B. destruct y, y'; cbn in B; try discriminate; cbn; try lia. injection B as B. rewrite B. lia.
Qed.

(** ** the operations *)
Lemma incref_ok h e a : WF h e -> 0 < cnt a e + cnt a (refs h) -> exists h', incref a h = Ok h' /\ WF h' (a :: e) /\ sameb h h'.
Proof.
  intros H L. destruct (WF_alive h e a H L) as (c & C & R). unfold incref. rewrite C. eexists. split; [reflexivity|]. pose proof (cellAt_lt _ _ _ C) as LT.
  assert (SB : sameb h (put h a (Some (mkCell (S (c_rc c)) (c_body c))))).
  { split; [apply put_len|]. intros b. unfold objectAt. rewrite cellAt_put by exact LT. destruct (Nat.eqb_spec a b) as [<-|D]; [rewrite C|]; reflexivity. }
  split; [|exact SB]. intros b. rewrite (sameb_cnt _ _ SB), cellAt_put, cnt_cons by exact LT. specialize (H b). destruct (Nat.eqb_spec a b) as [<-|D]; [cbn; lia|exact H].
Qed.
Lemma incrp_ok h e p : WF h e -> (forall a, p = Some a -> 0 < cnt a e + cnt a (refs h)) -> exists h', incrp p h = Ok h' /\ WF h' (ptrs p ++ e) /\ sameb h h'.
Proof. intros H L. destruct p as [a|]; cbn; [apply incref_ok; auto|]. exists h. split; [reflexivity|]. split; [exact H|apply sameb_refl]. Qed.
Lemma release_ok n w h e : WF h (w ++ e) -> List.length w + List.length (refs h) <= n ->
  exists h', release n w h = Ok h' /\ WF h' e /\ shrinks h h' /\ (forall h0, WF h0 e -> grows h0 h -> grows h0 h').
Proof.
  revert w h. induction n as [|n IH]; intros w h H L.
  - destruct w as [|a w]; cbn in L; [|lia]. exists h. split; [reflexivity|]. split; [exact H|]. split; [apply sameb_shrinks, sameb_refl|auto].
  - destruct w as [|a w]; [exists h; split; [reflexivity|]; split; [exact H|]; split; [apply sameb_shrinks, sameb_refl|auto]|]. cbn [release].
    destruct (WF_alive h _ a H) as (c & C & R); [cbn [app]; rewrite cnt_cons, Nat.eqb_refl; lia|]. rewrite C. pose proof (cellAt_lt _ _ _ C) as LT.
    cbn [app] in R. rewrite cnt_cons, Nat.eqb_refl, cnt_app in R. destruct (Nat.leb_spec (c_rc c) 1) as [Q|Q].
    + pose proof (refs_put h a None) as RP. pose proof (len_refs_put h a None LT) as LP. rewrite C in LP. cbn [kidsO List.length] in LP. cbn [List.length] in L.
      assert (H1 : WF (put h a None) ((kids (c_body c) ++ w) ++ e)).
      { intros b. specialize (RP b LT). rewrite C in RP. cbn [kidsO] in RP. rewrite cnt_nil in RP. rewrite cellAt_put by exact LT. specialize (H b). cbn [app] in H. rewrite cnt_cons in H. rewrite !cnt_app in *.
        destruct (Nat.eqb_spec a b) as [Eq|D]; [rewrite <- Eq in *; lia|]. destruct (cellAt h b); lia. }
      destruct (IH _ _ H1) as (h' & E & W & S & G); [rewrite app_length; lia|]. exists h'. split; [exact E|]. split; [exact W|]. split.
      * destruct S as [S1 S2]. split; [rewrite S1; apply put_len|]. intros b x X. apply S2 in X. unfold objectAt in *. rewrite cellAt_put in X by exact LT. destruct (Nat.eqb_spec a b); [discriminate|exact X].
      * intros h0 W0 G0. apply G; [exact W0|]. destruct G0 as [G1 G2]. split; [rewrite put_len; exact G1|]. intros b Lb. unfold objectAt in *. rewrite cellAt_put by exact LT. destruct (Nat.eqb_spec a b) as [<-|D]; [|auto].
        exfalso. pose proof (grows_cnt h0 h (Logic.conj G1 G2) a) as GC. pose proof (W0 a) as W0a. specialize (G2 a Lb). rewrite C in G2. cbn in G2. destruct (cellAt h0 a) as [c0|]; [lia|discriminate].
    + assert (SB : sameb h (put h a (Some (mkCell (pred (c_rc c)) (c_body c))))).
      { split; [apply put_len|]. intros b. unfold objectAt. rewrite cellAt_put by exact LT. destruct (Nat.eqb_spec a b) as [<-|D]; [rewrite C|]; reflexivity. }
      pose proof (len_refs_put h a (Some (mkCell (pred (c_rc c)) (c_body c))) LT) as LP. rewrite C in LP. cbn [kidsO c_body] in LP. cbn [List.length] in L.
      assert (H1 : WF (put h a (Some (mkCell (pred (c_rc c)) (c_body c)))) (w ++ e)).
      { intros b. rewrite (sameb_cnt _ _ SB), cellAt_put by exact LT. specialize (H b). cbn [app] in H. rewrite cnt_cons in H. destruct (Nat.eqb_spec a b) as [Eq|D]; [rewrite <- Eq in *; rewrite C in H; cbn; lia|]. destruct (cellAt h b); lia. }
      destruct (IH _ _ H1) as (h' & E & W & S & G); [lia|]. exists h'. split; [exact E|]. split; [exact W|]. split.
      * destruct S as [S1 S2], SB as [B1 B2]. split; [congruence|]. intros b x X. rewrite <- B2. auto.
      * intros h0 W0 G0. apply G; [exact W0|]. eapply grows_trans; [exact G0|now apply sameb_grows].
Qed.
Lemma drop_ok w h e : WF h (w ++ e) -> exists h', drop w h = Ok h' /\ WF h' e /\ shrinks h h' /\ (forall h0, WF h0 e -> grows h0 h -> grows h0 h').
Proof. intros H. now apply release_ok. Qed.
(** dropping references that were added frees nothing and gives the old heap back *)
Lemma drop_kept w h e h0 : WF h (w ++ e) -> WF h0 e -> sameb h0 h -> exists h', drop w h = Ok h' /\ h' = h0.
Proof.
  intros H W0 SB. destruct (drop_ok w h e H) as (h' & E & W & S & G). exists h'. split; [exact E|]. specialize (G h0 W0 (sameb_grows _ _ SB)).
  assert (SB' : sameb h0 h'). { destruct G as [G1 G2], S as [S1 S2], SB as [B1 B2]. split; [congruence|]. intros a. destruct (Nat.lt_ge_cases a (List.length h0)); [auto|].
    unfold objectAt, cellAt. rewrite !(proj2 (nth_error_None _ _)) by lia. reflexivity. }
  clear - W W0 SB'. assert (Q : forall a, cellAt h' a = cellAt h0 a).
  { intros a. specialize (W a). specialize (W0 a). rewrite (sameb_cnt _ _ SB') in W. destruct SB' as [_ B]. specialize (B a). unfold objectAt in B. destruct (cellAt h' a) as [[r b]|], (cellAt h0 a) as [[r0 b0]|]; cbn in *; try discriminate; auto. injection B as ->. do 2 f_equal. lia. }
  destruct SB' as [L _]. revert h0 L Q W W0. clear. induction h' as [|x h' IH]; intros [|y h0] L Q _ _; cbn in L; try lia; auto.
  f_equal; [exact (Q 0)|]. assert (X : forall a, cellAt h' a = cellAt h0 a) by (intros a; exact (Q (S a))). clear Q.
  assert (L' : List.length h' = List.length h0) by lia. clear - X L'. revert h0 X L'. induction h' as [|x h' IH]; intros [|y h0] X L; cbn in L; try lia; auto. f_equal; [exact (X 0)|apply IH; [|lia]]. intros a. exact (X (S a)).
Qed.

Lemma alive_in (h : heap) e a b : WF h e -> objectAt h a = Some b -> 0 < cnt a e + cnt a (refs h).
Proof. intros H Q. apply objectAt_cell in Q as (c & C & _). specialize (H a). rewrite C in H. lia. Qed.
Lemma in_alive (h : heap) e a : WF h e -> 0 < cnt a e + cnt a (refs h) -> exists b, objectAt h a = Some b.
Proof. intros H L. destruct (WF_alive h e a H L) as (c & C & _). exists (c_body c). unfold objectAt. now rewrite C. Qed.
Lemma kid_alive (h : heap) e a b k : WF h e -> objectAt h a = Some b -> In k (kids b) -> exists b', objectAt h k = Some b'.
Proof. intros H Q I. apply (in_alive h e k H). apply objectAt_cell in Q as (c & C & <-). assert (X : In k (refs h)) by (apply refs_In; eauto). apply cnt_In in X. lia. Qed.
Lemma look_ok (h : heap) a b : objectAt h a = Some b -> look a h = Ok b.
Proof. intros Q. apply objectAt_cell in Q as (c & C & <-). unfold look. now rewrite C. Qed.
Lemma alloc_ok (h : heap) e b e' : WF h e -> (forall y, cnt y e' + cnt y (kids b) = cnt y e) -> WF (h ++ [Some (mkCell 1 b)]) (List.length h :: e') /\ grows h (h ++ [Some (mkCell 1 b)]).
Proof.
  intros H Q. split.
  - intros a. rewrite cellAt_app, refs_app, cnt_cons. cbn [kidsO c_body]. specialize (H a). specialize (Q a). destruct (Nat.ltb_spec a (List.length h)) as [L|L].
    + destruct (Nat.eqb_spec (List.length h) a); [lia|]. destruct (cellAt h a); lia.
    + assert (C : cellAt h a = None). { unfold cellAt. rewrite (proj2 (nth_error_None _ _)) by lia. reflexivity. } rewrite C in H. rewrite (Nat.eqb_sym a). destruct (Nat.eqb_spec (List.length h) a); cbn [c_rc]; lia.
  - split; [rewrite app_length; lia|]. intros a L. unfold objectAt. rewrite cellAt_app. destruct (Nat.ltb_spec a (List.length h)); [reflexivity|lia].
Qed.
Lemma alloc_body (h : heap) b : objectAt (h ++ [Some (mkCell 1 b)]) (List.length h) = Some b.
Proof. unfold objectAt. rewrite cellAt_app, Nat.ltb_irrefl, Nat.eqb_refl. reflexivity. Qed.
Lemma setBody_at (h : heap) a b b' x : objectAt h a = Some b -> objectAt (setBody a b' h) x = if a =? x then Some b' else objectAt h x.
Proof. intros Q. apply objectAt_cell in Q as (c & C & <-). unfold setBody. rewrite C. unfold objectAt. rewrite cellAt_put by (eapply cellAt_lt; eauto). now destruct (a =? x). Qed.
Lemma setBody_len (h : heap) a b : List.length (setBody a b h) = List.length h.
Proof. unfold setBody. destruct (cellAt h a); [apply put_len|reflexivity]. Qed.
Lemma setBody_cnt (h : heap) a b b' y : objectAt h a = Some b -> cnt y (refs (setBody a b' h)) + cnt y (kids b) = cnt y (refs h) + cnt y (kids b').
Proof.
  intros Q. apply objectAt_cell in Q as (c & C & <-). unfold setBody. rewrite C. pose proof (refs_put h a (Some (mkCell (c_rc c) b')) y (cellAt_lt _ _ _ C)) as R. rewrite C in R. exact R.
Qed.
Lemma setBody_ok (h : heap) e e' a b b' : WF h e -> objectAt h a = Some b -> (forall y, cnt y e' + cnt y (kids b') = cnt y e + cnt y (kids b)) -> WF (setBody a b' h) e'.
Proof.
  intros H Q C x. pose proof (setBody_cnt h a b b' x Q) as SC. specialize (C x). specialize (H x). apply objectAt_cell in Q as (c & Ca & _). unfold setBody in *. rewrite Ca in *.
  rewrite cellAt_put by (eapply cellAt_lt; eauto). destruct (Nat.eqb_spec a x) as [Eq|D]; [rewrite <- Eq in *; rewrite Ca in H; cbn [c_rc]; lia|]. destruct (cellAt h x); lia.
Qed.
Lemma somes_setSlot (l : list (option nat)) i old p y : nth_error l i = Some old -> cnt y (somes (setSlot l i p)) + cnt y (ptrs old) = cnt y (somes l) + cnt y (ptrs p).
Proof.
  assert (S1 : forall q r, cnt y (somes (q :: r)) = cnt y (ptrs q) + cnt y (somes r)) by (intros [q|] r; cbn [somes ptrs]; rewrite ?cnt_cons, ?cnt_nil; lia).
  revert i. induction l as [|q l IH]; intros [|i] Q; cbn [nth_error] in Q; try discriminate; cbn [setSlot]; rewrite !S1; [injection Q as ->; lia|]. specialize (IH i Q). lia.
Qed.
Lemma somes_app {A} (l m : list (option A)) : somes (l ++ m) = somes l ++ somes m.
Proof. induction l as [|[x|] l IH]; cbn; [reflexivity|now rewrite IH|exact IH]. Qed.
Lemma somes_in {A} (l : list (option A)) x : In x (somes l) <-> In (Some x) l.
Proof. induction l as [|[y|] l IH]; cbn; [tauto| |]; rewrite IH; [split; intros [H|H]; auto; [left; congruence|injection H; auto]|split; intros H; auto; destruct H as [H|H]; [discriminate|auto]]. Qed.
Lemma listSet_ok (h : heap) e a i p b : WF h (ptrs p ++ e) -> objectAt h a = Some b -> exists h', listSet a i p h = Ok h' /\ WF h' e.
Proof.
  intros H Q. unfold listSet. rewrite (look_ok _ _ _ Q). cbn [obind].
  assert (D : exists h', decref p h = Ok h' /\ WF h' e) by (destruct (drop_ok (ptrs p) h e H) as (h' & E & W & _); eauto).
  destruct b as [| | | | |l|l|l]; try exact D. destruct (nth_error l i) as [old|] eqn:X; [|exact D].
  destruct (drop_ok (ptrs old) (setBody a (BList (setSlot l i p)) h) e) as (h' & E & W & _); [|eauto].
  apply (setBody_ok h (ptrs p ++ e) _ a (BList l)); [exact H|exact Q|]. intros y. cbn [kids]. rewrite !cnt_app. pose proof (somes_setSlot l i old p y X). lia.
Qed.
Definition keysOk (h : heap) (l : list (nat * nat)) : Prop := forall k v, In (k, v) l -> exists b, objectAt h k = Some b.
Lemma findKey_ok (h : heap) s l : keysOk h l -> exists o, findKey s l h = Ok o /\ match o with Some i => exists k v, nth_error l i = Some (k, v) /\ objectAt h k = Some (BStr s) | None => True end.
Proof.
  induction l as [|[k v] l IH]; intros K; [exists None; split; [reflexivity|exact I]|]. cbn [findKey]. destruct (K k v (or_introl eq_refl)) as (b & Q). rewrite (look_ok _ _ _ Q). cbn [obind].
  destruct IH as (o & E & O); [intros k' v' I; apply (K k' v'); now right|].
  assert (R : exists o', obind (findKey s l h) (fun o => Ok (option_map S o)) = Ok o' /\ match o' with Some i => exists k0 v0, nth_error ((k, v) :: l) i = Some (k0, v0) /\ objectAt h k0 = Some (BStr s) | None => True end).
  { rewrite E. cbn [obind]. exists (option_map S o). split; [reflexivity|]. destruct o; cbn; auto. }
  destruct b; try exact R. destruct (String.eqb_spec s s0) as [<-|_]; [|exact R]. exists (Some 0). split; [reflexivity|]. exists k, v. auto.
Qed.
Lemma kids_dict_in l k v : In (k, v) l -> In k (@kids N (BDict l)) /\ In v (@kids N (BDict l)).
Proof. intros I. cbn. split; apply in_flat_map; exists (k, v); split; auto; cbn; auto. Qed.
Lemma setSlot_pair (l : list (nat * nat)) i k v v' y : nth_error l i = Some (k, v) -> cnt y (@kids N (BDict (setSlot l i (k, v')))) + cnt y [v] = cnt y (@kids N (BDict l)) + cnt y [v'].
Proof.
  cbn [kids]. revert i. induction l as [|[k0 v0] l IH]; intros [|i] Q; cbn [nth_error] in Q; try discriminate; cbn [setSlot flat_map fst snd app]; rewrite !cnt_cons.
  - injection Q as -> ->. rewrite !cnt_nil. lia.
  - specialize (IH i Q). rewrite !cnt_cons in IH. lia.
Qed.
Lemma dictSet_ok (h : heap) e a k v b : WF h e -> objectAt h a = Some b -> (forall x, k = Some x -> exists b, objectAt h x = Some b) -> (forall x, v = Some x -> exists b, objectAt h x = Some b) ->
  match dictSet a k v h with Ok h' => WF h' e | Abort => True | UB => False end.
Proof.
  intros H Q K V. unfold dictSet. rewrite (look_ok _ _ _ Q). cbn [obind]. destruct k as [k|]; [|exact I]. destruct (K k eq_refl) as (bk & Qk). cbn [lookp]. rewrite (look_ok _ _ _ Qk). cbn [obind].
  destruct v as [v|]; [|exact I]. destruct (V v eq_refl) as (bv & Qv). cbn [lookp]. rewrite (look_ok _ _ _ Qv). cbn [obind].
  destruct b as [| | | | | | |l]; try exact H. destruct bk as [| | | |s| | |]; try exact H.
  destruct (findKey_ok h s l) as (o & E & O). { intros k' v' I. apply kids_dict_in in I as [I _]. exact (kid_alive h e a _ k' H Q I). }
  rewrite E. cbn [obind]. pose proof (alive_in h e v bv H Qv) as Lv. destruct o as [i|].
  - destruct O as (k0 & v0 & X & _). rewrite X. destruct (incref_ok h e v H Lv) as (h1 & E1 & H1 & S1). rewrite E1. cbn [obind].
    destruct (drop_ok [v0] (setBody a (BDict (setSlot l i (k0, v))) h1) e) as (h' & E2 & W & _); [|unfold decref; cbn [ptrs]; rewrite E2; exact W].
    apply (setBody_ok h1 (v :: e) _ a (BDict l)); [exact H1|rewrite (proj2 S1); exact Q|]. intros y. pose proof (setSlot_pair l i k0 v0 v y X) as SP. change ([v0] ++ e) with (v0 :: e). rewrite !cnt_cons, !cnt_nil in *. lia.
  - pose proof (alive_in h e k _ H Qk) as Lk. destruct (incref_ok h e k H Lk) as (h1 & E1 & H1 & S1). rewrite E1. cbn [obind].
    destruct (incref_ok h1 (k :: e) v H1) as (h2 & E2 & H2 & S2); [rewrite cnt_cons, (sameb_cnt _ _ S1); lia|]. rewrite E2. cbn [obind].
    apply (setBody_ok h2 (v :: k :: e) _ a (BDict l)); [exact H2|rewrite (proj2 S2), (proj2 S1); exact Q|]. intros y. cbn [kids]. rewrite flat_map_app, cnt_app. cbn [flat_map fst snd app]. rewrite !cnt_cons, cnt_nil. lia.
Qed.

(** ** programs that use the wrapper *)
Lemma var_in (s : gstate) x a : var x s = Some a -> In a (gext s).
Proof. intros Q. unfold gext. apply in_or_app. left. apply somes_in. unfold var in Q. destruct (nth_in_or_default x (g_vars s) None) as [I|E]; [now rewrite Q in I|congruence]. Qed.
Lemma var_body (s : gstate) x a : GWF s -> var x s = Some a -> exists b, objectAt (g_heap s) a = Some b.
Proof. intros H Q. apply (in_alive _ _ a H). apply var_in, cnt_In in Q. lia. Qed.
Lemma newVar_wf (s : gstate) p h : WF h (ptrs p ++ gext s) -> GWF (newVar s p h).
Proof. intros H. unfold GWF, gext, newVar. cbn. eapply WF_ext; [exact H|]. intros y. unfold gext. rewrite somes_app, !cnt_app. destruct p; cbn [somes ptrs]; lia. Qed.
Lemma setVar_wf (s : gstate) x p h e : x < List.length (g_vars s) -> WF h e -> (forall y, cnt y e + cnt y (ptrs (var x s)) = cnt y (gext s) + cnt y (ptrs p)) -> GWF (setVar s x p h).
Proof.
  intros L H Q. unfold GWF, gext, setVar. cbn. eapply WF_ext; [exact H|]. intros y. specialize (Q y). unfold gext in Q. rewrite !cnt_app in *. unfold var in Q.
  pose proof (somes_setSlot (g_vars s) x (nth x (g_vars s) None) p y ltac:(apply nth_error_nth'; exact L)). lia.
Qed.
Lemma setVar_out (s : gstate) x p h : List.length (g_vars s) <= x -> setVar s x p h = mkG h (g_vars s) (g_raw s).
Proof. intros L. unfold setVar. f_equal. revert x L. generalize (g_vars s) as l. induction l as [|q l IH]; intros [|x] L; cbn in *; try lia; auto. f_equal. apply IH. lia. Qed.
Definition rest (s : gstate) (x : nat) : list nat := somes (setSlot (g_vars s) x None) ++ g_raw s ++ roots.
Lemma rest_cnt (s : gstate) x y : x < List.length (g_vars s) -> cnt y (rest s x) + cnt y (ptrs (var x s)) = cnt y (gext s).
Proof.
  intros L. unfold rest, gext. rewrite !cnt_app. pose proof (somes_setSlot (g_vars s) x (nth x (g_vars s) None) None y ltac:(apply nth_error_nth'; exact L)) as Q. cbn [ptrs] in Q. rewrite cnt_nil in Q. unfold var. lia.
Qed.
Lemma root_alive (s : gstate) a : GWF s -> In a roots -> 0 < cnt a (gext s) + cnt a (refs (g_heap s)).
Proof. intros _ I. assert (X : In a (gext s)) by (unfold gext; rewrite !in_app_iff; auto). apply cnt_In in X. lia. Qed.
Lemma dropNth_cnt (l : list nat) i a y : nth_error l i = Some a -> cnt y (dropNth i l) + cnt y [a] = cnt y l.
Proof. revert i. induction l as [|x l IH]; intros [|i] Q; cbn [nth_error] in Q; try discriminate; cbn [dropNth]; rewrite !cnt_cons; [injection Q as ->; cbn; lia|]. specialize (IH i Q). rewrite cnt_cons in IH. lia. Qed.
Lemma gstep_ok o (s : gstate) : GWF s -> match gstep o s with Ok s' => GWF s' | Abort => True | UB => False end.
Proof.
  intros H.
  assert (IV : forall x, exists h', incrp (var x s) (g_heap s) = Ok h' /\ WF h' (ptrs (var x s) ++ gext s) /\ sameb (g_heap s) h').
  { intros x. apply (incrp_ok _ _ _ H). intros a Q. apply var_in, cnt_In in Q. lia. }
  assert (AL : forall b, kids b = [] -> GWF (newVar s (Some (List.length (g_heap s))) (g_heap s ++ [Some (mkCell 1 b)]))).
  { intros b K. apply newVar_wf. cbn [ptrs app]. apply (alloc_ok (g_heap s) (gext s)); [exact H|]. intros y. rewrite K, cnt_nil. lia. }
  destruct o as [|b|n| |b|x|x i|x y|x|x|i|x i y|x k y]; cbn [gstep].
  - apply newVar_wf. exact H.
  - destruct b; try exact H; apply AL; reflexivity.
  - apply AL. cbn. clear. induction n; cbn; auto.
  - apply AL. reflexivity.
  - destruct (incref_ok _ _ (if b then 1 else 0) H) as (h' & E & W & _); [apply root_alive; [exact H|destruct b; cbn; auto]|]. rewrite E. cbn [obind]. apply newVar_wf. exact W.
  - destruct (IV x) as (h' & E & W & _). rewrite E. cbn [obind]. now apply newVar_wf.
  - destruct (var x s) as [a|] eqn:Q; [|exact I]. cbn [lookp]. destruct (var_body s x a H Q) as (b & B). rewrite (look_ok _ _ _ B). cbn [obind].
    destruct b as [| | | | |l|l|l]; try (apply newVar_wf; exact H).
    destruct (incrp_ok (g_heap s) (gext s) (nth i l None) H) as (h' & E & W & _); [|rewrite E; cbn [obind]; now apply newVar_wf].
    intros k Qk. apply (alive_in (g_heap s) (gext s) k) with (b := match objectAt (g_heap s) k with Some b => b | None => BNone end); [exact H|].
    destruct (kid_alive _ _ _ _ k H B) as (b' & B'); [cbn; apply somes_in; destruct (nth_in_or_default i l None) as [I|E]; [now rewrite Qk in I|congruence]|]. now rewrite B'.
  - destruct (_ || _) eqn:C; [exact H|]. apply orb_false_iff in C as [C1 C2]. apply negb_false_iff, Nat.ltb_lt in C2.
    destruct (IV y) as (h' & E & W & _). rewrite E. cbn [obind].
    destruct (drop_ok (ptrs (var x s)) h' (ptrs (var y s) ++ rest s x)) as (h2 & E2 & W2 & _); [|unfold decref; rewrite E2; cbn [obind]].
    + eapply WF_ext; [exact W|]. intros z. pose proof (rest_cnt s x z C2). rewrite !cnt_app. lia.
    + apply (setVar_wf s x _ h2 _ C2 W2). intros z. pose proof (rest_cnt s x z C2). rewrite !cnt_app. lia.
  - destruct (Nat.lt_ge_cases x (List.length (g_vars s))) as [L|L].
    + destruct (drop_ok (ptrs (var x s)) (g_heap s) (rest s x)) as (h2 & E2 & W2 & _); [|unfold decref; rewrite E2; cbn [obind]].
      * eapply WF_ext; [exact H|]. intros z. pose proof (rest_cnt s x z L). rewrite !cnt_app. lia.
      * apply (setVar_wf s x _ h2 _ L W2). intros z. pose proof (rest_cnt s x z L). cbn [ptrs]. rewrite cnt_nil. lia.
    + assert (V : var x s = None) by (unfold var; now apply nth_overflow). rewrite V. destruct (drop_ok (ptrs None) (g_heap s) (gext s) H) as (h2 & E2 & W2 & _). unfold decref. rewrite E2. cbn [obind]. rewrite setVar_out by exact L. exact W2.
  - destruct (IV x) as (h' & E & W & _). rewrite E. cbn [obind]. unfold GWF, gext. cbn [g_heap g_vars g_raw]. eapply WF_ext; [exact W|]. intros z. unfold gext. rewrite !cnt_app. lia.
  - destruct (nth_error (g_raw s) i) as [a|] eqn:Q; [|exact H]. unfold GWF, gext. cbn [g_heap g_vars g_raw]. eapply WF_ext; [exact H|]. intros z. unfold gext. rewrite somes_app, !cnt_app. pose proof (dropNth_cnt _ _ _ z Q). cbn [somes]. lia.
  - destruct (var x s) as [a|] eqn:Q; [|exact I]. destruct (var_body s x a H Q) as (b & B). destruct (IV y) as (h' & E & W & S). rewrite E. cbn [obind].
    destruct (listSet_ok h' (gext s) a i (var y s) b W ltac:(rewrite (proj2 S); exact B)) as (h2 & E2 & W2). rewrite E2. exact W2.
  - destruct (var x s) as [a|] eqn:Q; [|exact I]. destruct (var_body s x a H Q) as (b & B).
    pose proof (dictSet_ok (g_heap s) (gext s) a (var k s) (var y s) b H B (fun z Z => var_body s k z H Z) (fun z Z => var_body s y z H Z)) as D. destruct (dictSet a (var k s) (var y s) (g_heap s)); cbn [obind]; auto.
Qed.
Lemma grun_ok l : forall s : gstate, GWF s -> match grun l s with Ok s' => GWF s' | Abort => True | UB => False end.
Proof.
  induction l as [|o l IH]; intros s H; [exact H|]. cbn [grun]. pose proof (gstep_ok o s H) as G. destruct (gstep o s) as [s'| |]; cbn [obind]; [apply IH; exact G|exact I|destruct G].
Qed.
Lemma g0_ok : GWF g0.
Proof. intros a. cbn. destruct a as [|[|[|[|a]]]]; cbn; try lia; auto. Qed.

(** ** nothing leaks from heaps without cycles *)
Lemma reach_more (h : heap) l n a : reach h l n a -> reach h l (S n) a.
Proof. revert a. induction n as [|n IH]; cbn; intros a H; [now left|]. destruct H as [H|(p & b & H & R)]; [now left|]. right. exists p, b. split; [|exact R]. apply IH. exact H. Qed.
Lemma reach_le (h : heap) l n m a : n <= m -> reach h l n a -> reach h l m a.
Proof. intros L. induction L as [|m L IH]; auto. intros H. apply reach_more. auto. Qed.
Lemma no_leak (h : heap) e rk : WF h e -> ranked h rk -> forall a b, objectAt h a = Some b -> exists n, reach h e n a.
Proof.
  intros H R. assert (BD : exists B, forall a b, objectAt h a = Some b -> rk a <= B).
  { exists (list_max (map rk (seq 0 (List.length h)))). intros a b Q. assert (I : In (rk a) (map rk (seq 0 (List.length h)))) by (apply in_map, in_seq; apply objectAt_lt in Q; lia).
    pose proof (proj1 (list_max_le (map rk (seq 0 (List.length h))) _) (le_n _)) as F. rewrite Forall_forall in F. auto. }
  destruct BD as (B & BD).
  assert (Q : forall n a b, B - rk a <= n -> objectAt h a = Some b -> reach h e n a).
  { induction n as [|n IH]; intros a b L Qa; pose proof (alive_in h e a b H Qa) as A; pose proof (BD a b Qa) as Ba.
    - destruct (cnt a e) eqn:C; [|cbn; apply cnt_In; lia]. exfalso. assert (I : In a (refs h)) by (apply cnt_In; lia). apply refs_In in I as (p & c & Cp & K).
      assert (Qp : objectAt h p = Some (c_body c)) by (unfold objectAt; now rewrite Cp). pose proof (R p _ a Qp K). pose proof (BD p _ Qp). lia.
    - cbn [reach]. destruct (cnt a e) eqn:C; [|left; apply cnt_In; lia]. right. assert (I : In a (refs h)) by (apply cnt_In; lia). apply refs_In in I as (p & c & Cp & K).
      assert (Qp : objectAt h p = Some (c_body c)) by (unfold objectAt; now rewrite Cp). pose proof (R p _ a Qp K). pose proof (BD p _ Qp). exists p, (c_body c). split; [|auto]. apply (IH p _ ltac:(lia) Qp). }
  intros a b Qa. exists (B - rk a). exact (Q _ a b (le_n _) Qa).
Qed.
End PGlue.
