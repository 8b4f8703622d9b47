(** * Proofs for C145-C146: the daemon. *)
Require Import String List Arith Bool ZArith Reals Lra Lia.
Require Import Verif.Manager.
Import ListNotations.
Local Open Scope list_scope.
Local Open Scope nat_scope.

(** ** check_status *)

Fixpoint sweep (t : nat) (l : list proc) : list proc :=
  match l with
  | [] => []
  | p :: r => if ended t p then match r with [] => [] | q :: r' => q :: sweep t r' end else p :: sweep t r
  end.

Lemma scan_end t n i l : length l <= i -> scan t n i l = l.
Proof.
  intros H. destruct n as [|n]; [reflexivity|]. cbn.
  destruct (nth_error l i) eqn:E; [|reflexivity].
  assert (nth_error l i <> None) by congruence. apply nth_error_Some in H0. lia.
Qed.

Lemma remove_mid p pre r : ~ In (p_id p) (map p_id pre) -> removeP p (pre ++ p :: r) = pre ++ r.
Proof.
  induction pre as [|q pre IH]; intros H; cbn; [now rewrite Nat.eqb_refl|].
  destruct (Nat.eqb_spec (p_id q) (p_id p)) as [E|N]; [exfalso; apply H; now left|].
  rewrite IH; [reflexivity|]. intros K. apply H. now right.
Qed.

Lemma scan_sweep t : forall n pre rest k, length rest <= n -> length rest <= k -> NoDup (map p_id (pre ++ rest)) ->
  scan t k (length pre) (pre ++ rest) = pre ++ sweep t rest.
Proof.
  induction n as [|n IH]; intros pre rest k Hn Hk N.
  - destruct rest; [|cbn in Hn; lia]. rewrite app_nil_r. cbn. rewrite app_nil_r. apply scan_end. lia.
  - destruct rest as [|p r].
    { rewrite app_nil_r. cbn. rewrite app_nil_r. apply scan_end. lia. }
    destruct k as [|k]; [cbn in Hk; lia|]. cbn in Hn, Hk. cbn [scan].
    rewrite nth_error_app2, Nat.sub_diag by lia. cbn [nth_error sweep].
    destruct (ended t p) eqn:E.
    + rewrite map_app in N. cbn [map] in N. pose proof (NoDup_remove_2 _ _ _ N) as Np. rewrite in_app_iff in Np.
      apply NoDup_remove_1 in N. rewrite <- map_app in N.
      rewrite remove_mid by tauto. destruct r as [|q r].
      * rewrite app_nil_r. apply scan_end. lia.
      * cbn in Hn, Hk. replace (pre ++ q :: r) with ((pre ++ [q]) ++ r) in * by (now rewrite <- app_assoc).
        replace (S (length pre)) with (length (pre ++ [q])) by (rewrite app_length; cbn; lia).
        rewrite IH; [now rewrite <- app_assoc|lia|lia|exact N].
    + replace (pre ++ p :: r) with ((pre ++ [p]) ++ r) in * by (now rewrite <- app_assoc).
      replace (S (length pre)) with (length (pre ++ [p])) by (rewrite app_length; cbn; lia).
      rewrite IH; [now rewrite <- app_assoc|lia|lia|exact N].
Qed.

Lemma check_sweep t l : NoDup (map p_id l) -> checkList t l = sweep t l.
Proof. intros N. unfold checkList. apply (scan_sweep t (length l) [] l (length l)); [lia|lia|exact N]. Qed.

Lemma sweep_ind' (P : list proc -> Prop) : P [] -> (forall p, P [p]) -> (forall p q r, P r -> P (q :: r) -> P (p :: q :: r)) ->
  forall l, P l.
Proof.
  intros H0 H1 H2 l. assert (K : P l /\ forall p, P (p :: l)); [|apply K].
  induction l as [|q l [IH1 IH2]]; [split; [exact H0|exact H1]|]. split; [apply IH2|]. intros p. apply H2; [exact IH1|apply IH2].
Qed.

Lemma sweep_incl t l : incl (sweep t l) l.
Proof.
  induction l as [|p|p q r IH1 IH2] using sweep_ind'; cbn.
  - intros x [].
  - destruct (ended t p); intros x Hx; [destruct Hx|exact Hx].
  - destruct (ended t p).
    + intros x [->|Hx]; [right; now left|]. right. right. now apply IH1.
    + intros x [->|Hx]; [now left|]. right. now apply IH2.
Qed.

Lemma sweep_keep t l p : In p l -> ended t p = false -> In p (sweep t l).
Proof.
  induction l as [|x|x q r IH1 IH2] using sweep_ind'; cbn; intros H E.
  - exact H.
  - destruct (ended t x) eqn:Ex; [|exact H]. destruct H as [->|[]]. congruence.
  - destruct (ended t x) eqn:Ex.
    + destruct H as [->|[->|H]]; [congruence|now left|]. right. now apply IH1.
    + destruct H as [->|H]; [now left|]. right. now apply IH2.
Qed.

Lemma sweep_nodup t l : NoDup (map p_id l) -> NoDup (map p_id (sweep t l)).
Proof.
  induction l as [|p|p q r IH1 IH2] using sweep_ind'; intros N.
  - exact N.
  - cbn. destruct (ended t p); [constructor|exact N].
  - cbn [sweep]. inversion N as [|? ? Hp Hr]; subst. destruct (ended t p).
    + inversion Hr as [|? ? Hq Hr']; subst. cbn. constructor; [|now apply IH1].
      intros K. apply Hq. apply in_map_iff in K. destruct K as (x & <- & Hx). apply in_map, (sweep_incl t _ _ Hx).
    + change (NoDup (p_id p :: map p_id (sweep t (q :: r)))). constructor; [|now apply IH2].
      intros K. apply Hp. apply in_map_iff in K. destruct K as (x & <- & Hx). apply (in_map p_id (q :: r)), (sweep_incl t (q :: r) x Hx).
Qed.

Lemma sweep_length t l : length (sweep t l) <= length l.
Proof.
  induction l as [|p|p q r IH1 IH2] using sweep_ind'; [cbn; lia|cbn; destruct (ended t p); cbn; lia|].
  cbn [sweep]. destruct (ended t p); cbn [length] in *; [lia|]. cbn [sweep length] in IH2. lia.
Qed.

Lemma sweep_less t l : l <> [] -> Forall (fun p => ended t p = true) l -> length (sweep t l) < length l.
Proof.
  intros N F. destruct F as [|p r Hp F]; [now destruct N|]. cbn [sweep]. rewrite Hp.
  destruct r as [|q r]; cbn; [lia|]. pose proof (sweep_length t r). lia.
Qed.

Lemma check_law t l : NoDup (map p_id l) ->
  incl (checkList t l) l /\ NoDup (map p_id (checkList t l)) /\
  (forall p, In p l -> ended t p = false -> In p (checkList t l)) /\
  (l <> [] -> Forall (fun p => ended t p = true) l -> length (checkList t l) < length l).
Proof.
  intros N. rewrite check_sweep by exact N. split; [apply sweep_incl|]. split; [now apply sweep_nodup|].
  split; [apply sweep_keep|apply sweep_less].
Qed.

Lemma check_refuted : exists t l p, NoDup (map p_id l) /\ Forall (fun p => ended t p = true) l /\ In p (checkList t l).
Proof.
  set (a := mkAtom "MC" 0 false true true).
  exists 1, [mkProc 0 a 0; mkProc 1 a 0], (mkProc 1 a 0). split; [repeat constructor; cbn; intuition discriminate|].
  split; [repeat constructor|]. cbn. now left.
Qed.

(** ** The invariant *)

Record Inv (cpu : nat) (d : daemon) : Prop := mkInv {
  i_nodup : NoDup (map p_id (plist d ++ pback d));
  i_lt : forall p, In p (started d) -> p_id p < next d;
  i_in : incl (plist d ++ pback d) (started d);
  i_nds : NoDup (map p_id (started d));
  i_run : forall p, In p (started d) -> ended (now d) p = false -> In p (if a_busy (p_atom p) then plist d else pback d);
  i_cpu : length (plist d) <= cpu;
  i_tb : Forall (fun a => a_busy a = false) (todoBack d);
  i_t : Forall (fun a => a_busy a = true) (todo d) }.

Lemma nodup_parts {A} (l m : list A) : NoDup (l ++ m) -> NoDup l /\ NoDup m /\ forall x, In x l -> ~ In x m.
Proof.
  induction l as [|x l IH]; intros N; cbn in *; [repeat split; [constructor|exact N|intros ? []]|].
  inversion N as [|? ? Hx Hl]; subst. destruct (IH Hl) as (A1 & A2 & A3). rewrite in_app_iff in Hx. repeat split.
  - constructor; tauto.
  - exact A2.
  - intros y [<-|Hy]; [tauto|now apply A3].
Qed.

Lemma nodup_join {A} (l m : list A) : NoDup l -> NoDup m -> (forall x, In x l -> ~ In x m) -> NoDup (l ++ m).
Proof.
  intros H Hm D. induction H as [|x l Hx Hl IH]; [exact Hm|]. cbn. constructor.
  - rewrite in_app_iff. intros [K|K]; [contradiction|]. apply (D x (or_introl eq_refl) K).
  - apply IH. intros y Hy. apply D. now right.
Qed.

Lemma check_ids t l m : NoDup (map p_id (l ++ m)) ->
  NoDup (map p_id l) /\ NoDup (map p_id m) /\ NoDup (map p_id (checkList t l ++ checkList t m)) /\
  incl (checkList t l ++ checkList t m) (l ++ m).
Proof.
  intros N. rewrite map_app in N. destruct (nodup_parts _ _ N) as (N1 & N2 & D).
  destruct (check_law t l N1) as (I1 & M1 & _). destruct (check_law t m N2) as (I2 & M2 & _).
  split; [exact N1|]. split; [exact N2|]. split.
  - rewrite map_app. apply nodup_join; [exact M1|exact M2|]. intros x Hx Hy.
    apply in_map_iff in Hx, Hy. destruct Hx as (p & <- & Hp), Hy as (q & E & Hq).
    apply (D (p_id p)); [apply in_map, I1, Hp|]. rewrite <- E. apply in_map, I2, Hq.
  - intros x Hx. apply in_app_iff in Hx. apply in_app_iff. destruct Hx; [left; now apply I1|right; now apply I2].
Qed.

Lemma check_inv cpu d : Inv cpu d -> Inv cpu (check_status d).
Proof.
  intros [A B C D E F G H]. destruct (check_ids (now d) (plist d) (pback d) A) as (N1 & N2 & N3 & I).
  unfold check_status. constructor; cbn; auto.
  - intros x Hx. apply C, I, Hx.
  - intros p Hp K. specialize (E p Hp K).
    destruct (check_law (now d) (plist d) N1) as (_ & _ & K1 & _). destruct (check_law (now d) (pback d) N2) as (_ & _ & K2 & _).
    destruct (a_busy (p_atom p)); [now apply K1|now apply K2].
  - rewrite check_sweep by exact N1. pose proof (sweep_length (now d) (plist d)). lia.
Qed.

Lemma sleep_inv cpu d : Inv cpu d -> Inv cpu (sleep d).
Proof.
  intros [A B C D E F G H]. constructor; cbn; auto.
  intros p Hp K. apply E; [exact Hp|]. unfold ended in *. apply Nat.leb_gt in K. apply Nat.leb_gt. lia.
Qed.

Lemma fresh_id d (p : proc) l : (forall q, In q (started d) -> p_id q < next d) -> incl l (started d) -> ~ In (next d) (map p_id l).
Proof.
  intros B I K. apply in_map_iff in K. destruct K as (q & E & Hq). specialize (B q (I q Hq)). lia.
Qed.

Lemma snoc_nodup {A} (l : list A) x : NoDup l -> ~ In x l -> NoDup (l ++ [x]).
Proof.
  intros N H. apply nodup_join; [exact N|repeat constructor; tauto|]. intros y Hy [<-|[]]. contradiction.
Qed.

Lemma submit_inv cpu dur a d : Inv cpu d -> (a_busy a = true -> a_cluster a = false -> length (plist d) < cpu) ->
  Inv cpu (submit dur a d).
Proof.
  intros I Hc. unfold submit. destruct (a_cluster a) eqn:Ec.
  { destruct I as [A B C D E F G H]. constructor; cbn; auto. }
  destruct (a_auto a); [|exact I]. destruct I as [A B C D E F G H]. cbv zeta.
  set (p := mkProc (next d) a (now d + dur)).
  assert (IL : incl (plist d) (started d)) by (intros x Hx; apply C, in_app_iff; now left).
  assert (IB : incl (pback d) (started d)) by (intros x Hx; apply C, in_app_iff; now right).
  rewrite map_app in A. destruct (nodup_parts _ _ A) as (N1 & N2 & D1).
  constructor; cbn.
  - destruct (a_busy a); rewrite !map_app; cbn [map p_id p]; apply nodup_join.
    + apply snoc_nodup; [exact N1|]. now apply (fresh_id d p).
    + exact N2.
    + intros x Hx. apply in_app_iff in Hx. destruct Hx as [Hx|[<-|[]]]; [now apply D1|]. now apply (fresh_id d p).
    + exact N1.
    + apply snoc_nodup; [exact N2|]. now apply (fresh_id d p).
    + intros x Hx K. apply in_app_iff in K. destruct K as [K|[<-|[]]]; [now apply (D1 x)|].
      revert Hx. now apply (fresh_id d p).
  - intros q Hq. apply in_app_iff in Hq. destruct Hq as [Hq|[<-|[]]]; [specialize (B q Hq); lia|cbn; lia].
  - intros x Hx. rewrite in_app_iff. apply in_app_iff in Hx.
    destruct (a_busy a); rewrite in_app_iff in Hx.
    + destruct Hx as [[Hx|Hx]|Hx]; [left; now apply IL|now right|left; now apply IB].
    + destruct Hx as [Hx|[Hx|Hx]]; [left; now apply IL|left; now apply IB|now right].
  - rewrite map_app. cbn [map p_id p]. apply snoc_nodup; [exact D|]. apply (fresh_id d p _ B). intros x Hx; exact Hx.
  - intros q Hq K. apply in_app_iff in Hq. destruct Hq as [Hq|[<-|[]]].
    + specialize (E q Hq K). destruct (a_busy (p_atom q)), (a_busy a); try exact E; apply in_app_iff; now left.
    + cbn [p_atom p]. destruct (a_busy a); apply in_app_iff; right; now left.
  - destruct (a_busy a); [|exact F]. rewrite app_length. cbn. specialize (Hc eq_refl eq_refl). lia.
  - exact G.
  - exact H.
Qed.

Lemma turn_inv cpu dur ok d : Inv cpu d -> Inv cpu (daemonOf (turn cpu dur ok d)).
Proof.
  intros I. unfold turn. destruct (todoBack d) as [|a l] eqn:EB.
  - destruct (todo d) as [|a l] eqn:ET.
    + destruct (plist d ++ pback d); [exact I|]. now apply sleep_inv, check_inv.
    + destruct (negb (a_cluster a) && (cpu <=? length (plist d))) eqn:W; [now apply sleep_inv, check_inv|].
      destruct (ok a); [|exact I]. apply submit_inv.
      * destruct I as [A B C D E F G H]. constructor; cbn; auto. rewrite ET in H. now inversion H.
      * intros _ Hc. cbn. rewrite Hc in W. cbn in W. now apply Nat.leb_gt in W.
  - destruct (ok a); [|exact I]. assert (Ha : a_busy a = false) by (destruct I; rewrite EB in *; now inversion i_tb0).
    apply submit_inv.
    + destruct I as [A B C D E F G H]. constructor; cbn; auto. rewrite EB in G. now inversion G.
    + congruence.
Qed.

Lemma ex_id p l : In p l -> existsb (fun q => p_id q =? p_id p) l = true.
Proof. intros H. apply existsb_exists. exists p. split; [exact H|apply Nat.eqb_refl]. Qed.

Lemma stop_dead cpu d p : Inv cpu d -> In p (started (stopTheWorld d)) -> ended (now (stopTheWorld d)) p = true.
Proof.
  intros I Hp. pose proof (check_inv cpu d I) as J. unfold stopTheWorld in *. cbv zeta in *.
  set (c := check_status d) in *. cbn [started now] in *. apply in_map_iff in Hp. destruct Hp as (q & <- & Hq).
  destruct (existsb _ _) eqn:X.
  - unfold ended, kill. cbn. apply Nat.leb_le. lia.
  - destruct (ended (now c) q) eqn:E; [reflexivity|]. exfalso. pose proof (i_run cpu c J q Hq E) as R.
    rewrite (ex_id q) in X; [discriminate|]. apply in_app_iff. destruct (a_busy _); [now left|now right].
Qed.

Lemma kill_ids t l : map p_id (map (kill t) l) = map p_id l.
Proof. rewrite map_map. now apply map_ext. Qed.

Lemma stop_inv cpu d : Inv cpu d -> Inv cpu (stopTheWorld d).
Proof.
  intros I. pose proof (check_inv cpu d I) as J.
  assert (K : forall p, In p (started (stopTheWorld d)) -> ended (now (stopTheWorld d)) p = true) by (intros p; now apply (stop_dead cpu)).
  unfold stopTheWorld in *. cbv zeta in *. set (c := check_status d) in *. destruct J as [A B C D E F G H].
  constructor; cbn [plist pback started now next todo todoBack] in *.
  - rewrite <- map_app, kill_ids. exact A.
  - intros p Hp. apply in_map_iff in Hp. destruct Hp as (q & <- & Hq). specialize (B q Hq). destruct (existsb _ _); exact B.
  - intros p Hp. rewrite <- map_app in Hp. apply in_map_iff in Hp. destruct Hp as (q & <- & Hq).
    apply in_map_iff. exists q. split; [|now apply C]. now rewrite (ex_id q) by exact Hq.
  - rewrite map_map. rewrite (map_ext _ p_id); [exact D|]. intros q. destruct (existsb _ _); reflexivity.
  - intros p Hp X. rewrite (K p Hp) in X. discriminate.
  - now rewrite map_length.
  - exact G.
  - exact H.
Qed.

Lemma start_inv cpu jobs : Inv cpu (start jobs).
Proof.
  constructor; cbn; try constructor; try (intros ? []); try lia.
  - apply Forall_forall. intros a Ha. apply filter_In in Ha. now apply negb_true_iff.
  - apply Forall_forall. intros a Ha. now apply filter_In in Ha.
Qed.

Lemma happen_inv cpu dur ok s e : Inv cpu (daemonOf s) -> Inv cpu (daemonOf (happen cpu dur ok s e)).
Proof.
  destruct s as [d|d c], e; cbn; intros I; auto; [now apply turn_inv|now apply stop_inv].
Qed.

Lemma history_inv cpu dur ok jobs es : Inv cpu (daemonOf (history cpu dur ok jobs es)).
Proof.
  unfold history. assert (G : forall s, Inv cpu (daemonOf s) -> Inv cpu (daemonOf (fold_left (happen cpu dur ok) es s))).
  { induction es as [|e es IH]; intros s I; [exact I|]. cbn. now apply IH, happen_inv. }
  apply G, start_inv.
Qed.

Lemma nodup_of_map {A B} (f : A -> B) l : NoDup (map f l) -> NoDup l.
Proof.
  induction l as [|x l IH]; intros N; [constructor|]. inversion N as [|? ? Hx Hl]; subst. constructor; [|now apply IH].
  intros K. apply Hx. now apply in_map.
Qed.

Lemma filter_nodup {A} f (l : list A) : NoDup l -> NoDup (filter f l).
Proof. apply NoDup_filter. Qed.

Lemma cpu_law cpu dur ok jobs es : let d := daemonOf (history cpu dur ok jobs es) in
  length (filter (fun p => a_busy (p_atom p) && negb (ended (now d) p)) (started d)) <= cpu.
Proof.
  intros d. pose proof (history_inv cpu dur ok jobs es) as I. fold d in I.
  etransitivity; [|apply (i_cpu cpu d I)]. apply NoDup_incl_length.
  - apply filter_nodup. apply (nodup_of_map p_id). apply (i_nds cpu d I).
  - intros p Hp. apply filter_In in Hp. destruct Hp as [Hp E]. apply andb_true_iff in E. destruct E as [Eb Ee].
    apply negb_true_iff in Ee. pose proof (i_run cpu d I p Hp Ee) as R. now rewrite Eb in R.
Qed.

(** ** Every job once *)

Definition here (a : atom) : bool := negb (a_cluster a) && a_auto a.
Definition there (a : atom) : bool := a_cluster a && a_auto a.

Definition Acc (jobs : list job) (d : daemon) : Prop :=
  map p_atom (started d) ++ filter here (todoBack d ++ todo d) = filter here (queueBack jobs ++ queue jobs) /\
  sent d ++ filter there (todoBack d ++ todo d) = filter there (queueBack jobs ++ queue jobs).

Lemma submit_acc jobs dur a d tb t : Acc jobs d -> todoBack d ++ todo d = a :: tb ++ t ->
  forall d', now d' = now d -> next d' = next d -> started d' = started d -> sent d' = sent d -> todoBack d' = tb -> todo d' = t ->
  Acc jobs (submit dur a d').
Proof.
  intros [H1 H2] E d' _ _ Es Et Eb Eq. unfold Acc. rewrite E in H1, H2. cbn [filter] in H1, H2.
  unfold here, there, submit in *. destruct (a_cluster a), (a_auto a); cbn in H1, H2; cbn; rewrite ?Es, ?Et, ?Eb, ?Eq; split; auto.
  - rewrite <- app_assoc. exact H2.
  - rewrite map_app, <- app_assoc. exact H1.
Qed.

Lemma turn_acc cpu dur ok jobs d : Acc jobs d -> Acc jobs (daemonOf (turn cpu dur ok d)).
Proof.
  intros H. unfold turn. destruct (todoBack d) as [|a l] eqn:EB.
  - destruct (todo d) as [|a l] eqn:ET.
    + destruct (plist d ++ pback d); exact H.
    + destruct (negb (a_cluster a) && (cpu <=? length (plist d))); [exact H|]. destruct (ok a); [|exact H].
      eapply (submit_acc jobs _ a d [] l); eauto. now rewrite EB, ET.
  - destruct (ok a); [|exact H]. eapply (submit_acc jobs _ a d l (todo d)); eauto. now rewrite EB.
Qed.

Lemma stop_acc jobs d : Acc jobs d -> Acc jobs (stopTheWorld d).
Proof.
  intros [H1 H2]. unfold stopTheWorld, Acc. cbn. split; [|exact H2]. rewrite map_map.
  rewrite (map_ext _ p_atom); [exact H1|]. intros q. destruct (existsb _ _); reflexivity.
Qed.

Lemma history_acc cpu dur ok jobs es : Acc jobs (daemonOf (history cpu dur ok jobs es)).
Proof.
  unfold history. assert (G : forall s, Acc jobs (daemonOf s) -> Acc jobs (daemonOf (fold_left (happen cpu dur ok) es s))).
  { induction es as [|e es IH]; intros s I; [exact I|]. cbn. apply IH.
    destruct s as [d|d c], e; cbn in *; auto; [now apply turn_acc|now apply stop_acc]. }
  apply G. now split.
Qed.

(** ** The end *)

Definition late (E : nat) (d : daemon) : Prop := Forall (fun p => p_end p <= E) (plist d ++ pback d).
Definition load (E : nat) (d : daemon) : nat := (E - now d) + length (plist d) + length (pback d).

Lemma late_bound d : exists E, late E d.
Proof.
  unfold late. induction (plist d ++ pback d) as [|p l [E H]]; [now exists 0|].
  exists (Nat.max E (p_end p)). constructor; [lia|]. eapply Forall_impl; [|exact H]. intros q Hq. cbn in *. lia.
Qed.

Lemma wait_less cpu E d : Inv cpu d -> late E d -> plist d ++ pback d <> [] ->
  load E (sleep (check_status d)) < load E d /\ late E (sleep (check_status d)) /\ Inv cpu (sleep (check_status d)).
Proof.
  intros I HE N. destruct (check_ids (now d) _ _ (i_nodup cpu d I)) as (N1 & N2 & _ & IN).
  split; [|split; [|now apply sleep_inv, check_inv]].
  - unfold load, sleep, check_status. cbn.
    rewrite (check_sweep _ _ N1), (check_sweep _ _ N2).
    pose proof (sweep_length (now d) (plist d)). pose proof (sweep_length (now d) (pback d)).
    destruct (le_lt_dec E (now d)) as [HL|HL]; [|lia].
    assert (A : Forall (fun p => ended (now d) p = true) (plist d ++ pback d)).
    { eapply Forall_impl; [|exact HE]. intros p Hp. unfold ended. apply Nat.leb_le. cbn in Hp. lia. }
    apply Forall_app in A. destruct A as [A1 A2].
    destruct (plist d) as [|p l] eqn:EP.
    + pose proof (sweep_less (now d) (pback d) N A2). cbn. lia.
    + pose proof (sweep_less (now d) (p :: l) ltac:(discriminate) A1). lia.
  - unfold late, sleep, check_status. cbn. apply Forall_forall. intros p Hp. unfold late in HE. rewrite Forall_forall in HE.
    now apply HE, IN.
Qed.

Definition runs cpu dur ok n s := fold_left (happen cpu dur ok) (repeat Turn n) s.

Lemma runs_S cpu dur ok n d : runs cpu dur ok (S n) (Running d) = runs cpu dur ok n (turn cpu dur ok d).
Proof. reflexivity. Qed.

Lemma finish cpu dur ok : 0 < cpu -> (forall a, ok a = true) -> forall k m d,
  length (todoBack d) + length (todo d) <= k -> Inv cpu d -> (exists E, late E d /\ load E d <= m) ->
  exists n d', runs cpu dur ok n (Running d) = Exited d' 0 /\ todoBack d' = [] /\ todo d' = [] /\ plist d' ++ pback d' = [].
Proof.
  intros Hc Hok. induction k as [|k IHk]; induction m as [m IHm] using lt_wf_ind; intros d Hk I (E & HE & Hm).
  all: assert (W : todoBack d = [] -> plist d ++ pback d <> [] ->
      exists n d', runs cpu dur ok n (Running (sleep (check_status d))) = Exited d' 0 /\ todoBack d' = [] /\ todo d' = [] /\ plist d' ++ pback d' = []);
    [intros _ N; destruct (wait_less cpu E d I HE N) as (W1 & W2 & W3); apply (IHm (load E (sleep (check_status d)))); [lia|exact Hk|exact W3|now exists E]|].
  - destruct (todoBack d) eqn:EB; [|cbn in Hk; lia]. destruct (todo d) eqn:ET; [|cbn in Hk; lia].
    destruct (plist d ++ pback d) as [|p l] eqn:EL.
    + exists 1, d. rewrite runs_S. unfold turn. rewrite EB, ET, EL. auto.
    + destruct (W eq_refl ltac:(discriminate)) as (n & d' & R). exists (S n), d'. rewrite runs_S. unfold turn. now rewrite EB, ET, EL.
  - assert (Sub : forall a d0, Inv cpu (submit (dur (next d)) a d0) -> length (todoBack d0) + length (todo d0) <= k ->
      exists n d', runs cpu dur ok n (Running (submit (dur (next d)) a d0)) = Exited d' 0 /\ todoBack d' = [] /\ todo d' = [] /\ plist d' ++ pback d' = []).
    { intros a d0 Hi Hl. destruct (late_bound (submit (dur (next d)) a d0)) as [E' HE'].
      apply (IHk (load E' (submit (dur (next d)) a d0))); [|exact Hi|now exists E'].
      unfold submit. destruct (a_cluster a), (a_auto a); cbn; exact Hl. }
    pose proof (turn_inv cpu dur ok d I) as TI. unfold turn in TI.
    destruct (todoBack d) as [|a l] eqn:EB.
    + destruct (todo d) as [|a l] eqn:ET.
      * destruct (plist d ++ pback d) as [|p l] eqn:EL.
        -- exists 1, d. rewrite runs_S. unfold turn. rewrite EB, ET, EL. auto.
        -- destruct (W eq_refl ltac:(discriminate)) as (n & d' & R). exists (S n), d'. rewrite runs_S. unfold turn. now rewrite EB, ET, EL.
      * destruct (negb (a_cluster a) && (cpu <=? length (plist d))) eqn:X.
        -- destruct W as (n & d' & R); [reflexivity| |].
           { apply andb_true_iff in X. destruct X as [_ X]. apply Nat.leb_le in X. destruct (plist d); [cbn in X; lia|discriminate]. }
           exists (S n), d'. rewrite runs_S. unfold turn. now rewrite EB, ET, X.
        -- rewrite Hok in TI. destruct (Sub a (setTodo l d) TI) as (n & d' & R).
           { cbn. rewrite EB. cbn in *. lia. }
           exists (S n), d'. rewrite runs_S. unfold turn. now rewrite EB, ET, X, Hok.
    + rewrite Hok in TI. destruct (Sub a (setTodoBack l d) TI) as (n & d' & R).
      { cbn in *. lia. }
      exists (S n), d'. rewrite runs_S. unfold turn. now rewrite EB, Hok.
Qed.

Lemma runs_more cpu dur ok n k s d : runs cpu dur ok n s = Exited d 0 -> runs cpu dur ok (n + k) s = Exited d 0.
Proof.
  unfold runs. intros H. rewrite repeat_app, fold_left_app, H. clear. induction k; [reflexivity|exact IHk].
Qed.

Lemma ends_law cpu dur jobs : 0 < cpu -> exists n d, forall k,
  history cpu dur (fun _ => true) jobs (repeat Turn (n + k)) = Exited d 0 /\
  map p_atom (started d) = filter here (queueBack jobs ++ queue jobs) /\
  sent d = filter there (queueBack jobs ++ queue jobs) /\
  Forall (fun p => ended (now d) p = true) (started d).
Proof.
  intros Hc. destruct (late_bound (start jobs)) as [E HE].
  destruct (finish cpu dur (fun _ => true) Hc (fun _ => eq_refl) _ _ (start jobs) (le_n _) (start_inv cpu jobs)
    (ex_intro _ E (conj HE (le_n _)))) as (n & d & R & B & T & L).
  exists n, d. intros k. split; [exact (runs_more _ _ _ n k _ _ R)|].
  assert (R' : daemonOf (history cpu dur (fun _ => true) jobs (repeat Turn n)) = d) by (unfold history; unfold runs in R; now rewrite R).
  pose proof (history_acc cpu dur (fun _ => true) jobs (repeat Turn n)) as [A1 A2]. rewrite R', B, T in *. cbn in A1, A2.
  rewrite app_nil_r in A1, A2. split; [exact A1|]. split; [exact A2|].
  pose proof (history_inv cpu dur (fun _ => true) jobs (repeat Turn n)) as I. rewrite R' in I.
  apply Forall_forall. intros p Hp. destruct (ended (now d) p) eqn:X; [reflexivity|].
  pose proof (i_run cpu d I p Hp X) as K. apply app_eq_nil in L. destruct L as [L1 L2]. rewrite L1, L2 in K.
  destruct (a_busy _); destruct K.
Qed.

Lemma order_law cpu dur ok jobs es : let d := daemonOf (history cpu dur ok jobs es) in
  (exists rest, filter here (queueBack jobs ++ queue jobs) = map p_atom (started d) ++ rest) /\
  exists rest, filter there (queueBack jobs ++ queue jobs) = sent d ++ rest.
Proof.
  intros d. destruct (history_acc cpu dur ok jobs es) as [A1 A2]. fold d in A1, A2. split; eexists; symmetry; eassumption.
Qed.

(** ** Signals and failures *)

Lemma stop_law cpu dur ok jobs es d : history cpu dur ok jobs es = Running d ->
  Forall (fun p => ended (now (stopTheWorld d)) p = true) (started (stopTheWorld d)).
Proof.
  intros H. pose proof (history_inv cpu dur ok jobs es) as I. rewrite H in I. cbn in I.
  apply Forall_forall. intros p. now apply (stop_dead cpu).
Qed.

Lemma stop_refuted : exists cpu dur jobs es d, 0 < cpu /\
  history cpu dur (fun _ => true) jobs (es ++ [Signal]) = Running d /\
  exists d' p, history cpu dur (fun _ => true) jobs (es ++ [Signal; Turn; Turn]) = Running d' /\
    In p (started d') /\ ~ In (p_id p) (map p_id (started d)) /\ ended (now d') p = false.
Proof.
  exists 1, (fun _ => 100), [mkJob "MC" [0; 1] false false true true], [Turn]. eexists. split; [lia|].
  split; [vm_compute; reflexivity|]. eexists. exists (mkProc 1 (mkAtom "MC" 1 false true true) 101).
  split; [vm_compute; reflexivity|]. cbn. split; [tauto|]. split; [intuition discriminate|reflexivity].
Qed.

Lemma fail_refuted : exists cpu dur ok jobs es d p, 0 < cpu /\
  history cpu dur ok jobs es = Exited d 0 /\ todo d <> [] /\ In p (started d) /\ ended (now d) p = false.
Proof.
  exists 2, (fun _ => 100), (fun a => a_pid a =? 0), [mkJob "MC" [0; 1] false false true true], [Turn; Turn].
  eexists. exists (mkProc 0 (mkAtom "MC" 0 false true true) 100). split; [lia|]. split; [vm_compute; reflexivity|].
  cbn. split; [discriminate|]. split; [tauto|reflexivity].
Qed.

Lemma idle cpu dur ok n d d' : todoBack d = [] -> todo d = [] -> runs cpu dur ok n (Running d) = Exited d' 0 -> started d' = started d.
Proof.
  revert d. induction n as [|n IH]; intros d B T H; [discriminate|]. rewrite runs_S in H. unfold turn in H. rewrite B, T in H.
  destruct (plist d ++ pback d).
  - rewrite (runs_more cpu dur ok 0 n _ d eq_refl : runs cpu dur ok n _ = _) in H. now injection H as <-.
  - now apply IH in H.
Qed.

Lemma stop_ends cpu dur jobs es d : 0 < cpu -> history cpu dur (fun _ => true) jobs es = Running d ->
  todoBack d = [] -> todo d = [] ->
  exists n d', history cpu dur (fun _ => true) jobs (es ++ Signal :: repeat Turn n) = Exited d' 0 /\
    map p_id (started d') = map p_id (started d).
Proof.
  intros Hc H B T. pose proof (history_inv cpu dur (fun _ => true) jobs es) as I. rewrite H in I. cbn in I.
  pose proof (stop_inv cpu d I) as J. destruct (late_bound (stopTheWorld d)) as [E HE].
  destruct (finish cpu dur (fun _ => true) Hc (fun _ => eq_refl) _ _ (stopTheWorld d) (le_n _) J (ex_intro _ E (conj HE (le_n _))))
    as (n & d' & R & _). exists n, d'. split.
  - unfold history in *. rewrite fold_left_app, H. exact R.
  - rewrite (idle cpu dur _ n (stopTheWorld d) d' B T R). unfold stopTheWorld. cbn. rewrite map_map.
    apply map_ext. intros q. destruct (existsb _ _); reflexivity.
Qed.

Lemma dyson_law : forall dup cluster auto,
  (forall p, In p (j_pids (jobDyson dup cluster auto)) <-> p = 0 /\ 0 < dup) /\
  NoDup (j_pids (jobDyson dup cluster auto)) /\ Forall (fun a => a_busy a = false) (atoms (jobDyson dup cluster auto)).
Proof.
  intros dup cluster auto. unfold jobDyson, atoms. destruct (Nat.ltb_spec 0 dup); cbn; (split; [|split]).
  - intros p. split; [intros [<-|[]]; auto|intros [-> _]; auto].
  - repeat constructor; auto.
  - repeat constructor; auto.
  - intros p. split; [intros []|lia].
  - constructor.
  - constructor.
Qed.

Lemma jitter_toward_zero : forall timer u, (Rabs (IZR (jitter timer u)) <= Rabs (IZR timer * u))%R.
Proof.
  intros timer u. unfold jitter. cbn zeta. generalize (IZR timer * u)%R. intros x.
  assert (P : forall y, (0 <= y)%R -> (0 <= IZR (Int_part y) <= y)%R).
  { intros y Y. destruct (base_Int_part y) as [A B]. split; auto. apply IZR_le.
    assert (-1 < Int_part y)%Z by (apply lt_IZR; lra). lia. }
  destruct (Rle_dec 0 x) as [H|H].
  - specialize (P x H). rewrite !Rabs_right; lra.
  - specialize (P (- x)%R ltac:(lra)). rewrite opp_IZR, Rabs_Ropp, (Rabs_left x) by lra. rewrite Rabs_right; lra.
Qed.
