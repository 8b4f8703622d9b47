(** * Proofs about the sessions of a Dyson job, delayed signals and padding *)
Require Import Reals List Arith ZArith Bool Ascii String Lia Sorting.
Require Import Verif.BareG Verif.Session Verif.SessionSpec.
Import ListNotations.
Local Open Scope string_scope.
Local Open Scope list_scope.
Local Open Scope nat_scope.

Lemma sorted_snoc l v : StronglySorted lt l -> Forall (fun x => x < v) l -> StronglySorted lt (l ++ [v]).
Proof.
  induction l; cbn; intros S F. { repeat constructor. }
  inversion S; inversion F; subst. constructor; auto.
  apply Forall_app; split; auto.
Qed.

Lemma below l v w : v <= w -> Forall (fun x => x <= v) l -> Forall (fun x => x <= w) l.
Proof. intros H; apply Forall_impl; intros; lia. Qed.

(** Everything sent is at most the version in memory and the version in the file of parameters. *)
Definition kept (w : world) : Prop :=
  let k := fst w in
  StronglySorted lt (messages k) /\ Forall (fun v => v <= version (cur (snd w))) (messages k) /\
  match weights k with
  | None => messages k = []
  | Some _ => exists p, paraFile k = Some p /\ Forall (fun v => v <= version p) (messages k)
  end.

Lemma begin_kept input name k :
  StronglySorted lt (messages k) ->
  match weights k with
  | None => messages k = []
  | Some _ => exists p, paraFile k = Some p /\ Forall (fun v => v <= version p) (messages k)
  end -> kept (begin input name k).
Proof.
  intros S K. unfold begin, kept. destruct (weights k) eqn:W.
  - destruct K as (p & P & F). rewrite P. cbn. rewrite W, P. eauto.
  - cbn. rewrite W, K. repeat split; constructor.
Qed.

Lemma step_kept d input name w e : complete e -> kept w -> kept (step d input name w e).
Proof.
  destruct w as [k s]. intros C (S & F & K). cbn [fst snd] in *.
  assert (Lt : Forall (fun v => v < Datatypes.S (version (cur s))) (messages k)).
  { eapply Forall_impl; [|exact F]. cbn; intros; lia. }
  assert (Le : Forall (fun v => v <= Datatypes.S (version (cur s))) (messages k)).
  { eapply Forall_impl; [|exact F]. cbn; intros; lia. }
  destruct e; cbn [complete] in C; cbn [step fst snd].
  - unfold source. destruct files as [|[|n]]; [lia|lia|].
    destruct (d || isNew (nextVersion s)); unfold kept; cbn;
      (split; [apply sorted_snoc; auto|]); (split; [apply Forall_app; split; auto|]);
      eexists; (split; [reflexivity|]); cbn; apply Forall_app; split; auto.
  - unfold source. destruct (d || isNew (nextVersion s)); unfold kept; cbn; auto.
  - destruct (d || isNew s); unfold kept; cbn; auto.
  - unfold source. destruct files as [|[|n]]; [lia|lia|].
    destruct (d || isNew (nextVersion s)); apply begin_kept; cbn; auto; eexists; split; eauto.
  - apply begin_kept; auto.
Qed.

Lemma versions_increase d input name es :
  Forall complete es -> StronglySorted lt (messages (fst (life d input name noFiles es))).
Proof.
  intros F. cut (kept (life d input name noFiles es)). { intros K; apply K. }
  unfold life. assert (B : kept (begin input name noFiles)) by (apply begin_kept; cbn; auto; constructor).
  revert B. generalize (begin input name noFiles). induction F; cbn; auto using step_kept.
Qed.

Lemma one_step d input name w e : stays e ->
  isNew (snd (step d input name w e)) = isNew (snd w) /\
  (if d || isNew (snd w)
   then collected (snd (step d input name w e)) = collected (snd w) /\
        first (snd (step d input name w e)) = first (snd w) + computed e
   else first (snd (step d input name w e)) = first (snd w) /\
        collected (snd (step d input name w e)) = collected (snd w) + computed e).
Proof.
  destruct w as [k s], e; cbn [stays]; intros H; try contradiction; cbn [step fst snd]; unfold source;
    cbn [isNew nextVersion setCur]; destruct (d || isNew s) eqn:E; cbn; rewrite ?E; cbn; split; auto; split; lia.
Qed.

Lemma many_steps d input name es : forall w, Forall stays es ->
  let w' := fold_left (step d input name) es w in
  isNew (snd w') = isNew (snd w) /\
  (if d || isNew (snd w)
   then collected (snd w') = collected (snd w) /\ first (snd w') = first (snd w) + list_sum (map computed es)
   else first (snd w') = first (snd w) /\ collected (snd w') = collected (snd w) + list_sum (map computed es)).
Proof.
  induction es as [|e es IH]; intros w F; cbn zeta.
  { cbn. destruct (d || isNew (snd w)); repeat split; lia. }
  inversion F; subst. destruct (one_step d input name w e H1) as [N M].
  specialize (IH (step d input name w e) H2). cbn zeta in IH. destruct IH as [N' M'].
  rewrite N in M'. cbn [fold_left]. rewrite N', N. split; auto.
  change (list_sum (map computed (e :: es))) with (computed e + list_sum (map computed es)).
  destruct (d || isNew (snd w)); destruct M, M'; split; lia.
Qed.

Lemma fresh_first d input name es : Forall stays es ->
  collected (snd (life d input name noFiles es)) = 0 /\
  first (snd (life d input name noFiles es)) = list_sum (map computed es).
Proof.
  intros F. destruct (many_steps d input name es (begin input name noFiles) F) as [_ M].
  unfold life. cbn in M. rewrite orb_true_r in M. exact M.
Qed.

Lemma restarted_collects input name k v es : weights k = Some v -> Forall stays es ->
  first (snd (life false input name k es)) = 0 /\
  collected (snd (life false input name k es)) = list_sum (map computed es).
Proof.
  intros W F. destruct (many_steps false input name es (begin input name k) F) as [_ M].
  unfold life. unfold begin in M at 1. rewrite W in M. cbn in M. unfold begin in *. rewrite W in *. exact M.
Qed.

Lemma only_first input name k es : Forall stays es ->
  collected (snd (life true input name k es)) = 0 /\
  first (snd (life true input name k es)) = list_sum (map computed es).
Proof.
  intros F. destruct (many_steps true input name es (begin input name k) F) as [_ M]. exact M.
Qed.

Lemma field_step d input name w e : stays e ->
  annealing (cur (snd (step d input name w e))) = fold_left BareG.version (seen e) (annealing (cur (snd w))).
Proof.
  destruct w as [k s], e; cbn [stays]; intros H; try contradiction; cbn [step fst snd seen fold_left];
    unfold source; cbn [isNew nextVersion setCur]; destruct (d || isNew s); reflexivity.
Qed.

Lemma field_follows d input name es : forall w, Forall stays es ->
  annealing (cur (snd (fold_left (step d input name) es w))) =
  fold_left BareG.version (flat_map seen es) (annealing (cur (snd w))).
Proof.
  induction es as [|e es IH]; intros w F; auto. inversion F; subst. cbn [fold_left flat_map].
  rewrite IH, field_step, fold_left_app by auto. reflexivity.
Qed.

Lemma fails_disk d input name es : forall w, Forall fails es ->
  fst (fold_left (step d input name) es w) = fst w.
Proof.
  induction es as [|e es IH]; intros w F; auto. inversion F; subst. cbn [fold_left]. rewrite IH; auto.
  destruct H1; subst e; cbn; auto. destruct (d || isNew (snd w)); auto.
Qed.

Lemma resume d input name k es f bad : 2 <= f -> Forall fails bad ->
  let w := life d input name k es in
  let w' := life d input name k (es ++ [Done f] ++ bad ++ [Restart]) in
  version (cur (snd w')) = S (version (cur (snd w))) /\
  annealing (cur (snd w')) = annealing (cur (snd w)) /\
  weights (fst w') = Some (version (cur (snd w'))).
Proof.
  intros H B. unfold life. rewrite !fold_left_app. cbn zeta.
  generalize (fold_left (step d input name) es (begin input name k)). intros [k' s].
  set (a := fold_left (step d input name) [Done f] (k', s)).
  assert (D := fails_disk d input name bad a B). cbn [fold_left step]. rewrite D.
  unfold a. cbn [fold_left step fst snd]. destruct f as [|[|f]]; [lia|lia|].
  unfold source. cbn [isNew nextVersion setCur]. destruct (d || isNew s); cbn; auto.
Qed.

Lemma begin_hist input name k : hist (snd (begin input name k)) = [].
Proof. reflexivity. Qed.

(** After a restart the file of output lists only what was measured since. *)
Lemma output_lost d input name k es :
  let w := life d input name k (es ++ [Restart; Done 3]) in
  output (fst w) = [version (cur (snd w))].
Proof.
  unfold life. rewrite fold_left_app. cbn zeta.
  generalize (fold_left (step d input name) es (begin input name k)). intros w.
  cbn [fold_left step fst snd]. assert (H := begin_hist input name (fst w)).
  destruct (begin input name (fst w)) as [k' s]. cbn [snd] in H.
  unfold source. cbn [isNew nextVersion setCur fst snd].
  destruct (d || isNew s); cbn; rewrite H; reflexivity.
Qed.

Lemma symmetry_done d input name w f :
  symmetry (cur (snd (step d input name w (Done f)))) = symmetry (cur (snd w)).
Proof.
  destruct w as [k s]. cbn [step fst snd]. unfold source. destruct (d || isNew (nextVersion s)); reflexivity.
Qed.

Lemma symmetry_round d input name w f : 2 <= f ->
  symmetry (cur (snd (step d input name (step d input name w (Done f)) Restart))) = symmetry (cur (snd w)) ++ [name].
Proof.
  intros H. destruct w as [k s]. cbn [step fst snd]. destruct f as [|[|f]]; [lia|lia|].
  unfold source. destruct (d || isNew (nextVersion s)); reflexivity.
Qed.

Lemma symmetry_grows d input name f n : 2 <= f ->
  symmetry (cur (snd (life d input name noFiles (List.concat (repeat [Done f; Restart] n))))) =
  symmetry input ++ repeat name (S n).
Proof.
  intros H. unfold life.
  assert (G : forall w, symmetry (cur (snd (fold_left (step d input name) (List.concat (repeat [Done f; Restart] n)) w)))
                        = symmetry (cur (snd w)) ++ repeat name n).
  { induction n as [|n IH]; intros w. { cbn. now rewrite app_nil_r. }
    cbn [repeat List.concat app fold_left]. rewrite IH, symmetry_round by auto. now rewrite <- app_assoc. }
  rewrite G. cbn. now rewrite <- app_assoc.
Qed.

(** ** Signals *)
Lemma last_first (t : list sig) : forall s d, last (s :: t) d = last t s.
Proof.
  induction t as [|u t IH]; intros s d; auto.
  change (last (s :: u :: t) d) with (last (u :: t) d). now rewrite (IH u d), (IH u s).
Qed.

Lemma arrive_all h ss : forall r,
  fold_left arrive ss (mkDelay Delaying Delaying r (onInt h) (onTerm h), []) =
  (mkDelay Delaying Delaying (match ss with [] => r | s :: t => Some (last t s) end) (onInt h) (onTerm h), []).
Proof.
  induction ss as [|s t IH]; intros r; auto. cbn [fold_left].
  transitivity (fold_left arrive t (mkDelay Delaying Delaying (Some s) (onInt h) (onTerm h), [])).
  { f_equal. now destruct s. }
  rewrite IH. destruct t as [|u t]; auto. now rewrite last_first.
Qed.

Lemma nothing_during h ss : during h ss = [].
Proof. unfold during, enter. now rewrite arrive_all. Qed.
Lemma restored h ss : fst (delayed h ss) = h.
Proof. unfold delayed, enter. rewrite arrive_all. now destruct h. Qed.
Lemma silent h : snd (delayed h []) = [].
Proof. reflexivity. Qed.
Lemma last_called h f ss s : onInt h = Python f -> snd (delayed h (ss ++ [s])) = [Called f s].
Proof.
  intros H. unfold delayed, enter. rewrite arrive_all. cbn. rewrite H.
  destruct ss as [|a t]; cbn; auto. now rewrite last_last.
Qed.
Lemma not_callable h ss s : onInt h = SigIgn \/ onInt h = SigDfl -> snd (delayed h (ss ++ [s])) = [TypeError].
Proof.
  intros H. unfold delayed, enter. rewrite arrive_all. cbn.
  destruct ss; cbn; destruct H as [-> | ->]; reflexivity.
Qed.

(** ** Padding *)
Lemma length_list l : String.length (string_of_list_ascii l) = List.length l.
Proof. induction l; cbn; auto. Qed.
Lemma length_app a b : String.length (a ++ b) = String.length a + String.length b.
Proof. induction a; cbn; auto. Qed.
Lemma spaces_S n : (spaces n ++ " ")%string = spaces (S n).
Proof. unfold spaces. induction n; cbn; auto. now rewrite IHn. Qed.
Lemma blanks_spec n : (n <= 2147483647)%Z -> blanks n = Some (spaces (Z.to_nat n)).
Proof. intros H. unfold blanks. apply Z.leb_le in H. now rewrite H. Qed.
Lemma pad_spec w n : (0 <= n <= w)%Z -> (w <= 2147483647)%Z -> pad w n = (w - n)%Z.
Proof. intros. unfold pad. apply Z.mod_small. lia. Qed.
Lemma append_empty s : (s ++ "")%string = s.
Proof. induction s; cbn; auto. now rewrite IHs. Qed.
Lemma append_assoc a b c : (a ++ (b ++ c))%string = ((a ++ b) ++ c)%string.
Proof. induction a; cbn; auto. now rewrite IHa. Qed.

Lemma right_spec s w : (Z.of_nat (String.length s) <= w <= 2147483647)%Z ->
  right s w = Some (spaces (Z.to_nat w - String.length s) ++ s)%string.
Proof.
  intros H. unfold right, sizeOf. rewrite pad_spec, blanks_spec by lia. do 3 f_equal. lia.
Qed.
Lemma left_spec s w : (Z.of_nat (String.length s) <= w <= 2147483647)%Z ->
  left s w = Some (s ++ spaces (Z.to_nat w - String.length s))%string.
Proof.
  intros H. unfold left, sizeOf. rewrite pad_spec, blanks_spec by lia. do 3 f_equal. lia.
Qed.
Lemma center_spec s w : (Z.of_nat (String.length s) <= w <= 2147483647)%Z ->
  exists a b, center s w = Some (spaces a ++ s ++ spaces b)%string /\
    a + String.length s + b = Z.to_nat w /\ (b = a \/ b = S a).
Proof.
  intros H. unfold center, sizeOf. rewrite pad_spec by lia. set (n := Z.of_nat (String.length s)) in *.
  assert (Q := Z.div_mod (w - n) 2 ltac:(lia)). assert (M := Z.mod_pos_bound (w - n) 2 ltac:(lia)).
  set (q := ((w - n) / 2)%Z) in *. set (m := ((w - n) mod 2)%Z) in *.
  rewrite blanks_spec by lia. set (a := Z.to_nat q).
  destruct (Z.eqb_spec m 0) as [E|E]; cbn [negb].
  - rewrite andb_false_r. exists a, a. rewrite append_empty. repeat split; auto. unfold a, n in *. lia.
  - replace (0 <? w - n)%Z with true by (symmetry; apply Z.ltb_lt; lia). cbn [andb].
    exists a, (S a). rewrite spaces_S. repeat split; auto. unfold a, n in *. lia.
Qed.

Lemma too_long s w : (0 <= w < Z.of_nat (String.length s))%Z -> (Z.of_nat (String.length s) <= 2 ^ 62)%Z ->
  right s w = None /\ left s w = None /\ center s w = None.
Proof.
  intros H L. unfold right, left, center, sizeOf. set (n := Z.of_nat (String.length s)) in *.
  assert (P : (2 ^ 63 <= pad w n)%Z).
  { unfold pad. replace (w - n)%Z with (w - n + 2 ^ 64 + (-1) * 2 ^ 64)%Z by lia.
    rewrite Z.mod_add by lia. rewrite Z.mod_small; lia. }
  assert (B : forall x, (2 ^ 62 <= x)%Z -> blanks x = None).
  { intros x X. unfold blanks. destruct (Z.leb_spec x 2147483647); auto. lia. }
  rewrite !B; auto; try lia. apply Z.div_le_lower_bound; lia.
Qed.
