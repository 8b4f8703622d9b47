From Coq Require Import Arith List Bool Lia.
From Verif Require Import Channel.
Import ListNotations.

Definition good (e : event) : Prop := e <> DSavesWeight false /\ e <> DSavesPara false.

Definition jobOk (pf : nat) (x : job) : Prop :=
  (forall v, jphase_ x = JHolds v -> v <= pf) /\
  (forall u, jweight x = Some u -> jver x <= u) /\
  (jweight x = None -> jver x = 0).

Definition phaseOk (w : world) : Prop :=
  match phase w with
  | DIdle => paraFile w <= version w
  | DWeight => paraFile w < version w
  | DPara => weightFile w = Some (version w) /\ paraFile w < version w
  | DOpening | DWriting => paraFile w = version w
  end.

Definition inv (w : world) : Prop :=
  phaseOk w /\
  (forall v, message w = MWhole v -> v <= paraFile w) /\
  (paraFile w = 0 \/ exists u, weightFile w = Some u /\ paraFile w <= u) /\
  forall j, jobOk (paraFile w) (jobs w j).

Lemma inv_start : inv start.
Proof.
  unfold inv, phaseOk, start, jobOk; cbn.
  repeat split; try lia; try discriminate; auto.
Qed.

Lemma jobOk_mono : forall p q x, p <= q -> jobOk p x -> jobOk q x.
Proof.
  intros p q x L (A & B). split; [|exact B].
  intros v E. specialize (A v E). lia.
Qed.

Lemma inv_step : forall w e, good e -> inv w -> inv (step w e).
Proof.
  intros [wf pf m v p js] e G (P & M & F & J).
  unfold phaseOk in P; cbn in P, M, F, J.
  assert (U : forall j x, jobOk pf x ->
            inv (setJob (World wf pf m v p js) j x)).
  { intros j x X. unfold inv, setJob, phaseOk; cbn.
    split; [exact P|]. split; [exact M|]. split; [exact F|].
    intro k. destruct (Nat.eqb k j); auto. }
  destruct e as [| |[] |[] | | | |j|j];
    try (destruct G as [G1 G2]; congruence);
    try (destruct p; cbn [step phase];
         try (exact (Logic.conj P (Logic.conj M (Logic.conj F J))));
         unfold inv, phaseOk, setDyson; cbn;
         (split; [try split; try reflexivity; try lia|
          split; [intros; try discriminate; try (apply M; assumption);
                  try match goal with H : MWhole _ = MWhole _ |- _ => inversion H; subst end; lia|
          split; [|first [exact J | intro k; apply jobOk_mono with pf; [lia | apply J]]]]]);
         first [exact F | right; exists v; split; [try reflexivity; apply P | lia]]; fail).
  - destruct p; try (exact (Logic.conj P (Logic.conj M (Logic.conj F J)))).
    destruct P as [P L]. unfold inv, phaseOk; cbn.
    split; [reflexivity|]. split; [intros x X; specialize (M x X); lia|].
    split; [right; exists v; split; [exact P|lia]|].
    intro k. apply jobOk_mono with pf; [lia|apply J].
  - cbn [step phase]. apply U. unfold jobReads. cbn.
    destruct (J j) as (A & B & C).
    destruct (jphase_ (js j)) eqn:E; [|exact (J j)|exact (J j)].
    destruct m as [| |x]; [exact (J j)| |].
    + unfold jobOk; cbn. split; [discriminate|auto].
    + destruct (x <=? jver (js j)); [exact (J j)|].
      unfold jobOk; cbn. split; [|auto]. intros y Y. inversion Y; subst. auto.
  - cbn [step phase]. apply U. unfold jobLoads. cbn.
    destruct (J j) as (A & B & C).
    destruct (jphase_ (js j)) eqn:E; [exact (J j)| |exact (J j)].
    specialize (A v0 eq_refl).
    destruct wf as [u|]; unfold jobOk; cbn.
    + split; [discriminate|]. split; [|discriminate].
      intros y Y. inversion Y; subst.
      destruct F as [F | (y' & Y' & F)]; [lia|]. inversion Y'; subst. lia.
    + split; [discriminate|auto].
Qed.

Lemma inv_run : forall es w, Forall good es -> inv w -> inv (runAll w es).
Proof.
  induction es as [|e es IH]; cbn; intros w H I; [exact I|].
  inversion H; subst. apply IH; [assumption|]. apply inv_step; assumption.
Qed.

Lemma not_older : forall es j u,
  Forall good es -> jweight (jobs (runAll start es) j) = Some u ->
  jver (jobs (runAll start es) j) <= u.
Proof.
  intros es j u H E.
  destruct (inv_run es start H inv_start) as (_ & _ & _ & J).
  destruct (J j) as (_ & B & _). apply B; exact E.
Qed.

Lemma has_weights : forall es j,
  Forall good es -> 0 < jver (jobs (runAll start es) j) ->
  exists u, jweight (jobs (runAll start es) j) = Some u.
Proof.
  intros es j H L.
  destruct (inv_run es start H inv_start) as (_ & _ & _ & J).
  destruct (J j) as (_ & _ & C).
  destruct (jweight _) as [u|]; [eauto|]. specialize (C eq_refl). lia.
Qed.

(* Versions of a job only grow, whatever happens. *)
Definition holdsNewer (x : job) : Prop := forall v, jphase_ x = JHolds v -> jver x < v.

Lemma newer_step : forall w e j, holdsNewer (jobs w j) ->
  holdsNewer (jobs (step w e) j) /\ jver (jobs w j) <= jver (jobs (step w e) j).
Proof.
  intros [wf pf m v p js] e j H. cbn in H.
  assert (K : holdsNewer (js j) /\ jver (js j) <= jver (js j)) by (split; auto).
  destruct e as [| |[] |[] | | | |k|k]; try (destruct p; exact K);
    cbn; destruct (Nat.eqb j k) eqn:E; try exact K;
    apply Nat.eqb_eq in E; subst k; unfold jobReads, jobLoads.
  - destruct (jphase_ (js j)) eqn:Q; try exact K.
    destruct m as [| |x]; try exact K.
    + cbn. split; [intros y Y; discriminate|auto].
    + destruct (Nat.leb_spec x (jver (js j))); try exact K.
      cbn. split; [intros y Y; cbn in *; inversion Y; subst; assumption|auto].
  - destruct (jphase_ (js j)) eqn:Q; try exact K.
    specialize (H _ Q).
    destruct wf; cbn; (split; [intros y Y; discriminate|lia]).
Qed.

Lemma newer_run : forall es w j, holdsNewer (jobs w j) ->
  holdsNewer (jobs (runAll w es) j) /\ jver (jobs w j) <= jver (jobs (runAll w es) j).
Proof.
  induction es as [|e es IH]; cbn; intros w j H; [auto|].
  destruct (newer_step w e j H) as [A B].
  destruct (IH (step w e) j A) as [C D]. split; [exact C|]. unfold runAll in D. lia.
Qed.

Lemma versions_grow : forall es fs j,
  jver (jobs (runAll start es) j) <= jver (jobs (runAll start (es ++ fs)) j).
Proof.
  intros es fs j. unfold runAll. rewrite fold_left_app.
  apply (newer_run fs (fold_left step es start) j).
  apply (newer_run es start j). intros v E. discriminate.
Qed.

(* Death. *)
Definition calm (w : world) : Prop :=
  message w <> MTorn /\ phase w <> DWriting /\ forall j, jphase_ (jobs w j) <> JDead.

Fixpoint noGap (es : list event) : Prop :=
  match es with
  | [] => True
  | DOpens :: es' => (match es' with DWrites :: _ => True | _ => False end) /\ noGap es'
  | _ :: es' => noGap es'
  end.

Lemma calm_step : forall w e, e <> DOpens -> calm w -> calm (step w e).
Proof.
  intros [wf pf m v p js] e N (M & P & J). cbn in M, P, J.
  assert (K : calm (World wf pf m v p js)) by (split; [|split]; assumption).
  destruct e as [| |[] |[] | | | |k|k]; try congruence;
    try (destruct p; try exact K; unfold calm; cbn;
         (split; [|split]); try congruence; try assumption; fail);
    cbn; unfold calm; cbn; (split; [exact M|split; [exact P|]]); intro j;
    destruct (Nat.eqb j k); try apply J; unfold jobReads, jobLoads;
    specialize (J k); destruct (jphase_ (js k)) eqn:Q; cbn; try congruence.
  - destruct m as [| |x]; try congruence.
    destruct (x <=? jver (js k)); cbn; congruence.
  - destruct wf; cbn; congruence.
Qed.

Lemma calm_two : forall w, calm w -> calm (step (step w DOpens) DWrites).
Proof.
  intros [wf pf m v p js] (M & P & J). cbn in M, P, J.
  destruct p; cbn; unfold calm; cbn; (split; [|split]); try congruence; try assumption.
Qed.

Lemma calm_run : forall n es w, length es <= n -> noGap es -> calm w -> calm (runAll w es).
Proof.
  induction n as [|n IH]; intros es w L G C.
  - destruct es; [exact C|cbn in L; lia].
  - destruct es as [|e es]; [exact C|]. cbn in L.
    destruct e;
      try match goal with |- calm (runAll w (?e :: es)) =>
        change (calm (runAll (step w e) es));
        apply IH; [lia|exact G|apply calm_step; [discriminate|exact C]] end.
    cbn in G. destruct G as [G1 G2].
    destruct es as [|e es]; [destruct G1|].
    destruct e; try contradiction.
    change (calm (runAll (step (step w DOpens) DWrites) es)).
    apply IH; [cbn in L; lia|exact G2|apply calm_two; exact C].
Qed.

Lemma survives : forall es j, noGap es -> jphase_ (jobs (runAll start es) j) <> JDead.
Proof.
  intros es j G.
  destruct (calm_run (length es) es start (le_n _) G) as (_ & _ & J);
    [|apply J].
  unfold calm, start; cbn. split; [|split]; discriminate.
Qed.

(* Killed while the message is being written: every job that listens dies. *)
Lemma torn_kills : forall w j, message w = MTorn -> jphase_ (jobs w j) = JIdle ->
  jphase_ (jobs (step w (JReads j)) j) = JDead.
Proof.
  intros [wf pf m v p js] j M Q. cbn in *. subst m.
  rewrite Nat.eqb_refl. unfold jobReads. rewrite Q. reflexivity.
Qed.

Lemma torn_stays : forall es w, message w = MTorn -> ~ In DWrites es ->
  message (runAll w es) = MTorn.
Proof.
  induction es as [|e es IH]; cbn; intros w M N; [exact M|].
  apply IH; [|tauto].
  destruct w as [wf pf m v p js]; cbn in M; subst m.
  destruct e as [| |[] |[] | | | |k|k]; destruct p; try reflexivity; tauto.
Qed.

(* A whole message is taken by the next call. *)
Lemma taken : forall w j v u, message w = MWhole v -> weightFile w = Some u ->
  jphase_ (jobs w j) = JIdle -> jver (jobs w j) < v ->
  jobs (runAll w [JReads j; JLoads j]) j = Job v (Some u) JIdle.
Proof.
  intros [wf pf m x p js] j v u M W Q L. cbn in *. subst.
  rewrite !Nat.eqb_refl. unfold jobReads. rewrite Q.
  destruct (Nat.leb_spec v (jver (js j))); [lia|]. reflexivity.
Qed.

Lemma noGap_split : forall es,
  (forall pre post, es = pre ++ DOpens :: post -> exists post', post = DWrites :: post') ->
  noGap es.
Proof.
  induction es as [|e es IH]; intro H; [exact I|].
  assert (T : noGap es).
  { apply IH. intros pre post E. apply (H (e :: pre) post). rewrite E. reflexivity. }
  destruct e; try exact T.
  cbn. split; [|exact T].
  destruct (H [] es eq_refl) as [post' E]. rewrite E. exact I.
Qed.

(* A job that has taken a version has weights, whatever failed. *)
Definition withWeights (x : job) : Prop := jweight x = None -> jver x = 0.

Lemma with_step : forall w e j, withWeights (jobs w j) -> withWeights (jobs (step w e) j).
Proof.
  intros [wf pf m v p js] e j H. cbn in H.
  destruct e as [| |[] |[] | | | |k|k]; try (destruct p; exact H);
    cbn; destruct (Nat.eqb j k) eqn:E; try exact H;
    apply Nat.eqb_eq in E; subst k; unfold jobReads, jobLoads;
    destruct (jphase_ (js j)); try exact H.
  - destruct m as [| |x]; try exact H. destruct (x <=? jver (js j)); exact H.
  - destruct wf; [intro Y; discriminate|exact H].
Qed.

Lemma with_run : forall es w j, withWeights (jobs w j) -> withWeights (jobs (runAll w es) j).
Proof.
  induction es as [|e es IH]; cbn; intros w j H; [exact H|].
  apply IH. apply with_step. exact H.
Qed.

Lemma weights_present : forall es j, 0 < jver (jobs (runAll start es) j) ->
  jweight (jobs (runAll start es) j) <> None.
Proof.
  intros es j L E.
  assert (Z := with_run es start j (fun _ => eq_refl) E). lia.
Qed.
