(** Proofs about Interrupt.v *)
From Coq Require Import List Bool Lia.
From Verif Require Import Interrupt.
Import ListNotations.

Definition sigs (e : list event) : list sig := flat_map (fun x => match x with ESig s => [s] | EStep => [] end) e.
Fixpoint steps (e : list event) : nat := match e with [] => 0 | EStep :: r => S (steps r) | ESig _ :: r => steps r end.
Fixpoint last_sig (o : option sig) (l : list sig) : option sig := match l with [] => o | s :: r => last_sig (Some s) r end.
Lemma last_snoc o l s : last_sig o (l ++ [s]) = Some s.
Proof. revert o. induction l as [|a l IH]; intros o; cbn; auto. Qed.
Lemma last_nil l o : last_sig o l = None -> l = [].
Proof.
  enough (G : forall l s, last_sig (Some s) l <> None) by (destruct l; auto; cbn; intros Q; now apply G in Q).
  clear. induction l; cbn; intros; [discriminate|auto].
Qed.
Lemma last_in l s : last_sig None l = Some s -> In s l.
Proof.
  enough (G : forall l o, last_sig o l = Some s -> o = Some s \/ In s l) by (intros Q; destruct (G _ _ Q); [discriminate|auto]).
  clear. induction l as [|a l IH]; cbn; intros o Q; auto. destruct (IH _ Q) as [[= ->]|]; auto.
Qed.
Lemma work_app a b : work (a ++ b) = work a ++ work b.
Proof. apply flat_map_app. Qed.

(** where the program is, [seen] being the signals that have arrived *)
Inductive phase (l : list part) : list stmt -> istate -> list sig -> Prop :=
| PB l1 l2 dl : l = l1 ++ l2 -> phase l (code l2) (mkI HExit HExit dl None Running (work l1)) []
| PD1 l1 w l2 dl seen : l = l1 ++ Guarded w :: l2 ->
   phase l (SSet SIGTERM HDelayed :: SFlag :: map SWork w ++ Resume ++ code l2) (mkI HDelayed HExit dl (last_sig None seen) Running (work l1)) seen
| PD2 l1 w l2 dl seen : l = l1 ++ Guarded w :: l2 ->
   phase l (SFlag :: map SWork w ++ Resume ++ code l2) (mkI HDelayed HDelayed dl (last_sig None seen) Running (work l1)) seen
| PW l1 w1 w2 l2 seen : l = l1 ++ Guarded (w1 ++ w2) :: l2 ->
   phase l (map SWork w2 ++ Resume ++ code l2) (mkI HDelayed HDelayed true (last_sig None seen) Running (work l1 ++ w1)) seen
| PR1 l1 w l2 seen : l = l1 ++ Guarded w :: l2 ->
   phase l (SSet SIGTERM HExit :: STest :: code l2) (mkI HExit HDelayed true (last_sig None seen) Running (work l1 ++ w)) seen
| PR2 l1 w l2 seen : l = l1 ++ Guarded w :: l2 ->
   phase l (STest :: code l2) (mkI HExit HExit true (last_sig None seen) Running (work l1 ++ w)) seen
| PX l1 l2 p i s seen : l = l1 ++ l2 -> status i = Exited s -> In s seen -> done i = work l1 -> phase l p i seen.

Lemma phase_sig l p i seen s : phase l p i seen -> status i = Running -> phase l p (arrive s i) (seen ++ [s]).
Proof.
  assert (I : In s (seen ++ [s])) by (apply in_or_app; right; now left).
  assert (X1 : forall l1 l2 i', l = l1 ++ l2 -> status i' = Exited s -> done i' = work l1 -> phase l p i' (seen ++ [s])) by (intros; now apply (PX l l1 l2 p _ s)).
  intros H; destruct H as [l1 l2 dl E|l1 w l2 dl seen E|l1 w l2 dl seen E|l1 w1 w2 l2 seen E|l1 w l2 seen E|l1 w l2 seen E|l1 l2 p i s' seen E S' _ _]; intros St.
  - eapply X1; [exact E| |]; destruct s; reflexivity.
  - destruct s; cbn; unfold DelayedSignalHandler, SignalHandler; cbn.
    + rewrite <- (last_snoc None seen SIGINT). now apply PD1 with (l1 := l1).
    + eapply X1; [exact E| |]; reflexivity.
  - replace (arrive s _) with (mkI HDelayed HDelayed dl (Some s) Running (work l1)) by (destruct s; reflexivity).
    rewrite <- (last_snoc None seen s). now apply PD2.
  - replace (arrive s _) with (mkI HDelayed HDelayed true (Some s) Running (work l1 ++ w1)) by (destruct s; reflexivity).
    rewrite <- (last_snoc None seen s). now apply PW.
  - destruct s; cbn; unfold DelayedSignalHandler, SignalHandler; cbn.
    + eapply (X1 (l1 ++ [Guarded w]) l2); [now rewrite <- app_assoc|reflexivity|]. rewrite work_app. cbn. now rewrite app_nil_r.
    + rewrite <- (last_snoc None seen SIGTERM). now apply PR1 with (l1 := l1).
  - eapply (X1 (l1 ++ [Guarded w]) l2); [now rewrite <- app_assoc|destruct s; reflexivity|]. rewrite work_app. cbn [work flat_map]. rewrite app_nil_r. destruct s; reflexivity.
  - rewrite S' in St. discriminate.
Qed.
Lemma phase_step l c p i seen : phase l (c :: p) i seen -> status i = Running -> phase l p (exec c i) seen.
Proof.
  intros H; remember (c :: p) as cp eqn:Ecp; revert Ecp.
  destruct H as [l1 l2 dl E|l1 w l2 dl seen E|l1 w l2 dl seen E|l1 w1 w2 l2 seen E|l1 w l2 seen E|l1 w l2 seen E|l1 l2 p0 i s' seen E S' _ _]; intros Ecp St.
  - destruct l2 as [|[n|w] l2]; cbn in Ecp; [discriminate| |].
    + injection Ecp as <- <-. cbn. replace (work l1 ++ [n]) with (work (l1 ++ [Free n])) by (now rewrite work_app).
      apply PB. now rewrite <- app_assoc.
    + injection Ecp as <- <-. cbn. rewrite <- app_assoc. apply (PD1 l l1 w l2 dl []). exact E.
  - injection Ecp as <- <-. now apply PD2.
  - injection Ecp as <- <-. cbn. unfold set_delaying. cbn. rewrite <- (app_nil_r (work l1)). now apply PW.
  - destruct w2 as [|n w2]; cbn in Ecp.
    + injection Ecp as <- <-. cbn. rewrite app_nil_r in E. now apply PR1.
    + injection Ecp as <- <-. cbn. rewrite <- app_assoc. apply PW. now rewrite <- app_assoc.
  - injection Ecp as <- <-. now apply PR2.
  - injection Ecp as <- <-. cbn. destruct (last_sig None seen) as [s|] eqn:Es; cbn.
    + apply (PX l (l1 ++ [Guarded w]) l2 _ _ s); [now rewrite <- app_assoc|reflexivity|now apply last_in|]. rewrite work_app. cbn. now rewrite app_nil_r.
    + apply last_nil in Es. subst seen. replace (work l1 ++ w) with (work (l1 ++ [Guarded w])) by (rewrite work_app; cbn; now rewrite app_nil_r).
      apply PB. now rewrite <- app_assoc.
  - rewrite S' in St. discriminate.
Qed.
Lemma phase_more l p i seen x : status i <> Running -> phase l p i seen -> phase l p i (seen ++ x).
Proof.
  intros Ns H. destruct H as [l1 l2 dl E|l1 w l2 dl seen E|l1 w l2 dl seen E|l1 w1 w2 l2 seen E|l1 w l2 seen E|l1 w l2 seen E|l1 l2 p i s' seen E S' I D]; try (now destruct Ns).
  apply (PX l l1 l2 p i s'); auto. apply in_or_app. now left.
Qed.
Lemma irun_phase l : forall evs p i seen, phase l p i seen -> phase l (fst (irun evs p i)) (snd (irun evs p i)) (seen ++ sigs evs).
Proof.
  induction evs as [|[|s] evs IH]; intros p i seen H; cbn [irun].
  - cbn. rewrite app_nil_r. destruct (status i); exact H.
  - destruct (status i) eqn:S; try (cbn [fst snd]; apply phase_more; [now rewrite S|exact H]).
    change (sigs (EStep :: evs)) with (sigs evs). destruct p as [|c p]; apply IH; [exact H|now apply phase_step].
  - destruct (status i) eqn:S; try (cbn [fst snd]; apply phase_more; [now rewrite S|exact H]).
    change (sigs (ESig s :: evs)) with ([s] ++ sigs evs). rewrite app_assoc. apply IH. now apply phase_sig.
Qed.
Lemma section_atomic l evs : let '(p, i) := irun evs (code l) start in
  (forall s, status i = Exited s -> In s (sigs evs) /\ exists l1 l2, l = l1 ++ l2 /\ done i = work l1) /\
  (forall s, status i <> Killed s) /\
  (status i = Running -> p = [] -> sigs evs = [] /\ done i = work l).
Proof.
  pose proof (irun_phase l evs (code l) start [] (PB l [] l false eq_refl)) as H.
  destruct (irun evs (code l) start) as [p i]. cbn [fst snd app] in H.
  remember (sigs evs) as sn eqn:Es. clear Es.
  destruct H as [l1 l2 dl E|l1 w l2 dl seen E|l1 w l2 dl seen E|l1 w1 w2 l2 seen E|l1 w l2 seen E|l1 w l2 seen E|l1 l2 p i s' seen E S' I D]; cbn [status done].
  1: { split; [discriminate|]. split; [discriminate|]. intros _ P. split; auto. subst l. rewrite work_app. destruct l2 as [|[n|w] l2]; [cbn; now rewrite app_nil_r|discriminate|discriminate]. }
  1-5: split; [discriminate|]; split; [discriminate|]; intros _ P; try discriminate; destruct w2; discriminate.
  rewrite S'. split; [intros s [= <-]; split; [exact I|now exists l1, l2]|]. split; discriminate.
Qed.
Lemma section_delays : forall w rest evs, steps evs = List.length w ->
  let '(p, i) := irun (EStep :: EStep :: EStep :: evs) (code (Guarded w :: rest)) start in
  status i = Running /\ done i = w /\
  let '(p', i') := irun [EStep; EStep; EStep] p i in
  status i' = match last_sig None (sigs evs) with Some s => Exited s | None => Running end /\ p' = code rest /\ done i' = w.
Proof.
  intros w rest evs. cbn [code flat_map code1 Delay app]. change (flat_map code1 rest) with (code rest).
  cbn [irun start status exec set_handler set_delaying]. cbn [h_int h_term isDelaying pending status done]. rewrite <- app_assoc.
  enough (G : forall evs w d o, steps evs = List.length w ->
    irun evs (map SWork w ++ Resume ++ code rest) (mkI HDelayed HDelayed true o Running d) =
    (Resume ++ code rest, mkI HDelayed HDelayed true (last_sig o (sigs evs)) Running (d ++ w))).
  { intros L. match goal with |- context [irun evs ?p ?i] => change i with (mkI HDelayed HDelayed true None Running []) end. rewrite G by exact L. cbn [app status done]. split; [reflexivity|]. split; [reflexivity|].
    cbn. destruct (last_sig None (sigs evs)); cbn; auto. }
  clear. induction evs as [|[|s] evs IH]; intros w d o L; cbn [steps irun status] in *.
  - destruct w; [|discriminate]. cbn. now rewrite app_nil_r.
  - destruct w as [|n w]; [discriminate|]. cbn [map app]. match goal with |- context [irun evs ?p ?i] => change i with (mkI HDelayed HDelayed true o Running (d ++ [n])) end. rewrite (IH w (d ++ [n]) o) by (cbn in L; lia). now rewrite <- app_assoc.
  - replace (arrive s _) with (mkI HDelayed HDelayed true (Some s) Running d) by (destruct s; reflexivity). now rewrite IH.
Qed.
