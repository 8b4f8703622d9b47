(** C48, C49: delayed interrupts. See DESIGN.md. *)
From Coq Require Import List Bool.
From Verif Require Import Interrupt P_Interrupt.
Import ListNotations.

(** For every program made of unguarded work and guarded sections and every schedule of
    SIGINT/SIGTERM: the process never dies of the default action; when it exits, it exits
    with a signal that arrived, and no guarded section is left half done; when the program
    runs to its end no signal was lost. *)
Theorem C48_section_atomic : forall (l : list part) (evs : list event),
  let '(p, i) := irun evs (code l) start in
  (forall s, status i = Exited s -> In s (sigs evs) /\ exists l1 l2, l = l1 ++ l2 /\ done i = work l1) /\
  (forall s, status i <> Killed s) /\
  (status i = Running -> p = [] -> sigs evs = [] /\ done i = work l).
Proof. exact section_atomic. Qed.
Print Assumptions C48_section_atomic.
(** Signals arriving in any number and at any point between Delay and Resume do not stop the
    section's work; the last of them is delivered by Resume. *)
Theorem C48_delivered_by_resume : forall (w : list nat) rest evs, steps evs = List.length w ->
  let '(p, i) := irun (EStep :: EStep :: EStep :: evs) (code (Guarded w :: rest)) start in
  status i = Running /\ done i = w /\
  let '(p', i') := irun [EStep; EStep; EStep] p i in
  status i' = match last_sig None (sigs evs) with Some s => Exited s | None => Running end /\ p' = code rest /\ done i' = w.
Proof. exact section_delays. Qed.
Print Assumptions C48_delivered_by_resume.
Example C48_case : let evs := [EStep; EStep; EStep; EStep; ESig SIGTERM; EStep; ESig SIGINT; EStep; EStep; EStep; EStep] in
  status (snd (irun evs (code [Guarded [1; 2]; Free 3]) start)) = Exited SIGINT /\
  done (snd (irun evs (code [Guarded [1; 2]; Free 3]) start)) = [1; 2].
Proof. split; reflexivity. Qed.

(** [__IsDelaying] is still set after an undisturbed Delay/Resume pair *)
Theorem C49_guard_off_refuted : exists evs, let '(p, i) := irun evs (Delay ++ Resume) start in
  p = [] /\ status i = Running /\ isDelaying i = true.
Proof. exists (repeat EStep 6). repeat split. Qed.
Print Assumptions C49_guard_off_refuted.
