(** * Delayed interrupts. /repo/src/utility/abort.h:50-70, abort.cpp

    The program is a list of atomic statements; a signal may arrive before, between and
    after any of them. A handler is taken to run to its end before the next statement or
    signal (the C++ handlers are not re-entrancy safe; that is not modelled). *)
From Coq Require Import List Bool.
Import ListNotations.

Inductive sig := SIGINT | SIGTERM.
Inductive handler := HDfl | HExit | HDelayed.
Inductive pstatus := Running | Exited (s : sig) | Killed (s : sig).
Record istate := mkI {
  h_int : handler; h_term : handler;
  isDelaying : bool;            (* __IsDelaying *)
  pending : option sig;         (* __Signal, None for -1 *)
  status : pstatus;
  done : list nat }.            (* work finished so far *)

(** [signal(s,h)] *)
Definition set_handler (s : sig) (h : handler) (i : istate) : istate :=
  match s with
  | SIGINT => mkI h (h_term i) (isDelaying i) (pending i) (status i) (done i)
  | SIGTERM => mkI (h_int i) h (isDelaying i) (pending i) (status i) (done i)
  end.
Definition set_delaying (b : bool) (i : istate) := mkI (h_int i) (h_term i) b (pending i) (status i) (done i).
(** __SignalHandler, abort.cpp:14-19 *)
Definition SignalHandler (s : sig) (i : istate) := mkI (h_int i) (h_term i) (isDelaying i) (Some s) (Exited s) (done i).
(** __DelayedSignalHandler, abort.cpp:20-24 *)
Definition DelayedSignalHandler (s : sig) (i : istate) := mkI (h_int i) (h_term i) (isDelaying i) (Some s) (status i) (done i).

(** atomic statements: those of Delay and Resume, and a unit of other work *)
Inductive stmt := SSet (s : sig) (h : handler) | SFlag | STest | SWork (n : nat).
(** Delay, abort.cpp:39-44 *)
Definition Delay : list stmt := [SSet SIGINT HDelayed; SSet SIGTERM HDelayed; SFlag].
(** Resume, abort.cpp:46-55 *)
Definition Resume : list stmt := [SSet SIGINT HExit; SSet SIGTERM HExit; STest].
(** the constructor, abort.cpp:26-32 *)
Definition start : istate := mkI HExit HExit false None Running [].

(** one statement; the assignments after __SignalHandler in Resume (abort.cpp:52-53) are
    never reached because it exits *)
Definition exec (c : stmt) (i : istate) : istate :=
  match c with
  | SSet s h => set_handler s h i
  | SFlag => set_delaying true i
  | STest => match pending i with Some s => if isDelaying i then SignalHandler s i else i | None => i end
  | SWork n => mkI (h_int i) (h_term i) (isDelaying i) (pending i) (status i) (done i ++ [n])
  end.
(** arrival of a signal *)
Definition arrive (s : sig) (i : istate) : istate :=
  match (match s with SIGINT => h_int i | SIGTERM => h_term i end) with
  | HDfl => mkI (h_int i) (h_term i) (isDelaying i) (pending i) (Killed s) (done i)
  | HExit => SignalHandler s i
  | HDelayed => DelayedSignalHandler s i
  end.
(** a schedule: the next statement runs, or a signal arrives *)
Inductive event := EStep | ESig (s : sig).
Fixpoint irun (evs : list event) (p : list stmt) (i : istate) : list stmt * istate :=
  match status i with
  | Running =>
      match evs with
      | [] => (p, i)
      | EStep :: r => match p with c :: p => irun r p (exec c i) | [] => irun r [] i end
      | ESig s :: r => irun r p (arrive s i)
      end
  | _ => (p, i)
  end.
(** a program: unguarded work and guarded sections, as around Env.Save, main.cpp:110-114 *)
Inductive part := Free (n : nat) | Guarded (l : list nat).
Definition code1 (q : part) : list stmt :=
  match q with Free n => [SWork n] | Guarded l => Delay ++ map SWork l ++ Resume end.
Definition code (l : list part) : list stmt := flat_map code1 l.
Definition work (l : list part) : list nat := flat_map (fun q => match q with Free n => [n] | Guarded l => l end) l.
