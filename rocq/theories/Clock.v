(** * The main loop with its clock. /repo/src/main.cpp:62-67, 81-123, /repo/src/utility/timer.cpp:29-42, 49-60, 94-104

    A timer is its [start_time]; [clock()] and [acc_time] serve printing only. [time_t] is taken as an
    unbounded integer. [time(0)] is an input: each check reads it once, and a second time in [restart]
    when it fires. *)
From Coq Require Import ZArith List Bool String.
From Verif Require Import Base Num PyDict Param Env MainLoop.
Import ListNotations.
Open Scope Z_scope.

(** the two readings of the clock around one check *)
Record reading := mkRead { r_now : Z; r_again : Z }.
(** [timer::check(Interval)], timer.cpp:94-104: whether it fires, and [start_time] afterwards *)
Definition check (r : reading) (interval start : Z) : bool * Z :=
  if r_now r - start <? interval then (false, start) else (true, r_again r).
(** PrinterTimer, DiskWriterTimer, MessageTimer, ReweightTimer, main.cpp:63-67 *)
Record timers := mkTimers { tm_print : Z; tm_disk : Z; tm_msg : Z; tm_rew : Z }.

Section Clock.
Context {N : Num} {E : Type} (next : E -> Z * E) (show : E -> string) (pid : @py N).
(** what the outside gives to one iteration: the files, and the clock at the four checks *)
Record beat := mkBeat { b_files : @disk N; b_print : reading; b_disk : reading; b_msg : reading; b_rew : reading }.
(** the four checks of one iteration, main.cpp:103-122; they are not reached unless Step is a multiple of 100 *)
Definition tickOf (b : beat) (x : @mloop N E) (t : timers) : @tick N * timers :=
  if negb (u32 (l_step x + 1) mod 100 =? 0) then (mkTick (b_files b) false false false false, t) else
  let p := e_p (l_e x) in
  let '(f1, s1) := check (b_print b) (p_tprint p) (tm_print t) in
  let '(f2, s2) := check (b_disk b) (p_tdisk p) (tm_disk t) in
  let '(f3, s3) := check (b_msg b) (p_tmsg p) (tm_msg t) in
  let '(f4, s4) := check (b_rew b) (p_trew p) (tm_rew t) in
  (mkTick (b_files b) f1 f2 f3 f4, mkTimers s1 s2 s3 s4).
Definition clockIter (b : beat) (xt : @mloop N E * timers) : outcome (@mloop N E * timers) :=
  let '(x, tm) := xt in let '(t, tm') := tickOf b x tm in obind (mainIter next show pid t x) (fun x' => Ok (x', tm')).
Fixpoint clockRun (bs : list beat) (xt : @mloop N E * timers) : outcome (@mloop N E * timers) :=
  match bs with [] => Ok xt | b :: bs => obind (clockIter b xt) (clockRun bs) end.
End Clock.
