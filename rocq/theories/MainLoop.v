(** * The main loop. /repo/src/main.cpp:49-125

    Left out: MarkovMonitor::AddStatistics, which is empty (markov_monitor.cpp:301-303), logging, the
    signal guard around Save (Trap.v) and the clock: which timers fire is an
    input ([tick]). Files changed by other processes between two iterations are an input too; the
    files one ListenToMessage reads are taken from one such snapshot. *)
From Coq Require Import ZArith List Bool String.
From Verif Require Import Base Num Diagram Markov DiagramCheck Monitor PyDict Param Env.
Import ListNotations.
Open Scope Z_scope.

Section Main.
Context {N : Num} {E : Type} (next : E -> Z * E) (show : E -> string) (pid : @py N).

(** what happens around one iteration: the files as other processes leave them, and the timers that fire, main.cpp:103-123 *)
Record tick := mkTick { t_files : @disk N; t_print : bool; t_disk : bool; t_msg : bool; t_rew : bool }.
(** the parameter and the statistics file are the job's own *)
Definition outside (kx k : @disk N) : disk := mkDisk (k_input kx) (k_para k) (k_weight kx) (k_stat k) (k_msg kx) (k_fermi kx) (k_bose kx).
(** local variables of MonteCarlo, main.cpp:69-70, 80; [uint Step], [int sigma[MAX_ORDER]], [int polar[MAX_ORDER]] *)
Record mloop := mkL { l_e : @env N E; l_k : @disk N; l_step : Z; l_sig : Z -> Z; l_pol : Z -> Z }.
(** [sigma[Order]++]: an int array of MAX_ORDER = 10 entries *)
Definition bump (o : Z) (f : Z -> Z) : outcome (Z -> Z) :=
  if (o <? 0) || (10 <=? o) then UB else if f o =? 2 ^ 31 - 1 then UB else Ok (fun i => if i =? o then f i + 1 else f i).
(** one iteration, main.cpp:81-123 *)
Definition mainIter (t : tick) (x : mloop) : outcome mloop :=
  let step := u32 (l_step x + 1) in let k := outside (t_files t) (l_k x) in
  obind (envHop next (p_sweep (e_p (l_e x))) (l_e x)) (fun e =>
  obind (envMeasure e) (fun e =>
  let d := e_d e in
  obind (if wm_ex d then Ok (l_sig x, l_pol x) else
         if measG d then obind (bump (order d) (l_sig x)) (fun f => Ok (f, l_pol x))
         else obind (bump (order d) (l_pol x)) (fun f => Ok (l_sig x, f))) (fun '(sg, pl) =>
  if negb (step mod 100 =? 0) then Ok (mkL e k step sg pl) else
  obind (if t_print t then obind (CheckDiagram (e_tab e) (e_d e)) (fun b : bool => if b then envPrint e else Abort) else Ok e) (fun e =>
  obind (if t_disk t then envSave show pid e k else Ok k) (fun k =>
  obind (if t_msg t then envListen k e else Ok (false, e)) (fun '(_, e) =>
  obind (if t_rew t then envAdjust e else Ok e) (fun e =>
  Ok (mkL e k step sg pl)))))))).
(** the iterations of main.cpp:81-123 for a list of ticks *)
Fixpoint mainRun (ts : list tick) (x : mloop) : outcome mloop :=
  match ts with [] => Ok x | t :: ts => obind (mainIter t x) (mainRun ts) end.
(** main.cpp:52-81: ListenToMessage once, then [Para.Toss] thermalisation sweeps; the comparison [Step < Para.Toss] is between uint *)
Fixpoint toss (n : nat) (e : @env N E) : outcome (@env N E) :=
  match n with O => Ok e | S n => obind (envHop next (p_sweep (e_p e)) e) (toss n) end.
Definition mainStart (k : @disk N) (e : @env N E) : outcome mloop :=
  obind (envListen k e) (fun '(_, e) => obind (toss (Z.to_nat (u32 (p_toss (e_p e)))) e) (fun e => Ok (mkL e k 0 (fun _ => 0) (fun _ => 0)))).
End Main.
