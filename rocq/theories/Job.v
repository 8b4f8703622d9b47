(** * Jobs: everything a Monte Carlo process does between start and end, including restarts

    main.cpp:47-125: StartFromNew or Load, then Hop, Measure, PrintStatus, AdjustOrderReWeight,
    Save and ListenToMessage in any order and number (the timers decide), while other processes
    change the files. [job e k s]: a process in state [e] with the files [k] whose last Save wrote
    [s]. Only other processes write the weight, message and basis files; only the job writes the
    parameter and statistics files. *)
From Coq Require Import ZArith List Bool String.
From Verif Require Import Base Num Diagram DiagramIO History Life Monitor PyDict Param Env P_WP P_Param P_Env.
Import ListNotations.
Open Scope Z_scope.

Section Job.
Context {N : Num} {E : Type} (next : E -> Z * E).
Context (show : E -> string) (read : string -> option E) (seedE : Z -> E) (strOf : @py N -> string) (pid : @py N).
Notation env := (@env N E).

(** a message is taken calmly when Beta is not lowered and no stale worm ends are around (C25, C88) *)
Definition calmly (e e' : env) : Prop :=
  rmul (rofZ 1) (p_beta (e_p e)) = p_beta (e_p e) /\ rleb beta_min (p_beta (e_p e)) = true /\
  rleb (p_beta (e_p e)) (p_beta (e_p e')) = true /\ ends_settled (e_d e).

Inductive job : env -> disk -> option env -> Prop :=
(** StartFromNew. [usable] is spelled out for exact and for double arithmetic in P_Job.v *)
| jb_new d0 k0 e k : constructed d0 -> envBuildNew read seedE strOf d0 k0 = Ok (e, k) ->
    usable (e_p e) -> Z.of_nat (List.length (p_orw (e_p e))) < 2 ^ 63 -> job e k None
(** the step counter is a long long *)
| jb_hop n e k s e' : job e k s -> envHop next n e = Ok e' -> p_counter (e_p e') < 2 ^ 63 -> job e' k s
| jb_measure e k s e' : job e k s -> envMeasure e = Ok e' -> job e' k s
| jb_print e k s e' : job e k s -> envPrint e = Ok e' -> job e' k s
(** with a shorter OrderTimeRatio see C75 *)
| jb_adjust e k s e' : job e k s -> p_order (e_p e) < Z.of_nat (List.length (p_otr (e_p e))) -> envAdjust e = Ok e' -> job e' k s
| jb_save e k s k' : job e k s -> envSave show pid e k = Ok k' -> job e k' (Some e)
| jb_files e k s k' : job e k s -> k_para k' = k_para k -> k_stat k' = k_stat k -> job e k' s
| jb_listen e k s b e' : job e k s -> envListen k e = Ok (b, e') -> (b = true -> usable (e_p e') /\ calmly e e') -> job e' k s
(** the process ends, at any time after a Save, and is started again with Load *)
| jb_restart e k s d0 e' : job e k (Some s) -> constructed d0 -> envLoad read seedE strOf d0 k = Ok e' -> job e' k (Some s).
End Job.
