(** * Jobs that take messages and restart with other weight files (specification for C113, C114)

    Nothing here is part of the program. *)
From Coq Require Import ZArith List Bool String.
From Verif Require Import Base Num Bundle Diagram DiagramIO History Monitor PyDict Param Env P_WP P_Env Job.
Import ListNotations.
Open Scope Z_scope.

Section Spec.
Context {N : Num} {E : Type} (next : E -> Z * E).
Context (show : E -> string) (read : string -> option E) (seedE : Z -> E) (strOf : @py N -> string) (pid : @py N).
Notation env := (@env N E).

(** no line of the diagram has weight 0 *)
Definition lit (e : env) : Prop :=
  (forall g, bexist (gB (e_d e)) g = true -> nonzero (g_W (e_d e) g)) /\
  (forall w, bexist (wB (e_d e)) w = true -> nonzero (w_W (e_d e) w)).
(** as [job] of Job.v, but at the start and at a restart no line weight taken from the files is 0 (when
    a message is taken the program checks this itself) *)
Inductive vivid : env -> @disk N -> option env -> Prop :=
| vv_new d0 k0 e k : constructed d0 -> envBuildNew read seedE strOf d0 k0 = Ok (e, k) ->
    usable (e_p e) -> Z.of_nat (List.length (p_orw (e_p e))) < 2 ^ 63 -> lit e -> vivid e k None
| vv_hop n e k s e' : vivid e k s -> envHop next n e = Ok e' -> p_counter (e_p e') < 2 ^ 63 -> vivid e' k s
| vv_measure e k s e' : vivid e k s -> envMeasure e = Ok e' -> vivid e' k s
| vv_print e k s e' : vivid e k s -> envPrint e = Ok e' -> vivid e' k s
| vv_adjust e k s e' : vivid e k s -> p_order (e_p e) < Z.of_nat (List.length (p_otr (e_p e))) -> envAdjust e = Ok e' -> vivid e' k s
| vv_save e k s k' : vivid e k s -> envSave show pid e k = Ok k' -> vivid e k' (Some e)
| vv_files e k s k' : vivid e k s -> k_para k' = k_para k -> k_stat k' = k_stat k -> vivid e k' s
| vv_quiet e k s e' : vivid e k s -> envListen k e = Ok (false, e') -> vivid e' k s
| vv_message e k s e' : vivid e k s -> envListen k e = Ok (true, e') -> usable (e_p e') -> calmly e e' -> vivid e' k s
| vv_restart e k s d0 e' : vivid e k (Some s) -> constructed d0 -> envLoad read seedE strOf d0 k = Ok e' -> lit e' -> vivid e' k (Some s).
End Spec.
