(** * Lives of a simulation: histories with annealing

    EnvMonteCarlo::ListenToMessage (envMonteCarlo.cpp:151-205) replaces Beta and the weight tables
    and then calls Diag.Reset, Markov.Reset and MarkovMonitor.Reset. Only what this does to the
    diagram is followed here: Diag.Reset is [DReset] with the new tables; Markov.Reset copies the
    parameters, which is what changing the configuration index of [life] says. The call happens
    only without vertex correction (envMonteCarlo.cpp:153: with runGamma3 the test is explicit,
    without it there never is one). The final CheckDiagram is not part of the step. *)
From Coq Require Import ZArith List.
From Verif Require Import Base Num Complex Bundle Lattice Weights Diagram Markov DiagramIO History P_WP P_Inv P_History.
Open Scope Z_scope.

Section Life.
Context {N : Num} {E : Type} (next : E -> Z * E).

(** [c'] is [c] with new tables, new factors and a Beta that is not smaller. [beta_min] (2^-32) and
    [rmul 1 b = b] (canonical encoding) exclude old values of Beta no input file would contain. *)
Definition hotter_not (c c' : cfg) : Prop :=
  c_lat c' = c_lat c /\ c_order c' = c_order c /\ c_gamma3 c' = c_gamma3 c /\
  rmul (rofZ 1) (c_beta c) = c_beta c /\ rleb beta_min (c_beta c) = true /\ rleb (c_beta c) (c_beta c') = true.
(** either the worm is there or both remembered worm ends have gone (see C25 for the other case) *)
Definition ends_settled (d : @diagram N) : Prop :=
  wm_ex d = false -> bexist (vB d) (ira d) = false /\ bexist (vB d) (masha d) = false.

Inductive life : cfg -> @mstate N E -> Prop :=
| li_new c s d0 : cfg_ok c -> new_ok (c_lat c) -> constructed d0 -> BuildNew (c_tab c) (c_lat c) d0 = Ok (md s) -> life c s
| li_load c s s1 d0 F : life c s1 -> ToDict (md s1) = Ok F -> constructed d0 -> FromDict4 (c_tab c) F d0 = Ok (md s) -> life c s
| li_hop c s s' c' n : life c s -> retuned c c' -> Hop next c' n s = Ok (tt, s') -> life c s'
| li_anneal c s c' s' : life c s -> hotter_not c c' -> cfg_ok c' -> gamma (md s) = 0 -> ends_settled (md s) ->
    DReset (c_tab c') (md s) = Ok (md s') -> life c' s'.
End Life.
