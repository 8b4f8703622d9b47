(** * Histories of a simulation

    The sequences of calls EnvMonteCarlo makes on one diagram:
    BuildNew (envMonteCarlo.cpp:27-52) or Load (58-93) of a dictionary written by Save
    (95-113), then any number of Markov::Hop calls (main.cpp:74-85), between which
    AdjustOrderReWeight (envMonteCarlo.cpp:122-147) may change the reweighting factors.
    ListenToMessage (envMonteCarlo.cpp:151-205), which replaces Beta and the weight tables and
    calls Reset, is added in Life.v. *)
From Coq Require Import ZArith List.
From Verif Require Import Base Num Complex Bundle Lattice Weights Diagram Markov DiagramIO.
Open Scope Z_scope.

Section History.
Context {N : Num} {E : Type} (next : E -> Z * E).

(** [c'] differs from [c] at most in the reweighting factors; there is a factor for every order *)
Definition retuned (c c' : cfg) : Prop :=
  c_tab c' = c_tab c /\ c_lat c' = c_lat c /\ c_beta c' = c_beta c /\ c_order c' = c_order c /\
  c_gamma3 c' = c_gamma3 c /\ (Z.to_nat (c_order c) < length (c_orw c'))%nat.

(** Engine state, counters and statistics are arbitrary at the start. *)
Inductive history (c : cfg) : @mstate N E -> Prop :=
| hi_new s d0 : constructed d0 -> BuildNew (c_tab c) (c_lat c) d0 = Ok (md s) -> history c s
| hi_load s s1 d0 F : history c s1 -> ToDict (md s1) = Ok F -> constructed d0 ->
    FromDict4 (c_tab c) F d0 = Ok (md s) -> history c s
| hi_hop s s' c' n : history c s -> retuned c c' -> Hop next c' n s = Ok (tt, s') -> history c s'.

(** Histories along which no line weight vanishes at the start: a fresh diagram must have
    non-zero line weights. As in EnvMonteCarlo::Save (envMonteCarlo.cpp:95-113) a diagram is
    saved only without vertex correction. *)
Definition nonzero (z : cplx) : Prop := ~ (re z = r0 /\ im z = r0).
Inductive regular_history (c : cfg) : @mstate N E -> Prop :=
| rh_new s d0 : constructed d0 -> BuildNew (c_tab c) (c_lat c) d0 = Ok (md s) ->
    (forall g, bexist (gB (md s)) g = true -> nonzero (g_W (md s) g)) ->
    (forall w, bexist (wB (md s)) w = true -> nonzero (w_W (md s) w)) -> regular_history c s
| rh_load s s1 d0 F : regular_history c s1 -> gamma (md s1) = 0 -> ToDict (md s1) = Ok F -> constructed d0 ->
    FromDict4 (c_tab c) F d0 = Ok (md s) -> regular_history c s
| rh_hop s s' c' n : regular_history c s -> retuned c c' -> Hop next c' n s = Ok (tt, s') -> regular_history c s'.
End History.
