(** * Possible walks of the Markov chain (specification)

    Nothing here is part of the program; [Hop] is markov.cpp:229-354. *)
From Coq Require Import ZArith List.
From Verif Require Import Base Num RNG Bundle Weights Diagram Markov Alike.
Import ListNotations.
Open Scope Z_scope.

Section Walks.
Context {N : Num}.

(** both ends of every delta line have the same time *)
Definition equal_delta_times (d : @diagram N) : Prop :=
  forall w, bexist (wB d) w = true -> w_delta d w = true -> v_T d (w_ver d w IN) = v_T d (w_ver d w OUT).

(** [n] single steps of one engine lead from [s] to [s']; every diagram left satisfies [Q] *)
Inductive steps {E} (next : E -> Z * E) (c : cfg) (Q : @diagram N -> Prop) : nat -> @mstate N E -> @mstate N E -> Prop :=
| st_O s : steps next c Q 0 s s
| st_S n s s1 s2 : Q (md s) -> Hop next c 1 s = Ok (tt, s1) -> steps next c Q n s1 s2 -> steps next c Q (S n) s s2.

(** [n] further steps from [d] can lead to a diagram satisfying [P]: before each step finitely many
    32-bit words can be named such that every engine that yields them next makes a step after which
    the rest is possible *)
Fixpoint can_reach (c : cfg) (n : nat) (d : @diagram N) (P : @diagram N -> Prop) : Prop :=
  match n with
  | O => P d
  | S n => exists ws, Forall (fun x => 0 <= x < 2^32) ws /\
      forall (E : Type) (next : E -> Z * E) (t : @mstate N E), md t = d -> emits next (mrng t) ws ->
      exists t', Hop next c 1 t = Ok (tt, t') /\ can_reach c n (md t') P
  end.

(** some engine makes the step from [d] to [d'] *)
Definition step_occurs (c : cfg) (d d' : @diagram N) : Prop :=
  exists (E : Type) (next : E -> Z * E) (t t' : @mstate N E), md t = d /\ Hop next c 1 t = Ok (tt, t') /\ md t' = d'.
Inductive walk_occurs (c : cfg) : nat -> @diagram N -> @diagram N -> Prop :=
| wo_O d : walk_occurs c 0 d d
| wo_S n d d1 d2 : step_occurs c d d1 -> walk_occurs c n d1 d2 -> walk_occurs c (S n) d d2.
End Walks.
