(** * Outcomes, the state monad, finite-map update and C integer conversions

    Everything the C++ can do besides returning normally is an explicit outcome:
    - [Abort]: the macros ABORT, ASSERT_ALLWAYS and THROW_ERROR
      (/repo/src/utility/abort.h) - the program stops or an exception escapes;
    - [UB]: C++ undefined behaviour (unset pointer, array index out of range,
      integer modulo zero, signed overflow). *)
From Coq Require Import ZArith List Bool Lia Arith.
Import ListNotations.
Open Scope Z_scope.

Inductive outcome (A : Type) : Type :=
| Ok (a : A)
| Abort
| UB.
Arguments Ok {A} a.
Arguments Abort {A}.
Arguments UB {A}.

Definition obind {A B} (x : outcome A) (f : A -> outcome B) : outcome B :=
  match x with Ok a => f a | Abort => Abort | UB => UB end.

Definition is_ok {A} (x : outcome A) : Prop :=
  match x with Ok _ => True | _ => False end.

(** State monad over a state [S]. *)
Definition M (S A : Type) : Type := S -> outcome (A * S).

Definition ret {S A} (a : A) : M S A := fun s => Ok (a, s).
Definition bind {S A B} (m : M S A) (k : A -> M S B) : M S B :=
  fun s => match m s with
           | Ok (a, s') => k a s'
           | Abort => Abort
           | UB => UB
           end.
Definition abort {S A} : M S A := fun _ => Abort.
Definition ub {S A} : M S A := fun _ => UB.
Definition getS {S} : M S S := fun s => Ok (s, s).
Definition gets {S A} (f : S -> A) : M S A := fun s => Ok (f s, s).
Definition modify {S} (f : S -> S) : M S unit := fun s => Ok (tt, f s).
(** Stop with [UB] unless [b]. *)
Definition guard_ub {S} (b : bool) : M S unit := if b then ret tt else ub.
(** ASSERT-like: stop with [Abort] unless [b]. *)
Definition guard_abort {S} (b : bool) : M S unit := if b then ret tt else abort.
Definition lift {S A} (x : outcome A) : M S A :=
  fun s => match x with Ok a => Ok (a, s) | Abort => Abort | UB => UB end.

Declare Scope monad_scope.
Delimit Scope monad_scope with monad.
Notation "x <- m ;; k" := (bind m (fun x => k))
  (at level 61, m at next level, right associativity) : monad_scope.
Notation "' p <- m ;; k" := (bind m (fun x => let p := x in k))
  (at level 61, p pattern, m at next level, right associativity) : monad_scope.
Notation "m ;;; k" := (bind m (fun _ => k))
  (at level 61, right associativity) : monad_scope.

(** Memory maps and their update. *)
Definition upd {A} (f : nat -> A) (k : nat) (x : A) : nat -> A :=
  fun j => if Nat.eqb j k then x else f j.
Definition updZ {A} (f : Z -> A) (k : Z) (x : A) : Z -> A :=
  fun j => if Z.eqb j k then x else f j.

(** Directions and spins. /repo/src/utility/convention.h:24-37
    [IN = 0], [OUT = 1], [INVERSE(x) = 1-x]; [DOWN = 0], [UP = 1], [FLIP(x) = 1-x]. *)
Inductive dir := IN | OUT.
Definition inv (d : dir) : dir := match d with IN => OUT | OUT => IN end.
Definition dir_eqb (a b : dir) : bool :=
  match a, b with IN, IN | OUT, OUT => true | _, _ => false end.
Inductive spin := DOWN | UP.
Definition flip (s : spin) : spin := match s with DOWN => UP | UP => DOWN end.
Definition spin_eqb (a b : spin) : bool :=
  match a, b with DOWN, DOWN | UP, UP => true | _, _ => false end.
Definition spinZ (s : spin) : Z := match s with DOWN => 0 | UP => 1 end.
(** [SIGN(x) = (x == IN ? 1 : -1)], /repo/src/module/markov/markov.cpp:25. *)
Definition SIGN (d : dir) : Z := match d with IN => 1 | OUT => -1 end.

(** Map update at (slot, direction). *)
Definition upd2 {A} (f : nat -> dir -> A) (k : nat) (e : dir) (x : A) : nat -> dir -> A :=
  fun j e' => if Nat.eqb j k && dir_eqb e' e then x else f j e'.

(** Integer conversions (LP64): [u32], [u64] reduce modulo 2^32, 2^64;
    [s32] converts to a 32-bit two's-complement int. *)
Definition u32 (x : Z) : Z := x mod 2^32.
Definition u64 (x : Z) : Z := x mod 2^64.
Definition s32 (x : Z) : Z :=
  let y := x mod 2^32 in if y <? 2^31 then y else y - 2^32.
Definition int_ok (x : Z) : bool := (- 2^31 <=? x) && (x <? 2^31).
