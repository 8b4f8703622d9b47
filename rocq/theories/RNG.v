(** * Random numbers. /repo/src/utility/rng.h

    The engine (std::mt19937) is an arbitrary state machine; its words are in [0,2^32)
    ([uint_fast32_t] holding 32-bit outputs). *)
From Coq Require Import ZArith Bool.
From Verif Require Import Base Num.
Open Scope Z_scope.

(** [RANDBL_32] and [urn], rng.h:23-24,48-51: [(int)(x) * M_RAN_INVM32 + 0.5]. The literal
    2.32830643653869628906e-010 (rng.h:16) is the double 2^-32. *)
Definition urn_of {N : Num} (x : Z) : real :=
  radd (rmul (rofZ (s32 x)) (rdiv (rofZ 1) (rofZ (2^32)))) (rdiv (rofZ 1) (rofZ 2)).

(** [irn(from,thru)], rng.h:54-57: [_eng() % (thru - from + 1) + from].
    [thru - from + 1] is int arithmetic (overflow is UB), converted to the 64-bit
    unsigned type of the engine; modulus 0 is UB; the 64-bit sum is converted to int. *)
Definition irn_of (from thru x : Z) : outcome Z :=
  if negb (int_ok (thru - from) && int_ok (thru - from + 1)) then UB
  else
    let m := u64 (thru - from + 1) in
    if m =? 0 then UB
    else Ok (s32 (u64 (x mod m + u64 from))).
