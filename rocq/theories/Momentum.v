(** * Momentum: integers modulo 2*MAX_K+1 in symmetric representation
    /repo/src/utility/momentum.h, /repo/src/utility/momentum.cpp

    A momentum is its field [K]. Arithmetic on [int] is done in [Z]: sums of two
    in-range values cannot overflow 32 bits (3*MAX_K < 2^31). *)
From Coq Require Import ZArith Bool.
From Verif Require Import Base.
Open Scope Z_scope.

(** momentum.h:15 *)
Definition MAX_K : Z := 10000.

(** [int Shift(int)], momentum.cpp:46-53 (two sequential ifs) *)
Definition Shift (k : Z) : Z :=
  let k1 := if k >? MAX_K then k - (2 * MAX_K + 1) else k in
  if k1 <? - MAX_K then k1 + (2 * MAX_K + 1) else k1.

(** [Momentum(int k)], momentum.cpp:19-22 *)
Definition mkMom (k : Z) : Z := Shift k.

(** operator+ / operator- on two momenta, momentum.cpp:84-87, 99-102: the sum is
    shifted and then shifted again by the converting constructor. *)
Definition kadd (a b : Z) : Z := mkMom (Shift (a + b)).
Definition ksub (a b : Z) : Z := mkMom (Shift (a - b)).

(** operator*(int, Momentum), momentum.cpp:109-112 *)
Definition kscale (c a : Z) : Z := mkMom (a * c).

(** operator+=, -= : momentum.cpp:55-77, one shift *)
Definition kadd_assign (a b : Z) : Z := Shift (a + b).
Definition ksub_assign (a b : Z) : Z := Shift (a - b).

(** [index()] and [abs()], momentum.cpp:29-37 *)
Definition kindex (a : Z) : Z := a + MAX_K.
Definition kabs (a : Z) : Z := Z.abs a.

(** The range established by the constructors for arguments up to 3*MAX_K+1. *)
Definition inrange (k : Z) : Prop := - MAX_K <= k <= MAX_K.
