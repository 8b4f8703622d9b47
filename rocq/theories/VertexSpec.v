Require Import Reals Arith.
From Coquelicot Require Import Complex.
Require Import Verif.Vertex.

(** G(beta - tau) is the conjugate of G(tau) *)
Definition reflected (N : nat) (g : nat -> C) : Prop := forall t, (t < N)%nat -> Cconj (g t) = g (N - 1 - t)%nat.
(** Exchange of the two times gives the conjugate *)
Definition hermitian (N : nat) (v : vertex) : Prop :=
  forall s r t1 t2, (t1 < N)%nat -> (t2 < N)%nat -> v s r t1 t2 = Cconj (v s r t2 t1).
(** Exchange of both ends gives minus the conjugate: what CompressGammaW takes for granted *)
Definition antihermitian (N : nat) (w : vertexW) : Prop :=
  forall s r1 r2 t1 t2, (t1 < N)%nat -> (t2 < N)%nat -> w s r1 r2 t1 t2 = Copp (Cconj (w s r2 r1 t2 t1)).

(** G on the bins of all times: antiperiodic *)
Require Import ZArith.
Definition continued (N : nat) (G : nat -> C) (g : Z -> C) : Prop :=
  (forall t, (t < N)%nat -> g (Z.of_nat t) = G t) /\ (forall k, g (k - Z.of_nat N)%Z = Copp (g k)).
