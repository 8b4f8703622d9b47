(** * C172: the occupation written to the output *)
Require Import Reals Lra Lia List Arith Bool.
From Coquelicot Require Import Coquelicot.
Require Import Verif.PyWeight Verif.FirstOrder Verif.BareG Verif.Occupation Verif.P_Occupation.
Import ListNotations.
Local Open Scope R_scope.

(** C172: the mean over all momenta is the element of G on the site itself, on every lattice and for
    every table; *)
Theorem C172_local L bins G i : List.Forall (fun l => (0 < l)%nat) L ->
  occupation L bins G i =
  Cminus (Cplus (Cminus (Cmult (RtoC (3/2)) (G 1 i 1 i 0 (bins - 1))%nat)
                        (Cmult (RtoC (1/2)) (G 1 i 1 i 0 (bins - 2))%nat))
                (Cmult (RtoC (3/2)) (G 0 i 0 i 0 (bins - 1))%nat))
         (Cmult (RtoC (1/2)) (G 0 i 0 i 0 (bins - 2))%nat).
Proof. exact (local_law L bins G i). Qed.
Print Assumptions C172_local.

(** it is the sum of the two occupations at time beta when G is linear over its last bins; *)
Theorem C172_linear L beta bins G i (a b : nat -> C) : List.Forall (fun l => (0 < l)%nat) L -> (2 <= bins)%nat ->
  (forall s t, (s < 2)%nat -> (t < bins)%nat ->
     G s i s i 0%nat t = Cplus (a s) (Cmult (b s) (RtoC ((INR t + 1/2) * (beta / INR bins))))) ->
  occupation L bins G i = Cplus (Cplus (a 0%nat) (Cmult (b 0%nat) (RtoC beta)))
                                (Cplus (a 1%nat) (Cmult (b 1%nat) (RtoC beta))).
Proof. exact (occ_affine L beta bins G i a b). Qed.
Print Assumptions C172_linear.

Example C172_example : List.Forall (fun l => (0 < l)%nat) [4; 3]%nat /\
  occupation [4; 3]%nat 2 (fun s _ _ _ r t => RtoC (INR s + INR t + 7 * INR r)) 0 = RtoC 4.
Proof.
  assert (F : List.Forall (fun l => (0 < l)%nat) [4; 3]%nat) by (repeat constructor; lia).
  split; [exact F|]. rewrite (C172_local _ _ _ _ F). cbn. apply injective_projections; cbn; field.
Qed.

(** with the bare G of the spin models its real part tends to one particle per site, *)
Theorem C172_free_spin L beta fields i : List.Forall (fun l => (0 < l)%nat) L -> 0 < beta ->
  is_lim_seq (fun n => fst (occupation L (n + 2) (spinBareG false beta (n + 2) fields) i)) 1 /\
  is_lim_seq (fun n => snd (occupation L (n + 2) (spinBareG false beta (n + 2) fields) i))
             (/ cosh (beta * nth i fields 0 / 2)).
Proof. exact (free_occupation L beta fields i). Qed.
Print Assumptions C172_free_spin.
Example C172_free_example : List.Forall (fun l => (0 < l)%nat) [8; 8]%nat /\ 0 < 2 /\ nth 1 [3; -3] 0 = -3.
Proof. split; [repeat constructor; lia|]. split; [lra|reflexivity]. Qed.

(** but it is not the number one: on no lattice, at no temperature and in no field does the imaginary
    part vanish. *)
Theorem C172_one_refuted : exists L beta fields i, List.Forall (fun l => (0 < l)%nat) L /\ 0 < beta /\
  ~ is_lim_seq (fun n => snd (occupation L (n + 2) (spinBareG false beta (n + 2) fields) i)) 0.
Proof.
  exists [4; 4]%nat, 1, [0], 0%nat. assert (F : List.Forall (fun l => (0 < l)%nat) [4; 4]%nat) by (repeat constructor; lia).
  split; [exact F|]. split; [lra|]. apply one_refuted; [exact F|lra].
Qed.
Print Assumptions C172_one_refuted.
Theorem C172_never_one : forall L beta fields i, List.Forall (fun l => (0 < l)%nat) L -> 0 < beta ->
  ~ is_lim_seq (fun n => snd (occupation L (n + 2) (spinBareG false beta (n + 2) fields) i)) 0.
Proof. exact one_refuted. Qed.
Print Assumptions C172_never_one.
