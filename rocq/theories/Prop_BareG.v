(* C138-C142: bare Green's functions, hopping, the Hubbard model and the annealed field in Python. *)
Require Import Reals ZArith List Arith Bool Lra Lia.
From Coquelicot Require Complex.
Require Import Verif.FirstOrder Verif.PyIndex Verif.BareModel Verif.BareSpec Verif.BareG.
Require Import Verif.P_BareG Verif.P_BareG2.
Import ListNotations.
Import Coquelicot.Complex.
Local Open Scope R_scope.

(* C138: the bare G of the spin models is that of a fermion bound to a site, one
   for either spin: it sums to 1 over the two sides of time zero; *)
Theorem C138_jump : forall beta field sp, 0 < beta -> (sp < 2)%nat ->
  Cplus (spinG false beta field sp 0) (spinG false beta field sp beta) = RtoC 1.
Proof. exact sum_law. Qed.
Print Assumptions C138_jump.

(* it evolves in time with the energy the field gives that spin; *)
Theorem C138_evolution : forall beta field sp tau s,
  spinG false beta field sp (tau + s)
  = Cmult (cexp (Cmult (spinMuField false beta field sp) (RtoC s))) (spinG false beta field sp tau).
Proof. exact step_law. Qed.
Print Assumptions C138_evolution.

(* the weights of an empty and of a doubly occupied site cancel, whatever the
   field, which is why the fermions describe a spin; *)
Theorem C138_projection : forall beta field, 0 < beta ->
  Cplus (RtoC 1) (Cmult (cexp (Cmult (spinMuField false beta field 0) (RtoC beta)))
                        (cexp (Cmult (spinMuField false beta field 1) (RtoC beta)))) = RtoC 0.
Proof. exact projection_law. Qed.
Print Assumptions C138_projection.

(* and the difference of the two occupations is the magnetisation of a free
   spin. *)
Theorem C138_magnetisation : forall beta field, 0 < beta ->
  Cminus (spinG false beta field 0 beta) (spinG false beta field 1 beta) = RtoC (tanh (beta * field / 2)).
Proof. exact tanh_law. Qed.
Print Assumptions C138_magnetisation.

(* With "ImW" in the description the chemical potential is real, and empty and
   doubly occupied sites do not cancel. *)
Theorem C138_imW_refuted : exists beta, 0 < beta /\
  Cplus (RtoC 1) (Cmult (cexp (Cmult (spinMuField true beta 0 0) (RtoC beta)))
                        (cexp (Cmult (spinMuField true beta 0 1) (RtoC beta)))) <> RtoC 0.
Proof. exact imW_refuted. Qed.
Print Assumptions C138_imW_refuted.

Example C138_case : forall t, (t < 4)%nat ->
  spinBareG false 2 4 [3; 0] 1%nat 0%nat 1%nat 0%nat 0%nat t = spinG false 2 3 1 ((INR t + 1/2) * (2 / 4)) /\
  spinBareG false 2 4 [3; 0] 0%nat 0%nat 1%nat 0%nat 0%nat t = RtoC 0.
Proof.
  intros t _. split; [|reflexivity]. unfold spinBareG. cbn [Nat.eqb Nat.ltb Nat.leb andb nth].
  replace (INR 4) with 4 by (cbn; ring). reflexivity.
Qed.

(* C139: the kernel used for the bare G of fermions is exp(-w t) / (1 + exp(-beta w))
   up to one part in exp(200), and exactly unless beta w / 2 exceeds 100. *)
Theorem C139_kernel : forall w t beta, 0 < beta ->
  let exact := exp (- w * t) / (1 + exp (- beta * w)) in
  (Rabs (beta * w / 2) <= 100 -> FermiKernel w t beta = exact) /\
  exact <= FermiKernel w t beta <= exact * (1 + exp (-200)).
Proof. exact kernel_law. Qed.
Print Assumptions C139_kernel.

(* The same field does not favour the same spin in the two families of models. *)
Theorem C139_sign_refuted : exists beta h mu, 0 < beta /\ 0 < h /\
  FermiKernel (localTerm mu h 0) beta beta < FermiKernel (localTerm mu h 1) beta beta /\
  fst (spinG false beta h 1 beta) < fst (spinG false beta h 0 beta).
Proof. exact sign_refuted. Qed.
Print Assumptions C139_sign_refuted.

Example C139_case : FermiKernel 300 1 1 = exp (-300) /\ FermiKernel 0 (1/3) 1 = 1/2.
Proof.
  unfold FermiKernel, cosh'. cbv zeta. split.
  - destruct (Rlt_dec 100 (1 * 300 / 2)); [|lra]. f_equal. field.
  - destruct (Rlt_dec 100 (1 * 0 / 2)); [lra|]. destruct (Rlt_dec (1 * 0 / 2) (-100)); [lra|].
    replace (- (1 * 0 / 2) * (2 * (1/3) / 1 - 1)) with 0 by field. replace (1 * 0 / 2) with 0 by field.
    rewrite Ropp_0, exp_0. field.
Qed.

(* C140: the hopping from one cell to another is minus (the first hopping times
   the entries for that cell in the table of nearest neighbours, plus the second
   one times those of the next nearest), times the matrix of the phase; *)
Theorem C140_hopping : forall n L t0 t1 rest phase, n = Square \/ n = Honeycomb -> torus n 2 L ->
  exists T, kinetic n L (t0 :: t1 :: rest) phase = Some T /\
  forall s i t j c, (i < NSublat n)%nat -> (j < NSublat n)%nat -> cell L c ->
  T s i t j (Z.to_nat (pyCoordiIndex L c))
  = Copp (Cplus (Cmult (RtoC (INR (occ c (nearest n L i j)) * t0)) (spinOrbit phase 0 s t))
                (Cmult (RtoC (INR (occ c (nextNearestTable n L i j)) * t1)) (spinOrbit phase 1 s t))).
Proof. exact kinetic_law. Qed.
Print Assumptions C140_hopping.

(* it is Hermitian if the phase vanishes, *)
Theorem C140_hermitian : forall n L t0 t1 rest phase, n = Square \/ n = Honeycomb -> torus n 2 L ->
  Forall (fun x => x = 0) phase ->
  exists T, kinetic n L (t0 :: t1 :: rest) phase = Some T /\
  forall s i t j c, (i < NSublat n)%nat -> (j < NSublat n)%nat -> cell L c ->
  T s i t j (Z.to_nat (pyCoordiIndex L c)) = Cconj (T t j s i (Z.to_nat (pyCoordiIndex L (back L c)))).
Proof. exact hermitian_law. Qed.
Print Assumptions C140_hermitian.

(* but not otherwise: the two directions of a bond carry the same phase instead
   of opposite ones; *)
Theorem C140_hermitian_refuted : exists L t0 t1 phase T s i t j c,
  torus Square 3 L /\ kinetic Square L [t0; t1] phase = Some T /\ cell L c /\
  T s i t j (Z.to_nat (pyCoordiIndex L c)) = Copp Ci /\
  Cconj (T t j s i (Z.to_nat (pyCoordiIndex L (back L c)))) = Ci.
Proof. exact hermitian_refuted. Qed.
Print Assumptions C140_hermitian_refuted.

(* and the first of the matrices called Pauli is not Hermitian and squares to -1. *)
Theorem C140_pauli_refuted :
  (exists s t, (s < 2)%nat /\ (t < 2)%nat /\ Pauli 0 s t <> Cconj (Pauli 0 t s)) /\
  exists s, (s < 2)%nat /\ Cplus (Cmult (Pauli 0 s 0) (Pauli 0 0 s)) (Cmult (Pauli 0 s 1) (Pauli 0 1 s)) = RtoC (-1).
Proof. exact pauli_refuted. Qed.
Print Assumptions C140_pauli_refuted.

Example C140_case :
  torus Square 2 [4; 4]%Z /\ occ [0; 1]%Z (nearest Square [4; 4]%Z 0 0) = 1%nat /\
  back [4; 4]%Z [0; 1]%Z = [0; 3]%Z /\ occ [0; 3]%Z (nearest Square [4; 4]%Z 0 0) = 1%nat.
Proof. split; [split; [reflexivity|repeat constructor; lia]|]. repeat split; reflexivity. Qed.

(* C141: the Hubbard repulsion does not act between opposite spins on one site:
   it sits on a pair of vertices that does not conserve spin, at every distance,
   and is absent where it belongs. *)
Theorem C141_onsite_refuted : exists nsub U s t u v i r,
  U <> 0 /\ (s + u <> t + v)%nat /\ r <> 0%nat /\
  hubbardW nsub U (fun _ _ _ _ _ => RtoC 0) (vert s t) i (vert u v) i r = RtoC U /\
  hubbardW nsub U (fun _ _ _ _ _ => RtoC 0) (vert 1 1) i (vert 0 0) i 0%nat = RtoC 0.
Proof. exact hubbard_refuted. Qed.
Print Assumptions C141_onsite_refuted.

(* A Hubbard model with a single hopping is built without complaint, and both of
   its weights are zero. *)
Theorem C141_build_refuted : exists n L h, torus n 3 L /\
  h_hopping h = Some [1] /\ h_U h = Some 4 /\ h_mu h = Some [2] /\ h_phase h = Some [] /\
  forall solve s i s' j r t a b, fst (buildHubbard solve n L h) s i s' j r t = RtoC 0 /\
    snd (buildHubbard solve n L h) a i b j r = RtoC 0.
Proof. exact build_refuted. Qed.
Print Assumptions C141_build_refuted.

(* C142: if the field to anneal is a whole number of steps at the start, it is so
   after any sequence of successes and failures, and that many successes later
   the annealing stops at a field below 1e-5, at zero if the step is larger. *)
Theorem C142_anneal : forall a outs k, length (delta a) = length (interval a) ->
  (forall m, nth m (delta a) 0 = - INR k * nth m (interval a) 0) ->
  let b := fold_left version outs a in
  exists k', (forall m, nth m (delta b) 0 = - INR k' * nth m (interval b) 0) /\
  let c := Nat.iter k' (fun x => version x Success) b in
  fst (DecreaseField c) = false /\ Rabs (nth 0 (delta c) 0) <= 1/100000 /\
  (1/100000 < Rabs (nth 0 (interval b) 0) -> forall m, nth m (delta c) 0 = 0).
Proof. exact history_law. Qed.
Print Assumptions C142_anneal.

(* After a decrease, n failures in a row leave the field at the one before it
   plus a 2^n-th of the step. *)
Theorem C142_retreat : forall a n m, length (delta a) = length (interval a) -> fst (DecreaseField a) = true ->
  nth m (delta (Nat.iter n (fun x => version x TouchZero) (version a Success))) 0
  = nth m (delta a) 0 + nth m (interval a) 0 / 2 ^ n.
Proof. exact retreat. Qed.
Print Assumptions C142_retreat.

(* From a field that is not a whole number of steps the annealing goes on for
   ever, past zero and away from it; *)
Theorem C142_endless_refuted : exists a, forall k,
  fst (DecreaseField (Nat.iter k (fun x => version x Success) a)) = true /\
  nth 0 (delta (Nat.iter k (fun x => version x Success) a)) 0 = 1 - 3/10 * INR k.
Proof. exact endless_refuted. Qed.
Print Assumptions C142_endless_refuted.

(* and it does not start if the first sublattice has no field. *)
Theorem C142_first_refuted : exists a, nth 1 (delta a) 0 = 1 /\ nth 1 (interval a) 0 = - (1) /\
  DecreaseField a = (false, a).
Proof. exact stops_refuted. Qed.
Print Assumptions C142_first_refuted.

Example C142_case : let a := mkAnneal [-1/2; -1/2; 0; 0] [1/20; 1/20; 0; 0] in
  (forall m, nth m (delta a) 0 = - INR 10 * nth m (interval a) 0) /\
  version a Success = mkAnneal [-1/2 + 1/20; -1/2 + 1/20; 0 + 0; 0 + 0] [1/20; 1/20; 0; 0].
Proof.
  split.
  - intros m. cbn [delta interval]. replace (INR 10) with 10 by (cbn; ring).
    destruct m as [|[|[|[|[|m]]]]]; cbn; field.
  - cbn [version]. unfold DecreaseField. cbn [delta interval nth].
    destruct (Rlt_dec _ _) as [_|N]; [reflexivity|]. exfalso. apply N.
    unfold Rabs. destruct (Rcase_abs _); lra.
Qed.
