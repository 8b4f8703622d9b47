(** * C164, C165: EnforceSumRule *)
Require Import Reals List Arith Bool Lia Lra.
From Coquelicot Require Import Complex.
Require Import Verif.PyWeight Verif.Dyson Verif.DysonSpec Verif.FirstOrder Verif.SumRule Verif.P_Dyson3 Verif.P_SumRule.
Local Open Scope R_scope.

(** C164: when the loop ends Polar is multiplied by one number, and Chi at the origin is 3/4. *)
Theorem C164_exit : forall solve nsub s W0 G f p q, enforce solve nsub s W0 G f p = Some q ->
  Cmod (Cminus (chi0 solve nsub s W0 G q) (RtoC (3 / 4))) <= 1 / 1000 /\
  exists c, forall i k m, q i k m = Cmult (p i k m) c.
Proof. exact enforce_exit. Qed.
Print Assumptions C164_exit.
Example C164_exit_case : enforce someSolver 1 sOne noW0 upG 5 pOne = Some pOne.
Proof. exact (exit_one someSolver 5 someSolver_good). Qed.

(** Without interaction and magnetisation it ends, from every positive Chi at the origin. *)
Theorem C164_free : forall solve nsub s G, goodSolver solve -> (0 < nsub)%nat ->
  Cmult (RtoC (1 / 2)) (Cminus (lastExtrapolated (bins s) (G 1 0 1 0 0)%nat) (lastExtrapolated (bins s) (G 0 0 0 0 0)%nat)) = RtoC 0 ->
  forall p c, 0 < c -> chi0 solve nsub s (Plain (fun _ _ _ => RtoC 0) true false) G p = RtoC c ->
  exists f x, enforce solve nsub s (Plain (fun _ _ _ => RtoC 0) true false) G f p = Some x.
Proof. exact free_stops. Qed.
Print Assumptions C164_free.
Example C164_free_case : goodSolver someSolver /\
  chi0 someSolver 1 sOne (Plain (fun _ _ _ => RtoC 0) true false) (fun _ _ _ _ _ _ => RtoC 0) pOne = RtoC (1 / 2).
Proof.
  split; [exact someSolver_good|]. unfold chi0, chiTensor. rewrite zeroth.
  change (Plain (fun _ _ _ => RtoC 0) true false) with noW0. rewrite conn_one by exact someSolver_good.
  unfold mag, lastExtrapolated. ring.
Qed.

(** It need not end: Polar zero, one spin direction filled. *)
Theorem C164_stops_refuted : exists solve nsub s W0 G p, goodSolver solve /\ (0 < nsub)%nat /\
  forall f, enforce solve nsub s W0 G f p = None.
Proof.
  exists someSolver, 1%nat, sOne, noW0, upG, dataZero. split; [exact someSolver_good|]. split; [lia|].
  exact (never someSolver 1 sOne someSolver_good ltac:(lia)).
Qed.
Print Assumptions C164_stops_refuted.

(** Chi is the correlation of Sz alone, 1/4 for a spin 1/2 with itself; the loop never brings it there. *)
Theorem C164_target : forall solve nsub s W0 G f p q, enforce solve nsub s W0 G f p = Some q ->
  499 / 1000 <= Cmod (Cminus (calculateChi (chiTensor solve nsub s W0 G q) 0 0 0 0) (RtoC (1 / 4))).
Proof. intros solve nsub s W0 G f p q H. apply not_quarter, (enforce_exit _ _ _ _ _ _ _ _ H). Qed.
Print Assumptions C164_target.
Theorem C164_target_refuted : exists solve nsub s W0 G f p q, goodSolver solve /\
  enforce solve nsub s W0 G f p = Some q /\
  ~ Cmod (Cminus (calculateChi (chiTensor solve nsub s W0 G q) 0 0 0 0) (RtoC (1 / 4))) <= 1 / 1000.
Proof.
  exists someSolver, 1%nat, sOne, noW0, upG, 0%nat, pOne, pOne. split; [exact someSolver_good|].
  pose proof (exit_one someSolver 0 someSolver_good) as E. split; [exact E|].
  pose proof (C164_target _ _ _ _ _ _ _ _ E). lra.
Qed.
Print Assumptions C164_target_refuted.

(** C165: Chi reported by Measure has the product of the magnetisations once without EnforceSumRule ... *)
Theorem C165_once : forall solve nsub s W0 G p m n v t,
  let M := fun a => Cmult (RtoC (1 / 2)) (Cminus (lastExtrapolated (bins s) (G 1 a 1 a 0)%nat) (lastExtrapolated (bins s) (G 0 a 0 a 0)%nat)) in
  reported solve nsub s W0 G false p m n v t =
  Cplus (calculateChi (connected solve nsub s W0 p) m n v t) (Cmult (M m) (M n)).
Proof. intros. unfold reported. apply zeroth. Qed.
Print Assumptions C165_once.

(** ... and twice with it. *)
Theorem C165_twice : forall solve nsub s W0 G p m n v t,
  let M := fun a => Cmult (RtoC (1 / 2)) (Cminus (lastExtrapolated (bins s) (G 1 a 1 a 0)%nat) (lastExtrapolated (bins s) (G 0 a 0 a 0)%nat)) in
  reported solve nsub s W0 G true p m n v t =
  Cplus (Cplus (calculateChi (connected solve nsub s W0 p) m n v t) (Cmult (M m) (M n))) (Cmult (M m) (M n)).
Proof. intros. unfold reported, chiTensor. rewrite !zeroth. reflexivity. Qed.
Print Assumptions C165_twice.

(** So the Chi of a rule that changed nothing is not the Chi reported without it. *)
Theorem C165_same_refuted : exists solve nsub s W0 G f p, goodSolver solve /\
  enforce solve nsub s W0 G f p = Some p /\
  reported solve nsub s W0 G true p 0 0 0 0 <> reported solve nsub s W0 G false p 0 0 0 0.
Proof.
  exists someSolver, 1%nat, sOne, noW0, upG, 0%nat, pOne. split; [exact someSolver_good|].
  split; [exact (exit_one someSolver 0 someSolver_good)|].
  unfold reported, chiTensor. rewrite !zeroth, conn_one, !mag_up by exact someSolver_good.
  rewrite <- !RtoC_mult, <- !RtoC_plus. intros H. injection H. lra.
Qed.
Print Assumptions C165_same_refuted.
