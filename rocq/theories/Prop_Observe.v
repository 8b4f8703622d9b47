From Coq Require Import Arith List Bool Lia.
From Verif Require Import Observe P_Observe.
Import ListNotations.

(* C171: after any run, entry t of a list is the value of call t. *)
Theorem C171_aligned : forall (V : Type) l nsub (vals : list (name -> V)) h,
  l <> Pyrochlore -> measures l nsub vals noHistory = Some h ->
  forall n, h n = [] \/ h n = map (fun val => val n) vals.
Proof. intros V. exact aligned. Qed.
Print Assumptions C171_aligned.

(* The common quantities and those of every sublattice are never missing. *)
Theorem C171_kept : forall (V : Type) l nsub (vals : list (name -> V)) n,
  l <> OtherLattice ->
  (l <> Pyrochlore /\ In n [OneMinusJP; UnifChi; BKUnifChi; MagDensity; BKMagDensity;
                            Energy; SumRule; BKEnergy; BKSumRule]) \/ (exists i, i < nsub /\ (n = Sz i \/ n = Density i)) ->
  exists h, measures l nsub vals noHistory = Some h /\ h n = map (fun val => val n) vals.
Proof. intros V. exact kept. Qed.
Print Assumptions C171_kept.

(* The staggered quantities are there on the lattices that have them. *)
Theorem C171_staggered : forall (V : Type) l nsub (vals : list (name -> V)) n,
  (In l [Chain; AssymetricTriangular; Square; Cubic; Checkerboard; Checkerboard3D;
         ValenceBond; Triangular] /\
   In n [StagChi; BKStagChi; StagMagDensity; BKStagMagDensity]) \/
  (l = ValenceBond /\ n = VBS) \/ (l = Pyrochlore /\ n = ChiX) ->
  exists h, measures l nsub vals noHistory = Some h /\ h n = map (fun val => val n) vals.
Proof. intros V. exact kept_staggered. Qed.
Print Assumptions C171_staggered.

Example C171_example : exists h,
  measures ValenceBond 2 [fun _ => 5; fun n => if name_eq_dec n VBS then 7 else 8] noHistory = Some h /\
  h VBS = [5; 7] /\ h Energy = [5; 8] /\ h (Sz 1) = [5; 8] /\ h (Sz 2) = [] /\ h ChiX = [].
Proof. eexists. split; [reflexivity|]. repeat split. Qed.

(* On the pyrochlore lattice each call appends the uniform susceptibility twice. *)
Theorem C171_twice : forall (V : Type) nsub (vals : list (name -> V)) h,
  measures Pyrochlore nsub vals noHistory = Some h ->
  h UnifChi = flat_map (fun val => [val UnifChi; val UnifChi]) vals.
Proof. intros V. exact twice. Qed.
Print Assumptions C171_twice.

Theorem C171_aligned_refuted : exists l nsub (vals : list (name -> nat)) h,
  measures l nsub vals noHistory = Some h /\
  nth_error (h UnifChi) 1 <> nth_error (map (fun val => val UnifChi) vals) 1 /\
  nth_error (h BKUnifChi) 1 = nth_error (map (fun val => val BKUnifChi) vals) 1.
Proof.
  exists Pyrochlore, 4, [fun _ => 1; fun _ => 2].
  eexists. split; [reflexivity|]. split; [cbn; discriminate|reflexivity].
Qed.
Print Assumptions C171_aligned_refuted.

(* No lattice that can be built (dyson/lattice.py 18-203) meets the Assert. *)
Theorem C171_known_lattice : forall (V : Type) l nsub (vals : list (name -> V)) h,
  l <> OtherLattice -> exists h', measures l nsub vals h = Some h'.
Proof. intros V. exact some_otherwise. Qed.
Print Assumptions C171_known_lattice.
