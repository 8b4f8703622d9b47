(** * C154-C155: the magnetisation and the susceptibilities written to the output *)
Require Import Reals Lra Lia List Arith Bool.
From Coquelicot Require Import Coquelicot.
Require Import Verif.PyWeight Verif.FirstOrder Verif.BareG Verif.Measure Verif.P_Measure.
Import ListNotations.
Local Open Scope R_scope.

(** C154: <Sz_i> is half the difference of the occupations, read off G at time beta by linear
    extrapolation from the last two bins; the field raises the occupation of spin 0. *)
Theorem C154_linear beta bins G i (a b : nat -> C) : (2 <= bins)%nat ->
  (forall s t, (s < 2)%nat -> (t < bins)%nat ->
     G s i s i 0%nat t = Cplus (a s) (Cmult (b s) (RtoC ((INR t + 1/2) * (beta / INR bins))))) ->
  Sz bins G i = Cmult (RtoC (1/2)) (Cminus (Cplus (a 0%nat) (Cmult (b 0%nat) (RtoC beta)))
                                           (Cplus (a 1%nat) (Cmult (b 1%nat) (RtoC beta)))).
Proof. exact (affine_law beta bins G i a b). Qed.
Print Assumptions C154_linear.
Example C154_example : (2 <= 2)%nat /\ Sz 2 (fun s _ _ _ _ t => RtoC (INR s + INR t)) 0 = RtoC (-1/2).
Proof. split; [lia|]. unfold Sz. cbn. apply injective_projections; cbn; field. Qed.

(** With the bare G of the spin models it tends, with the number of bins, to the magnetisation of a
    free spin in the field of its sublattice. *)
Theorem C154_free_spin beta fields i : 0 < beta ->
  is_lim_seq (fun n => fst (Sz (n + 2) (spinBareG false beta (n + 2) fields) i)) (1 / 2 * tanh (beta * nth i fields 0 / 2)) /\
  is_lim_seq (fun n => snd (Sz (n + 2) (spinBareG false beta (n + 2) fields) i)) 0.
Proof. exact (free_spin beta fields i). Qed.
Print Assumptions C154_free_spin.
Example C154_free_example : 0 < 2 /\ nth 1 [3; -3] 0 = -3.
Proof. split; [lra|reflexivity]. Qed.

(** C155: the transform is linear, and one element of the table, between sublattices a0 and b0 at site
    r0, is the plane wave exp(-i K.r) divided by the number of sublattices; *)
Theorem C155_linear nsub vol vec D E z K :
  fourier nsub vol vec (fun a b r => Cplus (Cmult z (D a b r)) (E a b r)) K =
  Cplus (Cmult z (fourier nsub vol vec D K)) (fourier nsub vol vec E K).
Proof.
  rewrite <- fourier_scal. exact (fourier_plus nsub vol vec (fun a b r => Cmult z (D a b r)) E K).
Qed.
Print Assumptions C155_linear.
Theorem C155_plane_wave nsub vol vec a0 b0 r0 K : (a0 < nsub)%nat -> (b0 < nsub)%nat -> (r0 < vol)%nat ->
  fourier nsub vol vec
    (fun a b r => if Nat.eqb a a0 && Nat.eqb b b0 && Nat.eqb r r0 then RtoC 1 else RtoC 0) K =
  (cos (dotR (vec a0 b0 r0) K) / INR nsub, - sin (dotR (vec a0 b0 r0) K) / INR nsub).
Proof. exact (element_wave nsub vol vec a0 b0 r0 K). Qed.
Print Assumptions C155_plane_wave.
Example C155_plane_wave_example : (1 < 2)%nat /\ (0 < 2)%nat /\ (3 < 16)%nat /\ dotR [1; 2] [PI; PI] = 3 * PI.
Proof. repeat split; try lia. unfold dotR. cbn. ring. Qed.

(** UnifChi is the sum over all sites and the integral over time, for each sublattice; *)
Theorem C155_uniform beta bins nsub vol vec dim X :
  UnifChi beta bins nsub vol vec dim X =
  Cdiv (Cmult (csum nsub (fun a => csum vol (fun r => csum nsub (fun b => csum bins (fun t => X a b r t)))))
              (RtoC (beta / INR bins))) (RtoC (INR nsub)).
Proof. exact (uniform_law beta bins nsub vol vec dim X). Qed.
Print Assumptions C155_uniform.

(** on the triangular lattice StagChi is the integral over time at its momentum; *)
Theorem C155_triangular beta bins nsub vol vec K X :
  StagChiTriangular beta bins nsub vol vec K X =
  Cmult (RtoC (beta / INR bins)) (csum bins (fun t => fourier nsub vol vec (fun a b r => X a b r t) K)).
Proof. exact (static_law beta bins nsub vol vec X K). Qed.
Print Assumptions C155_triangular.

(** on the other lattices it is the first bin alone, *)
Theorem C155_first_bin beta bins nsub vol vec dim X :
  StagChi beta bins nsub vol vec dim X =
  Cmult (RtoC (beta / INR bins)) (fourier nsub vol vec (fun a b r => X a b r 0%nat) (repeat PI dim)).
Proof. exact (equal_time_law beta bins nsub vol vec X (repeat PI dim)). Qed.
Print Assumptions C155_first_bin.

(** which for correlations that do not depend on time is too small by the number of bins. *)
Theorem C155_too_small beta bins nsub vol vec dim X : (forall a b r t, X a b r t = X a b r 0%nat) ->
  Cmult (RtoC (beta / INR bins)) (csum bins (fun t => fourier nsub vol vec (fun a b r => X a b r t) (repeat PI dim)))
  = Cmult (RtoC (INR bins)) (StagChi beta bins nsub vol vec dim X).
Proof. intros H. rewrite <- static_law. exact (constant_law beta bins nsub vol vec X (repeat PI dim) H). Qed.
Print Assumptions C155_too_small.
Example C155_example : forall a b r t : nat, (fun _ _ _ _ : nat => RtoC 1) a b r t = (fun _ _ _ _ : nat => RtoC 1) a b r 0%nat.
Proof. reflexivity. Qed.

(** "StagMag^2 density" then does not depend on beta but falls with the number of bins. *)
Theorem C155_density beta bins nsub vol vec dim X : 0 < beta -> (0 < bins)%nat -> (0 < nsub)%nat -> (0 < vol)%nat ->
  StagMag2 beta bins nsub vol vec dim X =
  Cdiv (fourier nsub vol vec (fun a b r => X a b r 0%nat) (repeat PI dim)) (RtoC (INR bins * INR vol * INR nsub)).
Proof. exact (density_law beta bins nsub vol vec dim X). Qed.
Print Assumptions C155_density.
Example C155_density_example : 0 < 8 /\ (0 < 64)%nat /\ (0 < 1)%nat /\ (0 < 16)%nat.
Proof. split; [lra|lia]. Qed.

Theorem C155_staggered_is_static_refuted : exists beta bins nsub vol vec dim X, 0 < beta /\ (0 < bins)%nat /\
  StagChi beta bins nsub vol vec dim X <>
  Cmult (RtoC (beta / INR bins)) (csum bins (fun t => fourier nsub vol vec (fun a b r => X a b r t) (repeat PI dim))).
Proof.
  destruct stag_refuted as (beta & bins & nsub & vol & vec & dim & X & A & B & H).
  exists beta, bins, nsub, vol, vec, dim, X. rewrite <- static_law. auto.
Qed.
Print Assumptions C155_staggered_is_static_refuted.
