(* C129-C133: the first-order diagrams that Python adds to the Monte Carlo
   data, compared with the lines of the Monte Carlo, and the susceptibility. *)
Require Import Reals ZArith List Arith Bool Lra Lia.
From Coquelicot Require Complex.
Require Import Verif.PyWeight Verif.DysonSpec Verif.FirstOrder Verif.FirstOrderSpec
  Verif.P_First Verif.P_First2 Verif.P_First3.
From Verif Require Import Base Num NumR Complex Lattice P_Lattice IndexMap P_IndexMap Weights PyIndex.
Import ListNotations.
Import Coquelicot.Complex.
Local Open Scope R_scope.

(* C129: SigmaSmoothT_FirstOrder is the Fock diagram of the Monte Carlo: minus
   (one order) the sum over the spin of the inner line of G times W, between
   any two vertices at any times.  The table holds the values for tau > 0. *)
Theorem C129_fock :
  forall T G W, jobTables T -> holds (gmap T) (g_smooth T) G -> holds (wmap T) (w_smooth T) W ->
  forall s A B tA tB, onLattice T A -> onLattice T B -> inTime T tA -> inTime T tB ->
  exists g w : spin -> cplx,
    (forall s2, lineG T s2 A B tA tB = Ok (g s2)) /\
    (forall s2, lineW T (ends s s2) (ends s2 s) A B tA tB = Ok (w s2)) /\
    Cmult (RtoC (IZR (@TauSym NumR (gmap T) tA tB)))
      (sigmaFirst G W (spinN s) (subN A) (spinN s) (subN B) (siteOf T A B) (binOf T tA tB))
    = Copp (Cplus (Cmult (toC (g DOWN)) (toC (w DOWN))) (Cmult (toC (g UP)) (toC (w UP)))).
Proof. exact fock_law. Qed.
Print Assumptions C129_fock.

(* It keeps the spin. *)
Theorem C129_spin : forall G W s s' sa sb r t, s <> s' -> sigmaFirst G W s sa s' sb r t = RtoC 0.
Proof. exact sigma_off. Qed.
Print Assumptions C129_spin.

Example C129_case :
  jobTables dimerT /\ holds (gmap dimerT) (g_smooth dimerT) dimerA /\
  holds (wmap dimerT) (w_smooth dimerT) (arrOf (wmap dimerT) (w_smooth dimerT)) /\
  onLattice dimerT siteA /\ onLattice dimerT siteB /\ inTime dimerT 0 /\ inTime dimerT (1/8) /\
  (forall W : arr, (forall a sa b sb r t, W a sa b sb r t = RtoC (INR a + 3)) ->
     sigmaFirst dimerA W 1%nat 0%nat 1%nat 1%nat 2%nat 0%nat = RtoC (-22)).
Proof.
  split; [exact dimer_job|]. split; [exact dimer_holds|]. split; [apply arrOf_holds|].
  split; [split; cbn; [lia|repeat constructor; lia]|].
  split; [split; cbn; [lia|repeat constructor; lia]|].
  split; [unfold inTime; cbn; lra|]. split; [unfold inTime; cbn; lra|].
  intros W HW. rewrite sigma_closed by lia. rewrite !HW, !dimer_val by lia.
  change (Z.of_nat 0) with 0%Z. change (Z.of_nat 1) with 1%Z. change (Z.of_nat 2) with 2%Z.
  cbn [dimerVal]. unfold spin2Index. apply injective_projections; cbn; ring.
Qed.

(* C130: Polar_FirstOrder is the bubble of two lines of the Monte Carlo, one
   each way, at times that do not differ by whole bins -- if G is even in the
   displacement. *)
Theorem C130_even :
  forall T G, jobTables T -> holds (gmap T) (g_smooth T) G ->
  forall s1 s2 A B tA tB, onLattice T A -> onLattice T B -> inTime T tA -> inTime T tB ->
  (forall n, tB - tA <> IZR n * (im_beta (gmap T) / IZR (im_maxtau (gmap T)))) ->
  exists g g' : cplx,
    lineG T s2 A B tA tB = Ok g /\ lineG T s1 B A tB tA = Ok g' /\
    (evenG T G ->
     polarFirst (Z.to_nat (SublatVol (im_lat (gmap T)))) (Z.to_nat (im_maxtau (gmap T))) G
       (spin2Index (spinN s1) (spinN s2)) (subN A) (spin2Index (spinN s2) (spinN s1)) (subN B)
       (siteOf T A B) (binOf T tA tB)
     = Cmult (toC g') (toC g)).
Proof. exact bubble_law. Qed.
Print Assumptions C130_even.

Example C130_case :
  jobTables stairT /\ holds (gmap stairT) (g_smooth stairT) stairA /\ evenG stairT stairA /\
  onLattice stairT siteA /\ inTime stairT 0 /\ inTime stairT (1/8) /\
  (forall n, 1/8 - 0 <> IZR n * (im_beta (gmap stairT) / IZR (im_maxtau (gmap stairT)))) /\
  stairA 1%nat 0%nat 1%nat 0%nat 0%nat 2%nat = RtoC 3.
Proof.
  split; [exact stair_job|]. split; [apply arrOf_holds|]. split.
  { intros s a b r r' t Hr Hr' _. cbn in Hr, Hr'. replace r' with r by lia. reflexivity. }
  split; [split; cbn; [lia|repeat constructor; lia]|].
  split; [unfold inTime; cbn; lra|]. split; [unfold inTime; cbn; lra|].
  split; [exact off_grid|reflexivity].
Qed.

(* For any other G the claim is false, even if going from a to b is going from
   b to a backwards: the line back is taken at the displacement r instead of
   -r.  On a chain with two sites per cell the bubble between cells is lost. *)
Theorem C130_reversible_refuted : exists T G s1 s2 A B tA tB g g',
  jobTables T /\ holds (gmap T) (g_smooth T) G /\ reversibleG T G /\
  onLattice T A /\ onLattice T B /\ inTime T tA /\ inTime T tB /\
  (forall n, tB - tA <> IZR n * (im_beta (gmap T) / IZR (im_maxtau (gmap T)))) /\
  lineG T s2 A B tA tB = Ok g /\ lineG T s1 B A tB tA = Ok g' /\
  Cmult (toC g') (toC g) = RtoC (-4) /\
  polarFirst (Z.to_nat (SublatVol (im_lat (gmap T)))) (Z.to_nat (im_maxtau (gmap T))) G
    (spin2Index (spinN s1) (spinN s2)) (subN A) (spin2Index (spinN s2) (spinN s1)) (subN B)
    (siteOf T A B) (binOf T tA tB) = RtoC 0.
Proof. exact bubble_refuted. Qed.
Print Assumptions C130_reversible_refuted.

(* C131: SigmaDeltaT_FirstOrder is the Hartree-Fock self-energy with the
   density G(tau = Beta) that continues the last two bins in a straight line:
   the exchange term between the two ends, minus, at one point, the sum over
   all spins, sublattices and cells. *)
Theorem C131_hartree_fock :
  forall nsub vol bins beta (G : arr) (W0 : arrD) (g : nat -> nat -> nat -> nat -> C),
  (2 <= bins)%nat ->
  (forall s a b r, exists p q, g s a b r = Cplus p (Cmult q (RtoC beta)) /\
     forall t, t = (bins - 1)%nat \/ t = (bins - 2)%nat ->
     G s a s b r t = Cplus p (Cmult q (RtoC ((INR t + 1/2) * (beta / INR bins))))) ->
  forall s a b r, (s < 2)%nat -> (a < nsub)%nat ->
  sigmaDeltaFirst nsub vol bins G W0 s a s b r
  = Cminus
      (csum 2 (fun s2 => Cmult (g s2 a b r) (W0 (s * 2 + s2)%nat a (s2 * 2 + s)%nat b r)))
      (if Nat.eqb a b && Nat.eqb r 0 then
         csum 2 (fun s2 => csum nsub (fun c => csum vol (fun r' =>
           Cmult (g s2 c c 0%nat) (W0 (s * 2 + s)%nat a (s2 * 2 + s2)%nat c r'))))
       else RtoC 0).
Proof. exact hf_law. Qed.
Print Assumptions C131_hartree_fock.

Example C131_case :
  forall t, t = (4 - 1)%nat \/ t = (4 - 2)%nat ->
  (fun t => RtoC (INR t + 1)) t
  = Cplus (RtoC (1/2)) (Cmult (RtoC 4) (RtoC ((INR t + 1/2) * (1 / INR 4)))).
Proof. intros t _. apply injective_projections; cbn; field. Qed.

(* C132: at equal times the C++ takes G with the sign of tau < 0 but from the
   first bin; just before it takes the last bin, as Python does. *)
Theorem C132_equal_times :
  forall T G s A B, jobTables T -> holds (gmap T) (g_smooth T) G ->
  onLattice T A -> onLattice T B -> forall t, inTime T t ->
  (exists z, lineG T s A B t t = Ok z /\
     toC z = Copp (G (spinN s) (subN A) (spinN s) (subN B) (siteOf T A B) 0%nat)) /\
  forall t', inTime T t' -> t' < t -> t - t' <= im_beta (gmap T) / IZR (im_maxtau (gmap T)) ->
   exists z, lineG T s A B t t' = Ok z /\
     toC z = Copp (G (spinN s) (subN A) (spinN s) (subN B) (siteOf T A B) (Z.to_nat (im_maxtau (gmap T)) - 1)%nat).
Proof. exact equal_law. Qed.
Print Assumptions C132_equal_times.

(* So the line at equal times is not the limit from below, nor the density
   that Python uses: -1 instead of -4 or -9/2. *)
Theorem C132_limit_refuted : exists T G s A t z,
  jobTables T /\ holds (gmap T) (g_smooth T) G /\ onLattice T A /\ inTime T t /\
  lineG T s A A t t = Ok z /\ toC z = RtoC (-1) /\
  lastExtrapolated (Z.to_nat (im_maxtau (gmap T))) (G (spinN s) (subN A) (spinN s) (subN A) 0%nat) = RtoC (9/2) /\
  forall t', inTime T t' -> t' < t -> t - t' <= 1/4 ->
    exists z', lineG T s A A t t' = Ok z' /\ toC z' = RtoC (-4).
Proof. exact equal_refuted. Qed.
Print Assumptions C132_limit_refuted.

(* C133: Calculate_Chi is the correlation of S^z at two vertices, in terms of
   the spins (up,up) = 3 and (down,down) = 0 there; the disconnected term that
   Add_ChiTensor_ZerothOrder adds is the product of the two magnetisations, so
   it vanishes unless the densities of the two spins differ. *)
Theorem C133_szsz : forall chi m n v t,
  calculateChi chi m n v t
  = Cmult (RtoC (1/4))
      (Cminus (Cplus (chi 3%nat m 3%nat n v t) (chi 0%nat m 0%nat n v t))
              (Cplus (chi 3%nat m 0%nat n v t) (chi 0%nat m 3%nat n v t))).
Proof. exact chi_law. Qed.
Print Assumptions C133_szsz.

Theorem C133_disconnected : forall bins G chi m n v t,
  let density s a := lastExtrapolated bins (G s a s a 0%nat) in
  let mz a := Cmult (RtoC (1/2)) (Cminus (density 1%nat a) (density 0%nat a)) in
  calculateChi (addChiZeroth bins G chi) m n v t
  = Cplus (calculateChi chi m n v t) (Cmult (mz m) (mz n)).
Proof. exact chi_zeroth. Qed.
Print Assumptions C133_disconnected.

Example C133_case : calculateChi (fun a _ b _ _ _ => RtoC (INR (a * b))) 0%nat 0%nat 0%nat 0%nat = RtoC (9/4).
Proof. rewrite chi_law. apply injective_projections; cbn; field. Qed.
