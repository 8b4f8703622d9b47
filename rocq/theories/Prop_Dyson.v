(* C125: G_Dyson and W_Dyson solve the Dyson equations in space and time.
   C126: ChiTensor.  C127: when a version fails for a denominator. *)
Require Import Reals List Arith Bool Lra Lia.
From Coquelicot Require Import Complex.
Require Import Verif.PyWeight Verif.PyWeightSpec Verif.Dyson Verif.DysonSpec
  Verif.P_PyWeight Verif.P_Dyson Verif.P_Dyson2 Verif.P_Dyson3.
Import ListNotations.
Local Open Scope R_scope.

Theorem C125_g : forall solve n s G0 Sd Sg g0 sd sg g,
  goodSolver solve -> (0 < n)%nat -> proper s -> hasTau s = true ->
  isSymmetric s = false ->
  standsFor s G0 g0 -> standsFor (noTau s) Sd sd -> standsFor s Sg sg ->
  (forall v t, (v < vol s)%nat -> (t < bins s)%nat ->
     invertible n (gDenorm n s (pData (fftPlain s toKW G0))
        (pData (fftPlain (noTau s) toKonly Sd)) (pData (fftPlain s toKW Sg)) v t)) ->
  standsFor s (gDyson solve n s G0 Sd Sg) g ->
  gEquation n s g0 sd sg g /\
  (forall y, gEquation n s g0 sd sg y -> sameIn n s y g).
Proof.
  intros solve n s G0 Sd Sg g0 sd sg g Hs Hn P T A H0 Hd Hg Hi Hx.
  pose proof (fun y => g_law solve n s Hn P T (Hs n) G0 Sd Sg g0 sd sg g y
                H0 Hd Hg A Hi Hx) as L.
  split; [apply (L g)|intros y; apply (L y)].
Qed.
Print Assumptions C125_g.

Example C125_g_case :
  proper a1 /\ hasTau a1 = true /\ isSymmetric a1 = false /\
  standsFor a1 onesP ones /\ standsFor (noTau a1) onesP ones /\
  (forall v t, (v < vol a1)%nat -> (t < bins a1)%nat ->
     invertible 1 (gDenorm 1 a1 (pData (fftPlain a1 toKW onesP))
       (pData (fftPlain (noTau a1) toKonly onesP)) (pData (fftPlain a1 toKW onesP)) v t)) /\
  exists g, standsFor a1 (gDyson someSolver 1 a1 onesP onesP onesP) g.
Proof.
  split; [exact a1_proper|]. split; [reflexivity|]. split; [reflexivity|].
  split; [apply ones_stand|]. split; [apply ones_stand|].
  split; [exact a1_inv|]. apply stands_exists. exact a1_proper.
Qed.

Theorem C125_w : forall solve n s W0 Po w0 p w,
  goodSolver solve -> (0 < n)%nat -> proper s -> hasTau s = true ->
  isSymmetric s = true ->
  standsFor (noTau s) W0 w0 -> standsFor s Po p ->
  (forall v t, (v < vol s)%nat -> (t < bins s)%nat ->
     invertible n (wDenorm n s (pData (fftPlain (noTau s) toKonly W0))
                     (pData (fftPlain s toKW Po)) v t)) ->
  standsFor s (fst (wDyson solve n s W0 Po)) w ->
  wEquation n s w0 p w /\
  (forall y, wEquation n s w0 p y -> sameIn n s y w).
Proof.
  intros solve n s W0 Po w0 p w Hs Hn P T A H0 Hp Hi Hx.
  pose proof (fun y => w_law solve n s Hn P T (Hs n) W0 Po w0 p w y
                H0 Hp A Hi Hx) as L.
  split; [apply (L w)|intros y; apply (L y)].
Qed.
Print Assumptions C125_w.

(* There is a solver; W0 and Polar between two sublattices. *)
Example C125_case :
  goodSolver someSolver /\ proper s1 /\ standsFor (noTau s1) W01 w01 /\
  standsFor s1 P11 p11 /\
  (forall v t, (v < vol s1)%nat -> (t < bins s1)%nat ->
     invertible 8 (wDenorm 8 s1 (pData (fftPlain (noTau s1) toKonly W01))
                     (pData (fftPlain s1 toKW P11)) v t)) /\
  exists w, standsFor s1 (fst (wDyson someSolver 8 s1 W01 P11)) w.
Proof.
  split; [exact someSolver_good|]. split; [exact s1_proper|].
  split; [exact W01_stands|]. split; [exact P11_stands|].
  split; [exact s1_inv|]. apply stands_exists. exact s1_proper.
Qed.

(* What ChiTensor solves. *)
Theorem C126_chi : forall solve n s W0 Po w0 p chi,
  goodSolver solve -> (0 < n)%nat -> proper s -> hasTau s = true ->
  isSymmetric s = true ->
  standsFor (noTau s) W0 w0 -> standsFor s Po p ->
  (forall v t, (v < vol s)%nat -> (t < bins s)%nat ->
     invertible n (wDenorm n s (pData (fftPlain (noTau s) toKonly W0))
                     (pData (fftPlain s toKW Po)) v t)) ->
  standsFor s (snd (wDyson solve n s W0 Po)) chi ->
  chiEquation n s w0 p chi /\
  (forall y, chiEquation n s w0 p y -> sameIn n s y chi).
Proof.
  intros solve n s W0 Po w0 p w Hs Hn P T A H0 Hp Hi Hx.
  pose proof (fun y => chi_law solve n s Hn P T (Hs n) W0 Po w0 p w y
                H0 Hp A Hi Hx) as L.
  split; [apply (L w)|intros y; apply (L y)].
Qed.
Print Assumptions C126_chi.

(* That it is the sum of the chains P, P*W0*P, ... is false. *)
Theorem C126_chain_refuted :
  exists n s W0 Po w0 p,
    proper s /\ hasTau s = true /\ isSymmetric s = true /\
    standsFor (noTau s) W0 w0 /\ standsFor s Po p /\
    (forall v t, (v < vol s)%nat -> (t < bins s)%nat ->
       invertible n (wDenorm n s (pData (fftPlain (noTau s) toKonly W0))
                       (pData (fftPlain s toKW Po)) v t)) /\
    forall solve chi, goodSolver solve ->
      standsFor s (snd (wDyson solve n s W0 Po)) chi ->
      ~ chainEquation n s w0 p chi.
Proof.
  exists 8%nat, s1, W01, P11, w01, p11.
  split; [exact s1_proper|]. split; [reflexivity|]. split; [reflexivity|].
  split; [exact W01_stands|]. split; [exact P11_stands|].
  split; [exact s1_inv|]. exact chi_apart.
Qed.
Print Assumptions C126_chain_refuted.

(* Check_Denorminator looks at the smallest determinant only, in numpy's order
   of complex numbers. *)
Theorem C127_check : forall d ds, checkFails d ds = true <->
  exists m, In m (d :: ds) /\ (forall y, In y (d :: ds) -> lexLe m y) /\
            fst m < 0 /\ snd m < 1e-4.
Proof. exact check_spec. Qed.
Print Assumptions C127_check.

(* For real determinants: whether one is negative. *)
Theorem C127_real : forall d ds, (forall y, In y (d :: ds) -> snd y = 0) ->
  (checkFails d ds = true <-> exists y, In y (d :: ds) /\ fst y < 0).
Proof. exact check_real. Qed.
Print Assumptions C127_real.

Example C127_case :
  (forall y, In y [RtoC 1; RtoC (-1)] -> snd y = 0) /\
  (exists y, In y [RtoC 1; RtoC (-1)] /\ fst y < 0).
Proof.
  split; [intros y [<-|[<-|[]]]; reflexivity|].
  exists (RtoC (-1)). split; [right; left; reflexivity|cbn; lra].
Qed.

(* That a denominator at zero, or a negative one, fails the version is false. *)
Theorem C127_zero_refuted :
  (exists d ds, In (RtoC 0) (d :: ds) /\ checkFails d ds = false) /\
  (exists d ds, In (RtoC (-1)) (d :: ds) /\ checkFails d ds = false).
Proof.
  split.
  - exists (RtoC 1), [RtoC 0]. split; [right; left; reflexivity|].
    destruct (checkFails (RtoC 1) [RtoC 0]) eqn:E; [|reflexivity].
    apply check_spec in E. destruct E as (m & [<-|[<-|[]]] & _ & H & _); cbn in H; lra.
  - exists (RtoC (-1)), [(-2, 1)]. split; [now left|].
    destruct (checkFails (RtoC (-1)) [(-2, 1)]) eqn:E; [|reflexivity].
    apply check_spec in E. destruct E as (m & [<-|[<-|[]]] & M & _ & H).
    + specialize (M (-2, 1) (or_intror (or_introl eq_refl))).
      unfold lexLe in M. cbn in M. lra.
    + cbn in H. lra.
Qed.
Print Assumptions C127_zero_refuted.
