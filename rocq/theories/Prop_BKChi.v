(** * C163: the susceptibility from the three-point function *)
Require Import Reals List Arith Bool ZArith Lia Lra.
From Coquelicot Require Import Complex.
Require Import Verif.PyWeight Verif.Dyson Verif.DysonSpec Verif.FirstOrder Verif.Vertex Verif.BKChi Verif.BKChiSpec Verif.P_Dyson3 Verif.P_BKChi2.
Import ListNotations.
Local Open Scope nat_scope.

(** At each momentum and frequency BKChi is -d/2 over 1-2Jd, with d the difference of the two spins of the
    three-point function at equal times, J the Sz coupling and the time step with its phase. *)
Theorem C163_sz : forall solve s x v k m, goodSolver solve -> m < bins s -> szForm s x ->
  invertible 4 (wDenorm 4 s (pData (fftPlain (noTau s) toKonly (Plain x false false)))
                            (pData (fftPlain s toKW (Plain (bkPolar v) false false))) k m) ->
  let J := scalarK s (fun r => x 15 r 0) k in
  let d := scalarKW s (fun r t => Cminus (v UP r t t) (v DOWN r t t)) k m in
  let f := Cminus (RtoC 1) (Cmult (RtoC 2) (Cmult (Cmult J d)
             (Cmult (RtoC (beta s / INR (bins s))) (RtoC (cos (INR m * PI / INR (bins s))))))) in
  f <> RtoC 0 /\ chiOne (bkChiTensor solve s (Plain x false false) v) k m = Cdiv (Cmult (RtoC (- (1 / 2))) d) f.
Proof. exact bk_law. Qed.
Print Assumptions C163_sz.

(** Without interaction lines in the three-point function, with a local G that is the same for both spins:
    the polarization between UP UP and DOWN DOWN is the one of Polar_FirstOrder ... *)
Theorem C163_polar : forall N V G i r t,
  (forall t, t < N -> G UP 0 UP 0 0 t = G DOWN 0 DOWN 0 0 t) ->
  (forall p r t, 0 < r -> r < V -> t < N -> G p 0 p 0 r t = RtoC 0) ->
  r < V -> t < N -> In i [15; 0; 12; 3] ->
  bkPolar (simpleGG N (lineOf G)) i r t = polarOne N G i r t.
Proof. exact first_entries. Qed.
Print Assumptions C163_polar.

(** ... and BKChi is the Chi of W_Dyson. *)
Theorem C163_first : forall solve s x G k m, goodSolver solve -> m < bins s -> szForm s x ->
  (forall t, t < bins s -> G UP 0 UP 0 0 t = G DOWN 0 DOWN 0 0 t) ->
  (forall p r t, 0 < r -> r < vol s -> t < bins s -> G p 0 p 0 r t = RtoC 0) ->
  invertible 4 (wDenorm 4 s (pData (fftPlain (noTau s) toKonly (Plain x false false)))
       (pData (fftPlain s toKW (Plain (bkPolar (simpleGG (bins s) (lineOf G))) false false))) k m) ->
  invertible 4 (wDenorm 4 s (pData (fftPlain (noTau s) toKonly (Plain x false false)))
       (pData (fftPlain s toKW (Plain (polarOne (bins s) G) false false))) k m) ->
  chiOne (bkChiTensor solve s (Plain x false false) (simpleGG (bins s) (lineOf G))) k m =
  chiOne (snd (wDyson solve 4 s (Plain x false false) (Plain (polarOne (bins s) G) false false))) k m.
Proof. exact first_law. Qed.
Print Assumptions C163_first.

(** Two sites with an Ising coupling meet the hypotheses; BKChi is 1/9 there. *)
Example C163_case :
  goodSolver someSolver /\ szForm s2 x2 /\
  invertible 4 (wDenorm 4 s2 (pData (fftPlain (noTau s2) toKonly (Plain x2 false false)))
       (pData (fftPlain s2 toKW (Plain (polarOne (bins s2) G2) false false))) 0 0) /\
  chiOne (bkChiTensor someSolver s2 (Plain x2 false false) (simpleGG (bins s2) (lineOf G2))) 0 0 = RtoC (1 / 9).
Proof.
  split; [exact someSolver_good|]. split; [exact x2_form|]. split; [exact inv_first|].
  destruct (bk_law someSolver s2 x2 (simpleGG (bins s2) (lineOf G2)) 0 0 someSolver_good ltac:(cbn; lia) x2_form inv_bk) as [N E].
  rewrite E. revert N. rewrite k2, kw2. cbn [bins s2 beta].
  unfold simpleGG, lineOf, G2, folded, UP, DOWN, x2. change (- Z.of_nat 0 - 1 <? 0)%Z with true.
  cbn [Nat.eqb andb orb]. replace (INR 0 * PI / INR 1)%R with 0%R by (cbn; field). rewrite cos_0.
  replace (1 / INR 1)%R with 1%R by (cbn; field). unfold Cminus.
  repeat (rewrite <- RtoC_opp || rewrite <- RtoC_mult || rewrite <- RtoC_plus). intros N.
  rewrite <- RtoC_div by (intros Z; apply N; now rewrite Z). f_equal. field.
Qed.

(** In a field the two spins differ, and the DOWN DOWN element is that of UP UP. *)
Theorem C163_field_refuted : exists N G t,
  (forall p r t, 0 < r -> G p 0 p 0 r t = RtoC 0) /\ t < N /\
  bkPolar (simpleGG N (lineOf G)) 0 0 t <> polarOne N G 0 0 t.
Proof.
  exists 1, (fun p _ _ _ r _ => if (p =? 1) && (r =? 0) then RtoC 1 else RtoC 0), 0.
  split; [intros p r t H; destruct r; [lia|]; now rewrite andb_false_r|]. split; [lia|].
  unfold polarOne, bkPolar, setBlock, polarFirst, addSub, simpleGG, lineOf, folded, zeroArr. cbn.
  intros H. injection H. lra.
Qed.
Print Assumptions C163_field_refuted.

(** With hopping G reaches other sites, which the three-point function leaves out. *)
Theorem C163_hopping_refuted : exists N G r t,
  (forall r t, G UP 0 UP 0 r t = G DOWN 0 DOWN 0 r t) /\ t < N /\
  bkPolar (simpleGG N (lineOf G)) 15 r t <> polarOne N G 15 r t.
Proof.
  exists 1, (fun _ _ _ _ _ _ => RtoC 1), 1, 0. split; [reflexivity|]. split; [lia|].
  unfold polarOne, bkPolar, setBlock, polarFirst, addSub, simpleGG, lineOf, folded, zeroArr. cbn.
  intros H. injection H. lra.
Qed.
Print Assumptions C163_hopping_refuted.
