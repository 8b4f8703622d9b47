(** The susceptibility from the three-point function: the theorems and a case. *)
Require Import Reals List Arith Bool ZArith Lia Lra.
From Coquelicot Require Import Complex.
Require Import Verif.PyWeight Verif.Dyson Verif.DysonSpec Verif.FirstOrder Verif.Vertex Verif.BKChi Verif.BKChiSpec Verif.P_Fourier Verif.P_TwoW Verif.P_Vertex2 Verif.P_BKChi.
Import ListNotations.
Local Open Scope nat_scope.

Lemma bk_law solve s x v k m : goodSolver solve -> m < bins s -> szForm s x ->
  invertible 4 (wDenorm 4 s (pData (fftPlain (noTau s) toKonly (Plain x false false)))
                            (pData (fftPlain s toKW (Plain (bkPolar v) false false))) k m) ->
  let J := scalarK s (fun r => x 15 r 0) k in
  let d := scalarKW s (fun r t => Cminus (v UP r t t) (v DOWN r t t)) k m in
  let f := Cminus (RtoC 1) (Cmult (RtoC 2) (Cmult (Cmult J d)
             (Cmult (RtoC (beta s / INR (bins s))) (RtoC (cos (INR m * PI / INR (bins s))))))) in
  f <> RtoC 0 /\ chiOne (bkChiTensor solve s (Plain x false false) v) k m = Cdiv (Cmult (RtoC (- (1 / 2))) d) f.
Proof.
  intros good Hm HW inv J d f.
  destruct (law_all solve s x (bkPolar v) _ _ k m good Hm HW (bk_polar s v) inv) as [N E].
  split; [exact N|]. rewrite chi_m. unfold d. rewrite <- E.
  match goal with |- chiM ?X = Cdiv (Cmult ?g (chiM ?Y)) f => change X with Y; change g with f; generalize (chiM Y) end.
  intros z. field. exact N.
Qed.

Lemma first_law solve s x G k m : goodSolver solve -> m < bins s -> szForm s x ->
  (forall t, t < bins s -> G UP 0 UP 0 0 t = G DOWN 0 DOWN 0 0 t) ->
  (forall p r t, 0 < r -> r < vol s -> t < bins s -> G p 0 p 0 r t = RtoC 0) ->
  invertible 4 (wDenorm 4 s (pData (fftPlain (noTau s) toKonly (Plain x false false)))
       (pData (fftPlain s toKW (Plain (bkPolar (simpleGG (bins s) (lineOf G))) false false))) k m) ->
  invertible 4 (wDenorm 4 s (pData (fftPlain (noTau s) toKonly (Plain x false false)))
       (pData (fftPlain s toKW (Plain (polarOne (bins s) G) false false))) k m) ->
  chiOne (bkChiTensor solve s (Plain x false false) (simpleGG (bins s) (lineOf G))) k m =
  chiOne (snd (wDyson solve 4 s (Plain x false false) (Plain (polarOne (bins s) G) false false))) k m.
Proof.
  intros good Hm HW HS HL i1 i2.
  destruct (law_all solve s x _ _ _ k m good Hm HW (bk_polar s _) i1) as [N E].
  destruct (law_all solve s x _ _ _ k m good Hm HW (first_polar s G HS HL) i2) as [_ F].
  rewrite !chi_m. cbn beta in E, F. rewrite <- F in E.
  match type of E with Cmult ?f ?a = Cmult _ ?b =>
    assert (Z : a = b) by (transitivity (Cmult (Cinv f) (Cmult f a));
      [field; exact N | rewrite E; field; exact N]) end.
  exact Z.
Qed.

Lemma first_entries N vol' G i r t :
  (forall t, t < N -> G UP 0 UP 0 0 t = G DOWN 0 DOWN 0 0 t) ->
  (forall p r t, 0 < r -> r < vol' -> t < N -> G p 0 p 0 r t = RtoC 0) ->
  r < vol' -> t < N -> In i [15; 0; 12; 3] ->
  bkPolar (simpleGG N (lineOf G)) i r t = polarOne N G i r t.
Proof.
  intros HS HL Hr Ht Hi.
  set (s := Shape true true [vol'] N 1%R).
  assert (Ev : PyWeight.vol s = vol') by (cbn; lia).
  assert (H1 : szPolar s (bkPolar (simpleGG N (lineOf G))) _ _) by apply bk_polar.
  assert (H2 : szPolar s (polarOne (bins s) G) _ _) by (apply first_polar; [exact HS|rewrite Ev; exact HL]).
  destruct (H1 r t) as (A1 & A2 & A3 & A4 & _); [lia|exact Ht|].
  destruct (H2 r t) as (B1 & B2 & B3 & B4 & _); [lia|exact Ht|].
  cbn in Hi. destruct Hi as [<-|[<-|[<-|[<-|[]]]]].
  - rewrite A1. symmetry. exact B1.
  - rewrite A2. symmetry. exact B2.
  - rewrite A3. symmetry. exact B3.
  - rewrite A4. symmetry. exact B4.
Qed.

(** Two sites, one bin; an Ising coupling of the two sites; G is 1/2 *)
Definition s2 : shape := Shape true true [2] 1 1%R.
Definition x2 : data := fun i r _ =>
  if r =? 1 then if (i =? 15) || (i =? 0) then RtoC (1 / 4) else if (i =? 12) || (i =? 3) then RtoC (- (1 / 4)) else RtoC 0 else RtoC 0.
Definition G2 : arr := fun _ _ _ _ r _ => if r =? 0 then RtoC (1 / 2) else RtoC 0.

Lemma cis_zero : cis 0 = RtoC 1.
Proof. unfold cis. rewrite cos_0, sin_0. reflexivity. Qed.
Lemma fftn2 x : fftn [2] x 0 = Cplus (x 0) (x 1).
Proof.
  unfold fftn. cbn -[INR]. replace (- (2 * PI * (INR 0 * INR 0 / INR 2 + 0)))%R with 0%R by (cbn; field).
  replace (- (2 * PI * (INR 0 * INR 1 / INR 2 + 0)))%R with 0%R by (cbn; field). rewrite cis_zero. ring.
Qed.
Lemma k2 x : scalarK s2 x 0 = Cplus (x 0) (x 1).
Proof. unfold scalarK. cbn -[fftn]. unfold spaceFwd. cbn -[fftn]. apply fftn2. Qed.
Lemma kw2 x : scalarKW s2 x 0 0 = Cplus (x 0 0) (x 1 0).
Proof.
  unfold scalarKW. cbn -[fftn INR]. unfold timeFwd, extraPhase, fft, changeSymmetry, spaceFwd. cbn -[fftn INR].
  rewrite fftn2. replace (- (2 * PI * (INR 0 * INR 0 / INR 1)))%R with 0%R by (cbn; field).
  replace (- (1 * PI * INR 0 / INR 1))%R with 0%R by (cbn; field). rewrite cis_zero. ring.
Qed.
Lemma x2_form : szForm s2 x2.
Proof.
  intros r H. destruct r as [|[|r]]; [| |cbn in H; lia]; unfold x2; cbn [Nat.eqb orb];
    rewrite ?RtoC_opp; repeat split; ring.
Qed.

(** I + uu/16 has the inverse I - uu/18, u the difference of UP UP and DOWN DOWN *)
Definition uu (c : R) : matrix := fun i j =>
  Cplus (eye i j) (if (i =? 3) && (j =? 3) || (i =? 0) && (j =? 0) then RtoC c
    else if (i =? 3) && (j =? 0) || (i =? 0) && (j =? 3) then RtoC (- c) else RtoC 0).
Lemma c_eq (a b : R) (z w : C) : z = RtoC a -> w = RtoC b -> a = b -> z = w.
Proof. intros -> -> ->. reflexivity. Qed.
Lemma uu_inv D : (forall i j, i < 4 -> j < 4 -> D i j = uu (1 / 16) i j) -> invertible 4 D.
Proof.
  intros H. exists (uu (- (1 / 18))). split; intros i j Hi Hj.
  - cbn [csum]. rewrite !H by lia.
    destruct i as [|[|[|[|i]]]]; [| | | |lia]; destruct j as [|[|[|[|j]]]]; try lia;
    unfold uu, eye; cbn [Nat.eqb andb orb]; rewrite <- ?RtoC_plus, <- ?RtoC_mult, <- ?RtoC_plus; f_equal; field.
  - cbn [csum]. rewrite !H by lia.
    destruct i as [|[|[|[|i]]]]; [| | | |lia]; destruct j as [|[|[|[|j]]]]; try lia;
    unfold uu, eye; cbn [Nat.eqb andb orb]; rewrite <- ?RtoC_plus, <- ?RtoC_mult, <- ?RtoC_plus; f_equal; field.
Qed.

Lemma D2 y : (forall i, i < 16 -> i <> 9 -> i <> 6 -> Cplus (y i 0 0) (y i 1 0) = RtoC (if (i =? 15) || (i =? 0) then - (1 / 4) else 0)) ->
  forall i j, i < 4 -> j < 4 ->
  wDenorm 4 s2 (pData (fftPlain (noTau s2) toKonly (Plain x2 false false)))
               (pData (fftPlain s2 toKW (Plain y false false))) 0 0 i j = uu (1 / 16) i j.
Proof.
  intros Y i j Hi Hj. unfold wDenorm, mm, step. cbn [bins s2 beta].
  replace (INR 0 * PI / INR 1)%R with 0%R by (cbn; field). rewrite cos_0.
  replace (1 / INR 1)%R with 1%R by (cbn; field).
  unfold el. cbn [csum]. rewrite !k_index, !kw_index, !k2, !kw2.
  destruct i as [|[|[|[|i]]]]; [| | | |lia]; destruct j as [|[|[|[|j]]]]; try lia;
    cbn [Nat.mul Nat.add]; rewrite ?(Y 0), ?(Y 1), ?(Y 2), ?(Y 3), ?(Y 4), ?(Y 5), ?(Y 7), ?(Y 8), ?(Y 10), ?(Y 11), ?(Y 12), ?(Y 13), ?(Y 14), ?(Y 15) by lia; unfold x2, uu, eye; cbn [Nat.eqb andb orb];
    repeat (rewrite Cmult_0_l || rewrite Cmult_0_r || rewrite Cplus_0_l || rewrite Cplus_0_r);
    unfold Cminus; repeat (rewrite <- RtoC_mult || rewrite <- RtoC_plus || rewrite <- RtoC_opp); f_equal; field.
Qed.
Lemma inv_bk : invertible 4 (wDenorm 4 s2 (pData (fftPlain (noTau s2) toKonly (Plain x2 false false)))
       (pData (fftPlain s2 toKW (Plain (bkPolar (simpleGG (bins s2) (lineOf G2))) false false))) 0 0).
Proof.
  apply uu_inv, D2. intros i Hi _ _.
  unfold bkPolar, setBlock, dataZero, simpleGG, lineOf, G2, folded, spin2Index, UP, DOWN.
  change (- Z.of_nat 0 - 1 <? 0)%Z with true.
  do 16 (destruct i as [|i]; [cbn [bins s2 Nat.eqb andb orb Nat.mul Nat.add];
    repeat (rewrite Cplus_0_l || rewrite Cplus_0_r); try reflexivity;
    repeat (rewrite <- RtoC_mult || rewrite <- RtoC_plus || rewrite <- RtoC_opp); f_equal; field|]). lia.
Qed.
Lemma inv_first : invertible 4 (wDenorm 4 s2 (pData (fftPlain (noTau s2) toKonly (Plain x2 false false)))
       (pData (fftPlain s2 toKW (Plain (polarOne (bins s2) G2) false false))) 0 0).
Proof.
  apply uu_inv, D2. intros i Hi H9 H6. cbn [bins s2].
  destruct (polar_one 1 G2 i 0 0) as [->|]; [|lia]. destruct (polar_one 1 G2 i 1 0) as [->|]; [|lia].
  do 16 (destruct i as [|i]; [try lia; cbn -[Rdiv]; unfold G2; cbn -[Rdiv];
    rewrite ?Cplus_0_l, ?Cplus_0_r, ?Cmult_0_l; rewrite <- ?RtoC_mult, <- ?RtoC_opp, <- ?RtoC_plus; f_equal; field|]). lia.
Qed.
