(** Proofs about the susceptibility from the three-point function. *)
Require Import Reals List Arith Bool ZArith Lia Lra.
From Coquelicot Require Import Complex.
Require Import Verif.PyWeight Verif.Dyson Verif.DysonSpec Verif.FirstOrder Verif.Vertex Verif.BKChi Verif.BKChiSpec Verif.P_Fourier Verif.P_TwoW Verif.P_Vertex2.
Import ListNotations.
Local Open Scope nat_scope.

(** Transforms act on each index apart *)
Lemma kw_index s x i k m : pData (fftPlain s toKW (Plain x false false)) i k m = scalarKW s (x i) k m.
Proof.
  unfold scalarKW, fftPlain, fftWith, toKW. cbn. unfold timeFwd, extraPhase, changeSymmetry, spaceFwd.
  destruct (hasTau s); cbn; [destruct (isSymmetric s || _); reflexivity | reflexivity].
Qed.
Lemma k_index s x i k : pData (fftPlain (noTau s) toKonly (Plain x false false)) i k 0 = scalarK s (fun r => x i r 0) k.
Proof. reflexivity. Qed.

Lemma kw_ext s x y k m : (forall r t, r < vol s -> t < bins s -> x r t = y r t) -> m < bins s ->
  scalarKW s x k m = scalarKW s y k m.
Proof.
  intros H Hm. unfold scalarKW, fftPlain, fftWith, toKW. cbn. unfold timeFwd, extraPhase, changeSymmetry, spaceFwd.
  destruct (hasTau s); cbn.
  - f_equal. unfold fft. apply csum_ext. intros t Ht. f_equal.
    destruct (isSymmetric s || false); [|f_equal]; apply fftn_ext; intros r Hr; now apply H.
  - apply fftn_ext. intros r Hr. now apply H.
Qed.
Lemma kw_zero s k m : scalarKW s (fun _ _ => RtoC 0) k m = RtoC 0.
Proof.
  assert (Z : forall L k, fftn L (fun _ => RtoC 0) k = RtoC 0).
  { intros L q. unfold fftn. rewrite (csum_ext _ _ (fun _ => RtoC 0)) by (intros; ring). apply csum_zero. }
  unfold scalarKW, fftPlain, fftWith, toKW. cbn. unfold timeFwd, extraPhase, changeSymmetry, spaceFwd.
  destruct (hasTau s); cbn; [|apply Z].
  unfold fft. rewrite (csum_ext _ _ (fun _ => RtoC 0)); [rewrite csum_zero; ring|].
  intros t _. destruct (isSymmetric s || false); rewrite Z; ring.
Qed.
Lemma kw_minus s x y k m : scalarKW s (fun r t => Cminus (x r t) (y r t)) k m = Cminus (scalarKW s x k m) (scalarKW s y k m).
Proof.
  assert (Z : forall L u w k, fftn L (fun r => Cminus (u r) (w r)) k = Cminus (fftn L u k) (fftn L w k)).
  { intros L u w q. unfold fftn. rewrite (csum_ext _ _ (fun r => Cplus (Cmult (u r) (cis (- (2 * PI * dotOver L (coords L q) (coords L r)))))
      (Cmult (RtoC (-1)) (Cmult (w r) (cis (- (2 * PI * dotOver L (coords L q) (coords L r)))))))).
    - rewrite csum_plus, csum_scal. rewrite minus1. ring.
    - intros r _. rewrite minus1. ring. }
  unfold scalarKW, fftPlain, fftWith, toKW. cbn. unfold timeFwd, extraPhase, changeSymmetry, spaceFwd.
  destruct (hasTau s); cbn; [|apply Z].
  unfold fft.
  match goal with |- Cmult (csum _ ?f) ?e = Cminus (Cmult (csum _ ?g) _) (Cmult (csum _ ?h) _) =>
    rewrite (csum_ext _ f (fun t => Cplus (g t) (Cmult (RtoC (-1)) (h t)))) end.
  - rewrite csum_plus, csum_scal, minus1. ring.
  - intros t _. rewrite minus1. destruct (isSymmetric s || false); rewrite Z; ring.
Qed.
Lemma k_opp s x k : scalarK s (fun r => Copp (x r)) k = Copp (scalarK s x k).
Proof.
  unfold scalarK. cbn. unfold spaceFwd. cbn.
  unfold fftn. rewrite (csum_ext _ _ (fun r => Cmult (RtoC (-1)) (Cmult (x r) (cis (- (2 * PI * dotOver (dims s) (coords (dims s) k) (coords (dims s) r))))))).
  - rewrite csum_scal, minus1. ring.
  - intros r _. rewrite minus1. ring.
Qed.
Lemma k_ext s x y k : (forall r, r < vol s -> x r = y r) -> scalarK s x k = scalarK s y k.
Proof. intros H. unfold scalarK. cbn. unfold spaceFwd. cbn. apply fftn_ext. exact H. Qed.
Lemma k_zero s k : scalarK s (fun _ => RtoC 0) k = RtoC 0.
Proof.
  unfold scalarK. cbn. unfold spaceFwd, fftn. cbn.
  rewrite (csum_ext _ _ (fun _ => RtoC 0)) by (intros; ring). apply csum_zero.
Qed.

(** Sz does not mix with the other two pairs of spins: 0 is DOWN DOWN, 3 is UP UP *)
Definition blocks (p : matrix) : Prop :=
  p 0 1 = RtoC 0 /\ p 0 2 = RtoC 0 /\ p 3 1 = RtoC 0 /\ p 3 2 = RtoC 0 /\
  p 1 0 = RtoC 0 /\ p 2 0 = RtoC 0 /\ p 1 3 = RtoC 0 /\ p 2 3 = RtoC 0.

Definition chiM (X : matrix) : C :=
  Cmult (RtoC (1 / 4)) (Cplus (Cminus (X 3 3) (X 3 0)) (Cminus (X 0 0) (X 0 3))).
Lemma chi_m x k m : chiOne x k m = chiM (el 4 (pData x) k m).
Proof.
  unfold chiOne, calculateChi, chiM, szsz. cbn.
  replace (-1 / 4)%R with (- (1 / 4))%R by field. replace (0 / 4)%R with 0%R by field.
  rewrite RtoC_opp. ring.
Qed.

Lemma sz_law (w p D X : matrix) (c J a b : C) :
  (forall i j, D i j = Cminus (eye i j) (Cmult (csum 4 (fun l => Cmult (w i l) (p l j))) c)) ->
  w 3 3 = J -> w 0 0 = J -> w 3 0 = Copp J -> w 0 3 = Copp J ->
  w 3 1 = RtoC 0 -> w 3 2 = RtoC 0 -> w 0 1 = RtoC 0 -> w 0 2 = RtoC 0 ->
  blocks p -> p 3 3 = a -> p 0 0 = a -> p 3 0 = b -> p 0 3 = b ->
  solves 4 D (fun i j => Copp (p i j)) X ->
  Cmult (Cminus (RtoC 1) (Cmult (RtoC 2) (Cmult (Cmult J (Cminus a b)) c))) (chiM X) =
  Cmult (RtoC (- (1 / 2))) (Cminus a b).
Proof.
  intros HD W1 W2 W3 W4 W5 W6 W7 W8 (B1 & B2 & B3 & B4 & B5 & B6 & B7 & B8) P1 P2 P3 P4 S.
  assert (E : forall j, j < 4 ->
    Cmult (Cminus (RtoC 1) (Cmult (RtoC 2) (Cmult (Cmult J (Cminus a b)) c))) (Cminus (X 3 j) (X 0 j)) =
    Cminus (p 0 j) (p 3 j)).
  { intros j Hj. pose proof (S 3 j ltac:(lia) Hj) as S3. pose proof (S 0 j ltac:(lia) Hj) as S0.
    cbn [csum] in S3, S0. rewrite !HD in S3, S0. cbn [csum eye Nat.eqb] in S3, S0.
    rewrite ?W1, ?W2, ?W3, ?W4, ?W5, ?W6, ?W7, ?W8, ?B1, ?B2, ?B3, ?B4, ?B5, ?B6, ?B7, ?B8, ?P1, ?P2, ?P3, ?P4 in S3, S0.
    transitivity (Cminus (Copp (p 3 j)) (Copp (p 0 j))); [|ring].
    rewrite <- S3, <- S0. unfold eye. cbn [Nat.eqb]. replace (RtoC 2) with (Cplus (RtoC 1) (RtoC 1)) by (rewrite <- RtoC_plus; f_equal; ring).
    rewrite ?W1, ?W2, ?W3, ?W4, ?W5, ?W6, ?W7, ?W8. ring. }
  pose proof (E 3 ltac:(lia)) as E3. pose proof (E 0 ltac:(lia)) as E0.
  rewrite P1, P4 in E3. rewrite P2, P3 in E0.
  unfold chiM. set (q := Cminus (RtoC 1) _) in *.
  transitivity (Cmult (RtoC (1 / 4)) (Cminus (Cmult q (Cminus (X 3 3) (X 0 3))) (Cmult q (Cminus (X 3 0) (X 0 0))))).
  { ring. }
  rewrite E3, E0. replace (- (1 / 2))%R with (- (1/4 + 1/4))%R by field. rewrite RtoC_opp, RtoC_plus. ring.
Qed.

(** The factor is not zero when the matrix has an inverse *)
Lemma sz_regular (w p D : matrix) (c J a b : C) :
  (forall i j, D i j = Cminus (eye i j) (Cmult (csum 4 (fun l => Cmult (w i l) (p l j))) c)) ->
  w 3 3 = J -> w 0 0 = J -> w 3 0 = Copp J -> w 0 3 = Copp J ->
  w 3 1 = RtoC 0 -> w 3 2 = RtoC 0 -> w 0 1 = RtoC 0 -> w 0 2 = RtoC 0 ->
  blocks p -> p 3 3 = a -> p 0 0 = a -> p 3 0 = b -> p 0 3 = b ->
  invertible 4 D ->
  Cminus (RtoC 1) (Cmult (RtoC 2) (Cmult (Cmult J (Cminus a b)) c)) <> RtoC 0.
Proof.
  intros HD W1 W2 W3 W4 W5 W6 W7 W8 (B1 & B2 & B3 & B4 & B5 & B6 & B7 & B8) P1 P2 P3 P4 (V & HV & _) Z.
  pose proof (HV 3 3 ltac:(lia) ltac:(lia)) as S3. pose proof (HV 0 3 ltac:(lia) ltac:(lia)) as S0.
  cbn [csum] in S3, S0. rewrite !HD in S3, S0. unfold eye in S3, S0. cbn [csum Nat.eqb] in S3, S0.
  rewrite ?W1, ?W2, ?W3, ?W4, ?W5, ?W6, ?W7, ?W8, ?B1, ?B2, ?B3, ?B4, ?B5, ?B6, ?B7, ?B8, ?P1, ?P2, ?P3, ?P4 in S3, S0.
  assert (F : Cmult (Cminus (RtoC 1) (Cmult (RtoC 2) (Cmult (Cmult J (Cminus a b)) c))) (Cminus (V 3 3) (V 0 3)) = RtoC 1).
  { match type of S3 with ?l = _ => match type of S0 with ?m = _ =>
      transitivity (Cminus l m); [clear S3 S0|rewrite S3, S0; ring] end end.
    replace (RtoC 2) with (Cplus (RtoC 1) (RtoC 1)) by (rewrite <- RtoC_plus; f_equal; ring).
    rewrite ?W1, ?W2, ?W3, ?W4, ?W5, ?W6, ?W7, ?W8. ring. }
  rewrite Z in F. assert (RtoC 0 = RtoC 1) as Q by (rewrite <- F; ring). injection Q. lra.
Qed.

(** A polarization that is the same for both spins and keeps Sz apart *)
Definition szPolar (s : shape) (y : data) (a b : nat -> nat -> C) : Prop :=
  forall r t, r < vol s -> t < bins s ->
  y 15 r t = a r t /\ y 0 r t = a r t /\ y 12 r t = b r t /\ y 3 r t = b r t /\
  (forall i, In i [1; 2; 13; 14; 4; 8; 7; 11] -> y i r t = RtoC 0).

Section Law.
Variables (solve : nat -> matrix -> matrix -> matrix) (s : shape) (x y : data) (a b : nat -> nat -> C) (k m : nat).
Hypothesis good : goodSolver solve.
Hypothesis Hm : m < bins s.
Hypothesis HW : szForm s x.
Hypothesis HP : szPolar s y a b.
Let w0 := pData (fftPlain (noTau s) toKonly (Plain x false false)).
Let p := pData (fftPlain s toKW (Plain y false false)).
Hypothesis inv : invertible 4 (wDenorm 4 s w0 p k m).

Let J := scalarK s (fun r => x 15 r 0) k.
Let d := scalarKW s (fun r t => Cminus (a r t) (b r t)) k m.
Let c := Cmult (RtoC (step s)) (RtoC (cos (INR m * PI / INR (bins s)))).
Let X := el 4 (ofMatrix 4 (fun k m => solve 4 (wDenorm 4 s w0 p k m) (fun a b => Copp (el 4 p k m a b)))) k m.

Lemma law_w i j v : i * 4 + j = v -> el 4 w0 k 0 i j = scalarK s (fun r => x v r 0) k.
Proof. intros <-. unfold el, w0. apply k_index. Qed.
Lemma law_p i j v : i * 4 + j = v -> el 4 p k m i j = scalarKW s (y v) k m.
Proof. intros <-. unfold el, p. apply kw_index. Qed.
Lemma law_p0 i j v : i * 4 + j = v -> In v [1; 2; 13; 14; 4; 8; 7; 11] -> el 4 p k m i j = RtoC 0.
Proof.
  intros E H. rewrite (law_p i j v E). rewrite <- (kw_zero s k m). apply kw_ext; [|exact Hm].
  intros r t Hr Ht. destruct (HP r t Hr Ht) as (_ & _ & _ & _ & Z). now apply Z.
Qed.

Lemma law_all :
  Cminus (RtoC 1) (Cmult (RtoC 2) (Cmult (Cmult J d) c)) <> RtoC 0 /\
  Cmult (Cminus (RtoC 1) (Cmult (RtoC 2) (Cmult (Cmult J d) c))) (chiM X) = Cmult (RtoC (- (1 / 2))) d.
Proof.
  set (A := scalarKW s a k m). set (B := scalarKW s b k m).
  assert (Ed : d = Cminus A B) by apply kw_minus. rewrite Ed.
  assert (PA : forall v i j, i * 4 + j = v -> (forall r t, r < vol s -> t < bins s -> y v r t = a r t) -> el 4 p k m i j = A).
  { intros v i j E H. rewrite (law_p i j v E). now apply kw_ext. }
  assert (PB : forall v i j, i * 4 + j = v -> (forall r t, r < vol s -> t < bins s -> y v r t = b r t) -> el 4 p k m i j = B).
  { intros v i j E H. rewrite (law_p i j v E). now apply kw_ext. }
  assert (WJ : forall v i j, i * 4 + j = v -> (forall r, r < vol s -> x v r 0 = x 15 r 0) -> el 4 w0 k 0 i j = J).
  { intros v i j E H. rewrite (law_w i j v E). now apply k_ext. }
  assert (WN : forall v i j, i * 4 + j = v -> (forall r, r < vol s -> x v r 0 = Copp (x 15 r 0)) -> el 4 w0 k 0 i j = Copp J).
  { intros v i j E H. rewrite (law_w i j v E). unfold J. rewrite <- k_opp. now apply k_ext. }
  assert (WZ : forall v i j, i * 4 + j = v -> (forall r, r < vol s -> x v r 0 = RtoC 0) -> el 4 w0 k 0 i j = RtoC 0).
  { intros v i j E H. rewrite (law_w i j v E). rewrite <- (k_zero s k). now apply k_ext. }
  assert (HD : forall i j, wDenorm 4 s w0 p k m i j =
    Cminus (eye i j) (Cmult (csum 4 (fun l => Cmult (el 4 w0 k 0 i l) (el 4 p k m l j))) c)).
  { intros i j. unfold wDenorm, mm, c. rewrite Cmult_assoc. reflexivity. }
  assert (w33 : el 4 w0 k 0 3 3 = J) by (apply (WJ 15); [reflexivity|intros; reflexivity]).
  assert (w00 : el 4 w0 k 0 0 0 = J) by (apply (WJ 0); [reflexivity|intros r Hr; now destruct (HW r Hr)]).
  assert (w30 : el 4 w0 k 0 3 0 = Copp J) by (apply (WN 12); [reflexivity|intros r Hr; apply (HW r Hr)]).
  assert (w03 : el 4 w0 k 0 0 3 = Copp J) by (apply (WN 3); [reflexivity|intros r Hr; apply (HW r Hr)]).
  assert (w31 : el 4 w0 k 0 3 1 = RtoC 0) by (apply (WZ 13); [reflexivity|intros r Hr; apply (HW r Hr)]).
  assert (w32 : el 4 w0 k 0 3 2 = RtoC 0) by (apply (WZ 14); [reflexivity|intros r Hr; apply (HW r Hr)]).
  assert (w01 : el 4 w0 k 0 0 1 = RtoC 0) by (apply (WZ 1); [reflexivity|intros r Hr; apply (HW r Hr)]).
  assert (w02 : el 4 w0 k 0 0 2 = RtoC 0) by (apply (WZ 2); [reflexivity|intros r Hr; apply (HW r Hr)]).
  assert (p33 : el 4 p k m 3 3 = A) by (apply (PA 15); [reflexivity|intros r t Hr Ht; apply (HP r t Hr Ht)]).
  assert (p00 : el 4 p k m 0 0 = A) by (apply (PA 0); [reflexivity|intros r t Hr Ht; apply (HP r t Hr Ht)]).
  assert (p30 : el 4 p k m 3 0 = B) by (apply (PB 12); [reflexivity|intros r t Hr Ht; apply (HP r t Hr Ht)]).
  assert (p03 : el 4 p k m 0 3 = B) by (apply (PB 3); [reflexivity|intros r t Hr Ht; apply (HP r t Hr Ht)]).
  assert (bl : blocks (el 4 p k m)).
  { unfold blocks. repeat split.
    - apply (law_p0 0 1 1); [reflexivity|cbn; tauto].
    - apply (law_p0 0 2 2); [reflexivity|cbn; tauto].
    - apply (law_p0 3 1 13); [reflexivity|cbn; tauto].
    - apply (law_p0 3 2 14); [reflexivity|cbn; tauto].
    - apply (law_p0 1 0 4); [reflexivity|cbn; tauto].
    - apply (law_p0 2 0 8); [reflexivity|cbn; tauto].
    - apply (law_p0 1 3 7); [reflexivity|cbn; tauto].
    - apply (law_p0 2 3 11); [reflexivity|cbn; tauto]. }
  split.
  - apply (sz_regular (el 4 w0 k 0) (el 4 p k m) _ c J A B HD); assumption.
  - apply (sz_law (el 4 w0 k 0) (el 4 p k m) _ X c J A B HD); try assumption.
    intros i j Hi Hj. rewrite <- (good 4 _ (fun i j => Copp (el 4 p k m i j)) inv i j Hi Hj).
    apply csum_ext. intros l Hl. f_equal. unfold X, el at 1, ofMatrix.
    rewrite Nat.div_add_l, (Nat.div_small j 4), Nat.add_0_r by lia.
    rewrite Nat.add_comm, Nat.mod_add, Nat.mod_small by lia. reflexivity.
Qed.
End Law.

Lemma bk_polar s v : szPolar s (bkPolar v) (fun r t => v UP r t t) (fun r t => v DOWN r t t).
Proof.
  intros r t _ _. repeat split. intros i H. cbn in H.
  repeat (destruct H as [<-|H]; [reflexivity|]). contradiction.
Qed.

(** Polar_FirstOrder on one sublattice *)
Lemma polar_one N G i r t : polarOne N G i r t =
  csum 2 (fun s1 => csum 2 (fun s2 =>
    if (i =? (s1 * 2 + s2) * 4 + (s2 * 2 + s1)) then
      Copp (Cmult (G s1 0 s1 0 r (N - 1 - t)) (G s2 0 s2 0 r t)) else RtoC 0)) \/ 16 <= i.
Proof.
  destruct (Nat.lt_ge_cases i 16) as [H|H]; [left|now right].
  unfold polarOne, polarFirst. cbn [fold_left spinPairs list_prod seq map app fst snd].
  replace ((-1) * (-1) * (-1))%R with (-1)%R by ring. rewrite minus1.
  unfold addSub. generalize (N - 1 - t). intros u.
  do 16 (destruct i as [|i]; [cbn; unfold zeroArr; ring|]). lia.
Qed.

Lemma first_polar s G :
  (forall t, t < bins s -> G UP 0 UP 0 0 t = G DOWN 0 DOWN 0 0 t) ->
  (forall p r t, 0 < r -> r < vol s -> t < bins s -> G p 0 p 0 r t = RtoC 0) ->
  szPolar s (polarOne (bins s) G) (fun r t => simpleGG (bins s) (lineOf G) UP r t t)
                                  (fun r t => simpleGG (bins s) (lineOf G) DOWN r t t).
Proof.
  intros HS HL r t Hr Ht.
  assert (V : forall i, i < 16 -> polarOne (bins s) G i r t = csum 2 (fun s1 => csum 2 (fun s2 =>
    if (i =? (s1 * 2 + s2) * 4 + (s2 * 2 + s1)) then
      Copp (Cmult (G s1 0 s1 0 r (bins s - 1 - t)) (G s2 0 s2 0 r t)) else RtoC 0))).
  { intros i Hi. destruct (polar_one (bins s) G i r t); [assumption|lia]. }
  assert (Q : forall p, p = UP \/ p = DOWN -> Copp (Cmult (G p 0 p 0 r (bins s - 1 - t)) (G p 0 p 0 r t)) =
    simpleGG (bins s) (lineOf G) UP r t t).
  { intros p Hp. unfold simpleGG, lineOf, folded. cbn [Nat.eqb UP andb].
    replace (- Z.of_nat t - 1 <? 0)%Z with true by (symmetry; apply Z.ltb_lt; lia).
    replace (Z.to_nat (- Z.of_nat t - 1 + Z.of_nat (bins s))) with (bins s - 1 - t) by lia.
    destruct (Nat.eqb_spec r 0) as [->|R].
    - destruct Hp as [E|E]; subst p; [|rewrite <- !HS by lia]; change 1 with UP; ring.
    - rewrite (HL p r t) by lia. ring. }
  split; [|split; [|split; [|split]]].
  - rewrite V by lia. cbn -[Nat.sub simpleGG]. rewrite <- (Q UP) by auto. change 1 with UP. unfold UP. ring.
  - rewrite V by lia. cbn -[Nat.sub simpleGG]. rewrite <- (Q DOWN) by auto. unfold DOWN. ring.
  - rewrite V by lia. cbn -[Nat.sub]. ring.
  - rewrite V by lia. cbn -[Nat.sub]. ring.
  - intros i H. cbn in H. repeat (destruct H as [<-|H]; [rewrite V by lia; cbn -[Nat.sub]; ring|]). contradiction.
Qed.
