Require Import Reals List Arith Bool Lra Lia.
From Coquelicot Require Import Complex.
Require Import Verif.PyWeight Verif.PyWeightSpec Verif.Dyson Verif.DysonSpec
  Verif.P_Fourier Verif.P_PyWeight Verif.P_PyWeight2 Verif.P_Dyson.
Import ListNotations.
Local Open Scope R_scope.

(* ---- matrices ---- *)
Lemma eye_l n (X : matrix) i j : (i < n)%nat -> csum n (fun l => Cmult (eye i l) (X l j)) = X i j.
Proof.
  intros H. rewrite <- (csum_delta n i (fun l => X l j) H). apply csum_ext. intros l _.
  unfold eye. rewrite (Nat.eqb_sym i l). destruct (Nat.eqb l i); ring.
Qed.

Lemma solves_unique n a b X Y : invertible n a -> solves n a b X -> solves n a b Y ->
  forall i j, (i < n)%nat -> (j < n)%nat -> X i j = Y i j.
Proof.
  intros (V & _ & V2) HX HY i j Hi Hj.
  assert (G : forall Z, solves n a b Z ->
             Z i j = csum n (fun l => Cmult (V i l) (b l j))).
  { intros Z HZ. rewrite <- (eye_l n Z i j Hi).
    rewrite (csum_ext n _ (fun l => csum n (fun p => Cmult (Cmult (V i p) (a p l)) (Z l j)))).
    2:{ intros l Hl. rewrite <- (V2 i l Hi Hl). now rewrite csum_scal_r. }
    rewrite csum_swap. apply csum_ext. intros p Hp.
    rewrite <- (HZ p j Hp Hj), <- csum_scal. apply csum_ext. intros. ring. }
  now rewrite (G X HX), (G Y HY).
Qed.

Lemma idx n a b : (0 < n)%nat -> (b < n)%nat ->
  ((a * n + b) / n = a /\ (a * n + b) mod n = b)%nat.
Proof.
  intros Hn Hb. rewrite Nat.div_add_l, Nat.div_small, Nat.add_0_r by lia.
  rewrite Nat.add_comm, Nat.mod_add, Nat.mod_small by lia. now split.
Qed.

(* ---- what weights stand for, in K and W ---- *)
Lemma stands_ht s p x i k m : proper s -> hasTau s = true -> standsFor s p x ->
  (k < vol s)%nat -> (m < bins s)%nat ->
  pData (fftPlain s toKW p) i k m = ht s k m (x i).
Proof.
  intros P T H Hk Hm.
  destruct (fft_stands s toKW p x P H) as (H' & K & W).
  cbn [toKW fst snd asked] in K, W. unfold standsFor in H'. rewrite K, W in H'.
  rewrite (H' i k m Hk Hm). unfold seenIn. rewrite T. reflexivity.
Qed.
Lemma stands_ht' s p x i k m : hasTau s = true -> standsFor s p x ->
  pK p = true -> pW p = true -> (k < vol s)%nat -> (m < bins s)%nat ->
  pData p i k m = ht s k m (x i).
Proof.
  intros T H K W Hk Hm. unfold standsFor in H. rewrite K, W in H.
  rewrite (H i k m Hk Hm). unfold seenIn. rewrite T. reflexivity.
Qed.
Lemma stands_sp s p x i k : proper s -> standsFor (noTau s) p x ->
  (k < vol s)%nat ->
  pData (fftPlain (noTau s) toKonly p) i k 0%nat = sp s k (fun r => x i r 0%nat).
Proof.
  intros P H Hk. assert (P' : proper (noTau s)) by exact P.
  destruct (fft_stands (noTau s) toKonly p x P' H) as (H' & K & W).
  cbn [toKonly fst snd asked] in K, W. unfold standsFor in H'. rewrite K in H'.
  destruct P as (_ & N & _).
  rewrite (H' i k 0%nat Hk N). unfold seenIn. cbn [hasTau noTau]. rewrite andb_false_r.
  reflexivity.
Qed.

(* two functions with the same transforms *)
Lemma ht_inj n s x y : proper s -> hasTau s = true ->
  (forall i k m, (i < n * n)%nat -> (k < vol s)%nat -> (m < bins s)%nat ->
     ht s k m (x i) = ht s k m (y i)) ->
  sameIn n s x y.
Proof.
  intros P T H i v t Hi Hv Ht.
  set (X := fun j : nat => x i). set (Y := fun j : nat => y i).
  set (p := Plain (fun _ k m => ht s k m (x i)) true true).
  assert (SX : standsFor s p X).
  { intros a k m Hk Hm. unfold seenIn. cbn [pK pW p]. rewrite T. reflexivity. }
  assert (SY : standsFor s p Y).
  { intros a k m Hk Hm. unfold seenIn. cbn [pK pW p pData]. rewrite T. cbn [andb].
    rewrite H by assumption. reflexivity. }
  exact (stands_unique s p X Y P SX SY 0%nat v t Hv Ht).
Qed.

Lemma decompose n i : (0 < n)%nat -> (i < n * n)%nat ->
  exists a b, (a < n)%nat /\ (b < n)%nat /\ i = (a * n + b)%nat.
Proof.
  intros Hn Hi. exists (i / n)%nat, (i mod n)%nat.
  split; [apply Nat.div_lt_upper_bound; lia|].
  split; [apply Nat.mod_upper_bound; lia|].
  rewrite Nat.mul_comm. apply Nat.div_mod. lia.
Qed.
Lemma compose n a b : (a < n)%nat -> (b < n)%nat -> (a * n + b < n * n)%nat.
Proof. nia. Qed.

Section Solver.
Variable solve : nat -> matrix -> matrix -> matrix.
Variable n : nat.
Variable s : shape.
Hypothesis Hn : (0 < n)%nat.
Hypothesis P : proper s.
Hypothesis T : hasTau s = true.
Hypothesis Hs : forall a b, invertible n a -> solves n a b (solve n a b).

(* an equation in K and W, D X = b, for the transforms of x *)
Lemma by_transform (D B : nat -> nat -> matrix) p x y :
  p = Plain (ofMatrix n (fun v t => solve n (D v t) (B v t))) true true ->
  (forall v t, (v < vol s)%nat -> (t < bins s)%nat -> invertible n (D v t)) ->
  standsFor s p x ->
  (* the equation z = rhs z says D z = B, element by element *)
  forall rhs,
  (forall z v t a b, (v < vol s)%nat -> (t < bins s)%nat -> (a < n)%nat -> (b < n)%nat ->
     ht s v t (rhs z (a * n + b)%nat)
     = Cplus (B v t a b)
        (Cminus (ht s v t (z (a * n + b)%nat))
                (csum n (fun l => Cmult (D v t a l) (ht s v t (z (l * n + b)%nat)))))) ->
  sameIn n s x (rhs x) /\ (sameIn n s y (rhs y) -> sameIn n s y x).
Proof.
  intros Ep Hi Hx rhs Hr.
  assert (K : pK p = true) by now subst. assert (W : pW p = true) by now subst.
  assert (X : forall v t a b, (v < vol s)%nat -> (t < bins s)%nat ->
     (a < n)%nat -> (b < n)%nat ->
     solve n (D v t) (B v t) a b = ht s v t (x (a * n + b)%nat)).
  { intros v t a b Hv Ht Ha Hb.
    rewrite <- (stands_ht' s p x _ v t T Hx K W Hv Ht). subst p. cbn [pData].
    unfold ofMatrix. destruct (idx n a b Hn Hb) as [-> ->]. reflexivity. }
  assert (S : forall v t, (v < vol s)%nat -> (t < bins s)%nat ->
     solves n (D v t) (B v t) (fun a b => ht s v t (x (a * n + b)%nat))).
  { intros v t Hv Ht a b Ha Hb.
    rewrite <- (Hs (D v t) (B v t) (Hi v t Hv Ht) a b Ha Hb).
    apply csum_ext. intros l Hl. now rewrite X. }
  split.
  - apply ht_inj; [exact P|exact T|]. intros i v t Hi' Hv Ht.
    destruct (decompose n i Hn Hi') as (a & b & Ha & Hb & ->).
    rewrite (Hr x v t a b) by assumption.
    pose proof (S v t Hv Ht a b Ha Hb) as E. cbn beta in E. rewrite E. ring.
  - intros Hy. apply ht_inj; [exact P|exact T|]. intros i v t Hi' Hv Ht.
    destruct (decompose n i Hn Hi') as (a & b & Ha & Hb & ->).
    refine (solves_unique n (D v t) (B v t) (fun a b => ht s v t (y (a * n + b)%nat))
              (fun a b => ht s v t (x (a * n + b)%nat)) (Hi v t Hv Ht) _ (S v t Hv Ht) a b Ha Hb).
    intros a' b' Ha' Hb'. cbn beta.
    assert (E : ht s v t (y (a' * n + b')%nat) = ht s v t (rhs y (a' * n + b')%nat)).
    { apply ht_ext. intros r q Hr' Hq. apply Hy; [now apply compose|exact Hr'|exact Hq]. }
    rewrite (Hr y v t a' b') in E by assumption.
    set (u := ht s v t _) in E. set (w := csum n _) in *.
    assert (E2 : Cminus (Cplus (B v t a' b') (Cminus u w)) u = RtoC 0)
      by (rewrite <- E; ring).
    replace (B v t a' b') with (Cplus w (Cminus (Cplus (B v t a' b') (Cminus u w)) u)) by ring.
    rewrite E2. ring.
Qed.

(* sums of D z *)
Lemma minus_eye (A : matrix) (z : nat -> C) a : (a < n)%nat ->
  csum n (fun l => Cmult (Cminus (eye a l) (A a l)) (z l))
  = Cminus (z a) (csum n (fun l => Cmult (A a l) (z l))).
Proof.
  intros Ha. pose proof (eye_l n (fun l _ => z l) a 0%nat Ha) as E. cbn beta in E.
  rewrite <- E. unfold Cminus at 2.
  replace (Copp (csum n (fun l => Cmult (A a l) (z l))))
    with (Cmult (RtoC (-1)) (csum n (fun l => Cmult (A a l) (z l)))) by
      (unfold RtoC; apply injective_projections; cbn; ring).
  rewrite <- csum_scal, <- csum_plus. apply csum_ext. intros l _.
  apply injective_projections; cbn; ring.
Qed.

Lemma g_law G0 Sd Sg g0 sd sg g y :
  standsFor s G0 g0 -> standsFor (noTau s) Sd sd -> standsFor s Sg sg ->
  isSymmetric s = false ->
  (forall v t, (v < vol s)%nat -> (t < bins s)%nat ->
     invertible n (gDenorm n s (pData (fftPlain s toKW G0))
        (pData (fftPlain (noTau s) toKonly Sd)) (pData (fftPlain s toKW Sg)) v t)) ->
  standsFor s (gDyson solve n s G0 Sd Sg) g ->
  gEquation n s g0 sd sg g /\ (gEquation n s g0 sd sg y -> sameIn n s y g).
Proof.
  intros H0 Hd Hg As Hi Hx.
  unfold gEquation.
  refine (by_transform _ _ _ g y eq_refl Hi Hx (fun z =>
    dataAdd g0 (dataAdd
      (dataScale (step s * step s) (conv2 n s 1 (conv2 n s 0 g0 sg) z))
      (dataScale (step s) (convMean n s (convR n s g0 sd) z)))) _).
  intros z v t a b Hv Ht Ha Hb.
  unfold dataAdd, dataScale.
  rewrite ht_plus, ht_plus, !ht_scal.
  rewrite ht_conv10 by (exact P || exact Hn). rewrite ht_mean by exact P.
  destruct (idx n a b Hn Hb) as [-> ->].
  unfold gDenorm. rewrite (minus_eye (fun a l => Cmult (RtoC (step s))
         (Cplus (Cmult (RtoC (step s))
            (mm n (el n (pData (fftPlain s toKW G0)) v t)
                  (el n (pData (fftPlain s toKW Sg)) v t) a l))
            (Cmult (mm n (el n (pData (fftPlain s toKW G0)) v t)
                         (el n (pData (fftPlain (noTau s) toKonly Sd)) v 0) a l)
               (RtoC (cos (PI * indexToTau s t / beta s))))))) by exact Ha.
  unfold el at 1. rewrite (stands_ht s G0 g0) by assumption.
  set (Z := ht s v t (z _)). set (F := ht s v t (g0 _)).
  match goal with |- Cplus F (Cplus ?A ?B) = Cplus F (Cminus Z (Cminus Z ?S)) =>
    transitivity (Cplus F S); [|ring]; f_equal end.
  rewrite <- !csum_scal, <- csum_plus.
  apply csum_ext. intros l Hl. cbn beta.
  rewrite ht_convR by exact P. destruct (idx n a l Hn Hl) as [-> ->].
  set (zl := ht s v t (z (l * n + b)%nat)).
  assert (E1 : mm n (el n (pData (fftPlain s toKW G0)) v t)
                    (el n (pData (fftPlain s toKW Sg)) v t) a l
    = csum n (fun j => Cmult (ht s v t (g0 (a * n + j)%nat)) (ht s v t (sg (j * n + l)%nat)))).
  { unfold mm, el. apply csum_ext. intros j _.
    now rewrite (stands_ht s G0 g0), (stands_ht s Sg sg) by assumption. }
  assert (E2 : mm n (el n (pData (fftPlain s toKW G0)) v t)
                    (el n (pData (fftPlain (noTau s) toKonly Sd)) v 0) a l
    = csum n (fun j => Cmult (ht s v t (g0 (a * n + j)%nat))
                             (sp s v (fun r => sd (j * n + l)%nat r 0%nat)))).
  { unfold mm, el. apply csum_ext. intros j _.
    now rewrite (stands_ht s G0 g0), (stands_sp s Sd sd) by assumption. }
  rewrite E1, E2.
  replace (cos (PI * indexToTau s t / beta s)) with (cos (matsubara s t * (step s / 2))).
  - rewrite RtoC_mult. ring.
  - f_equal. rewrite tau_mid. unfold matsubara, step, binTime. rewrite As.
    destruct P as (_ & N & B). apply INR_nz in N. field. split; [exact N|lra].
Qed.

Lemma w_denorm W0 Po w0 p z v t a b :
  standsFor (noTau s) W0 w0 -> standsFor s Po p -> isSymmetric s = true ->
  (v < vol s)%nat -> (t < bins s)%nat -> (a < n)%nat -> (b < n)%nat ->
  csum n (fun l => Cmult (wDenorm n s (pData (fftPlain (noTau s) toKonly W0))
                            (pData (fftPlain s toKW Po)) v t a l)
                         (ht s v t (z (l * n + b)%nat)))
  = Cminus (ht s v t (z (a * n + b)%nat))
      (ht s v t (dataScale (step s) (convMean n s (convL n s w0 p) z) (a * n + b)%nat)).
Proof.
  intros H0 Hp Sy Hv Ht Ha Hb. unfold wDenorm.
  rewrite (minus_eye (fun a l => Cmult (Cmult
        (mm n (el n (pData (fftPlain (noTau s) toKonly W0)) v 0)
              (el n (pData (fftPlain s toKW Po)) v t) a l) (RtoC (step s)))
        (RtoC (cos (INR t * PI / INR (bins s)))))) by exact Ha.
  f_equal. unfold dataScale. rewrite ht_scal, ht_mean by exact P.
  destruct (idx n a b Hn Hb) as [-> ->].
  rewrite <- !csum_scal. apply csum_ext. intros l Hl. cbn beta.
  rewrite ht_convL by exact P. destruct (idx n a l Hn Hl) as [-> ->].
  assert (E : mm n (el n (pData (fftPlain (noTau s) toKonly W0)) v 0)
                   (el n (pData (fftPlain s toKW Po)) v t) a l
    = csum n (fun j => Cmult (sp s v (fun r => w0 (a * n + j)%nat r 0%nat))
                             (ht s v t (p (j * n + l)%nat)))).
  { unfold mm, el. apply csum_ext. intros j _.
    now rewrite (stands_ht s Po p), (stands_sp s W0 w0) by assumption. }
  rewrite E.
  replace (cos (INR t * PI / INR (bins s))) with (cos (matsubara s t * (step s / 2))).
  - ring.
  - f_equal. unfold matsubara, step. rewrite Sy.
    destruct P as (_ & N & B). apply INR_nz in N. field. split; [exact N|lra].
Qed.

Lemma w_law W0 Po w0 p w y :
  standsFor (noTau s) W0 w0 -> standsFor s Po p -> isSymmetric s = true ->
  (forall v t, (v < vol s)%nat -> (t < bins s)%nat ->
     invertible n (wDenorm n s (pData (fftPlain (noTau s) toKonly W0))
                     (pData (fftPlain s toKW Po)) v t)) ->
  standsFor s (fst (wDyson solve n s W0 Po)) w ->
  wEquation n s w0 p w /\ (wEquation n s w0 p y -> sameIn n s y w).
Proof.
  intros H0 Hp Sy Hi Hx. unfold wEquation.
  refine (by_transform _ _ _ w y eq_refl Hi Hx (fun z =>
    dataAdd (convR n s (convL n s w0 p) w0)
            (dataScale (step s) (convMean n s (convL n s w0 p) z))) _).
  intros z v t a b Hv Ht Ha Hb.
  rewrite (w_denorm W0 Po w0 p z v t a b) by assumption.
  unfold dataAdd at 1. rewrite ht_plus.
  set (M := ht s v t (dataScale _ _ _)).
  match goal with |- Cplus ?A _ = Cplus ?B _ => replace A with B; [ring|] end.
  rewrite ht_convR by exact P. destruct (idx n a b Hn Hb) as [-> ->].
  unfold mm at 1. apply csum_ext. intros l Hl.
  rewrite ht_convL by exact P. destruct (idx n a l Hn Hl) as [-> ->].
  unfold el at 3. rewrite (stands_sp s W0 w0) by assumption. f_equal.
  unfold mm, el. apply csum_ext. intros j _.
  now rewrite (stands_ht s Po p), (stands_sp s W0 w0) by assumption.
Qed.

Lemma chi_law W0 Po w0 p chi y :
  standsFor (noTau s) W0 w0 -> standsFor s Po p -> isSymmetric s = true ->
  (forall v t, (v < vol s)%nat -> (t < bins s)%nat ->
     invertible n (wDenorm n s (pData (fftPlain (noTau s) toKonly W0))
                     (pData (fftPlain s toKW Po)) v t)) ->
  standsFor s (snd (wDyson solve n s W0 Po)) chi ->
  chiEquation n s w0 p chi /\ (chiEquation n s w0 p y -> sameIn n s y chi).
Proof.
  intros H0 Hp Sy Hi Hx. unfold chiEquation.
  refine (by_transform _ _ _ chi y eq_refl Hi Hx (fun z =>
    dataAdd (dataScale (-1) p)
            (dataScale (step s) (convMean n s (convL n s w0 p) z))) _).
  intros z v t a b Hv Ht Ha Hb.
  rewrite (w_denorm W0 Po w0 p z v t a b) by assumption.
  unfold dataAdd at 1. rewrite ht_plus.
  set (M := ht s v t (dataScale (step s) _ _)).
  unfold el. rewrite (stands_ht s Po p) by assumption.
  unfold dataScale at 1. rewrite ht_scal.
  apply injective_projections; cbn; ring.
Qed.
End Solver.
