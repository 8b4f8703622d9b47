Require Import Reals List Arith Bool ZArith Lia Lra.
From Coquelicot Require Import Complex.
Require Import Verif.PyWeight Verif.P_Fourier Verif.FirstOrder Verif.BareG Verif.Vertex Verif.VertexSpec Verif.P_Vertex.
Local Open Scope R_scope.

Lemma spinG_zero beta s tau : beta <> 0 ->
  spinG false beta 0 s tau = (let a := PI / 2 / beta * tau in ((cos a + sin a) / 2, (sin a - cos a) / 2)).
Proof.
  intros B. unfold spinG, spinMuField, spinMu, cexp.
  replace (RtoC (1 / 2 * 0)) with (RtoC 0) by (f_equal; lra). rewrite Cmult_0_l, Cplus_0_r.
  assert (M : forall m x : R, Cmult (0, m) (RtoC x) = (0, m * x)) by (intros m x; unfold Cmult, RtoC; cbn [fst snd]; f_equal; ring).
  rewrite !M. cbn [fst snd]. replace (PI / 2 / beta * beta) with (PI / 2) by (field; exact B).
  rewrite exp_0, cos_PI2, sin_PI2. cbv zeta. unfold Cdiv, Cinv, Cmult, Cplus, RtoC. cbn [fst snd].
  apply injective_projections; cbn [fst snd]; field.
Qed.
Lemma bare_reflected beta N s : 0 < beta -> (s < 2)%nat ->
  reflected N (fun t => spinBareG false beta N (0 :: nil) s 0%nat s 0%nat 0%nat t).
Proof.
  intros B S t H. unfold spinBareG. rewrite Nat.eqb_refl. apply Nat.ltb_lt in S. rewrite S. cbn [andb Nat.eqb nth].
  assert (HN : INR N <> 0) by (apply not_0_INR; lia).
  rewrite !spinG_zero by lra. cbv zeta.
  replace (PI / 2 / beta * ((INR (N - 1 - t) + 1 / 2) * (beta / INR N))) with (PI / 2 - PI / 2 / beta * ((INR t + 1 / 2) * (beta / INR N))).
  - rewrite cos_shift, sin_shift. unfold Cconj. cbn [fst snd]. apply injective_projections; cbn [fst snd]; lra.
  - rewrite !minus_INR by lia. simpl (INR 1). field. split; [exact HN|lra].
Qed.

Lemma csum_pick n b (f : nat -> C) : (b < n)%nat -> csum n (fun i => if Nat.eqb i b then f i else RtoC 0) = f b.
Proof.
  induction n as [|n IH]; intros H; [lia|]. simpl. destruct (Nat.eq_dec b n) as [->|D].
  - rewrite Nat.eqb_refl, (csum_ext _ _ (fun _ => RtoC 0)), csum_zero; [apply Cplus_0_l|]. intros i Hi. destruct (Nat.eqb_spec i n); [lia|reflexivity].
  - rewrite IH by lia. destruct (Nat.eqb_spec n b); [lia|]. apply Cplus_0_r.
Qed.
Lemma minus1 : RtoC (-1) = Copp (RtoC 1).
Proof. unfold RtoC, Copp. cbn. f_equal; ring. Qed.
Lemma folded_cont N G g k : continued N G g -> (- Z.of_nat N <= k < Z.of_nat N)%Z -> folded N G k = g k.
Proof.
  intros [A B] H. unfold folded. destruct (Z.ltb_spec k 0).
  - rewrite <- A by lia. rewrite <- B. f_equal. lia.
  - rewrite <- A by lia. f_equal. lia.
Qed.
Lemma half_cont N G g d : continued N G g -> (- Z.of_nat N < d < Z.of_nat N)%Z -> halfG N G d = Cmult (RtoC (1 / 2)) (Cplus (g (d - 1)%Z) (g d)).
Proof. intros A H. unfold halfG. rewrite !(folded_cont N G g) by (assumption || lia). ring. Qed.
Lemma simple_value N G g t1 t2 : continued N (G UP) g -> (t1 < N)%nat -> (t2 < N)%nat ->
  simpleGG N G UP 0%nat t1 t2 = Cmult (g (Z.of_nat t1)) (g (- Z.of_nat t2 - 1)%Z).
Proof.
  intros A H1 H2. unfold simpleGG. cbn [Nat.eqb UP andb]. rewrite (folded_cont N (G UP) g) by (assumption || lia).
  f_equal. symmetry. now apply A.
Qed.
Lemma twoG_value N beta G g s r a b t1 t2 : continued N (G s) g -> (a < N)%nat -> (b < N)%nat -> (t1 < N)%nat -> (t2 < N)%nat ->
  addTwoG N beta (fun _ _ x y => if Nat.eqb x a && Nat.eqb y b then RtoC 1 else RtoC 0) G s r t1 t2 =
  Cmult (Cmult (Cmult (RtoC (1 / 2)) (Cplus (g (Z.of_nat t1 - Z.of_nat a - 1)%Z) (g (Z.of_nat t1 - Z.of_nat a)%Z)))
               (Cmult (RtoC (1 / 2)) (Cplus (g (Z.of_nat b - Z.of_nat t2 - 1)%Z) (g (Z.of_nat b - Z.of_nat t2)%Z))))
        (RtoC ((beta / INR N) ^ 2)).
Proof.
  intros A Ha Hb H1 H2. unfold addTwoG.
  assert (HN : INR N <> 0) by (apply not_0_INR; lia).
  rewrite (csum_ext _ _ (fun tin => if Nat.eqb tin b then Cmult (halfG N (G s) (Z.of_nat tin - Z.of_nat t2)) (halfG N (G s) (Z.of_nat t1 - Z.of_nat a)) else RtoC 0)).
  - rewrite csum_pick by assumption. rewrite !(half_cont N (G s) g) by (assumption || lia).
    replace (beta * beta / (INR N * INR N)) with ((beta / INR N) ^ 2) by (field; exact HN). ring.
  - intros tin Hi. destruct (Nat.eqb_spec tin b) as [->|D].
    + rewrite (csum_ext _ _ (fun tout => if Nat.eqb tout a then halfG N (G s) (Z.of_nat t1 - Z.of_nat tout) else RtoC 0)).
      * now rewrite csum_pick.
      * intros x Hx. rewrite andb_true_r. destruct (Nat.eqb x a); ring.
    + rewrite (csum_ext _ _ (fun _ => RtoC 0)); [rewrite csum_zero; ring|]. intros x Hx. rewrite andb_false_r. ring.
Qed.
Lemma addG_value N v G gu gd r tout tin : continued N (G UP) gu -> continued N (G DOWN) gd -> (tout < N)%nat -> (tin < N)%nat ->
  let d := (Z.of_nat tin - Z.of_nat tout)%Z in
  let m g k := Cmult (RtoC (1 / 2)) (Cplus (g (k - 1)%Z) (g k)) in
  addG N v G 0%nat r r tout tin = Copp (Cplus (Cplus (Cmult (m gu d) (v UP r tout tin)) (Cmult (m gd d) (v DOWN r tout tin)))
                                          (Cplus (Cmult (m gu (- d)%Z) (v UP r tin tout)) (Cmult (m gd (- d)%Z) (v DOWN r tin tout)))) /\
  addG N v G 1%nat r r tout tin = Copp (Cplus (Cmult (m gd d) (v UP r tout tin)) (Cmult (m gu (- d)%Z) (v DOWN r tin tout))).
Proof.
  intros A B H1 H2. cbv zeta. unfold addG. rewrite Nat.eqb_refl. cbn [Nat.eqb].
  rewrite !(half_cont N (G UP) gu), !(half_cont N (G DOWN) gd) by (assumption || lia). rewrite minus1. split; ring.
Qed.
Lemma addW_value N W s r v t1 t2 : (t1 < N)%nat -> (t2 < N)%nat -> forall w : pair -> pair -> Z -> C,
  (forall a b t, (t < N)%nat -> w a b (Z.of_nat t) = W a b t) -> (forall a b k, w a b (k - Z.of_nat N)%Z = w a b k) ->
  let d := (Z.of_nat t1 - Z.of_nat t2)%Z in
  let m a b := Cmult (RtoC (1 / 2)) (Cplus (w a b (d - 1)%Z) (w a b d)) in
  addW N v W s r t1 t2 = Copp (if Nat.eqb s UP
    then Cplus (Cmult (v UP r t1 t2) (m UU UU)) (Cmult (v DOWN r t1 t2) (m UD DU))
    else Cplus (Cmult (v UP r t1 t2) (m DU UD)) (Cmult (v DOWN r t1 t2) (m DD DD))).
Proof.
  intros H1 H2 w A P. cbv zeta. unfold addW.
  assert (M : forall a b, wshift N (W a b) (if (t1 <? t2)%nat then (t1 + N - t2)%nat else (t1 - t2)%nat) =
     Cmult (RtoC (1 / 2)) (Cplus (w a b (Z.of_nat t1 - Z.of_nat t2 - 1)%Z) (w a b (Z.of_nat t1 - Z.of_nat t2)%Z))).
  { intros a b. unfold wshift. f_equal. destruct (Nat.ltb_spec t1 t2).
    - destruct (Nat.eqb_spec (t1 + N - t2) 0%nat); [lia|]. rewrite <- !A by lia. rewrite <- (P a b (Z.of_nat (t1 + N - t2 - 1))), <- (P a b (Z.of_nat (t1 + N - t2))). f_equal; f_equal; lia.
    - destruct (Nat.eqb_spec (t1 - t2) 0%nat).
      + rewrite <- !A by lia. rewrite <- (P a b (Z.of_nat (N - 1))). f_equal; f_equal; lia.
      + rewrite <- !A by lia. f_equal; f_equal; lia. }
  rewrite !M, minus1. destruct (Nat.eqb s UP); ring.
Qed.
Lemma addGW_value N w G gu gd r tout tin : continued N (G UP) gu -> continued N (G DOWN) gd -> (tout < N)%nat -> (tin < N)%nat ->
  let d := (Z.of_nat tout - Z.of_nat tin)%Z in
  let m g k := Cmult (RtoC (1 / 2)) (Cplus (g (k - 1)%Z) (g k)) in
  addGW N w G UP r tout tin = Cplus (Cmult (m gu d) (w 0%nat r r tout tin)) (Cmult (m gd d) (w 1%nat r r tout tin)) /\
  addGW N w G DOWN r tout tin =
    Copp (Cplus (Cmult (m gd d) (Cconj (w 0%nat r r tout tin))) (Cmult (m gu d) (Cconj (w 1%nat r r tout tin)))).
Proof.
  intros A B H1 H2. cbv zeta. unfold addGW. cbn [Nat.eqb UP DOWN].
  rewrite !(half_cont N (G 1%nat) gu), !(half_cont N (G 0%nat) gd) by (assumption || lia). split; ring.
Qed.
