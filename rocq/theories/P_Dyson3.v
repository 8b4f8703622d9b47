Require Import Reals List Arith Bool Lra Lia ClassicalEpsilon.
From Coquelicot Require Import Complex.
Require Import Verif.PyWeight Verif.PyWeightSpec Verif.Dyson Verif.DysonSpec
  Verif.P_Fourier Verif.P_PyWeight Verif.P_PyWeight2 Verif.P_Dyson Verif.P_Dyson2.
Import ListNotations.
Local Open Scope R_scope.

(* a solver exists *)
Definition someSolver (n : nat) (a b : matrix) : matrix :=
  epsilon (inhabits b) (fun X => solves n a b X).
Lemma someSolver_good : goodSolver someSolver.
Proof.
  intros n a b (V & HV & _). unfold someSolver. apply epsilon_spec.
  exists (fun i j => csum n (fun l => Cmult (V i l) (b l j))).
  intros i j Hi Hj.
  rewrite (csum_ext n _ (fun l => csum n (fun p => Cmult (a i l) (Cmult (V l p) (b p j))))).
  2:{ intros l _. now rewrite csum_scal. }
  rewrite csum_swap. rewrite <- (eye_l n b i j Hi). apply csum_ext. intros p Hp.
  rewrite <- (HV i p Hi Hp), <- csum_scal_r. apply csum_ext. intros. ring.
Qed.

(* ---- a susceptibility that is not the sum of the chains ---- *)
Definition s1 : shape := Shape true true [1%nat] 1 1.
Definition one (c : bool) : C := if c then RtoC 1 else RtoC 0.
(* spin index 0 throughout: W0 joins the sublattices 0 and 1, Polar is on
   sublattice 1 *)
Definition w01 : data := fun i _ _ =>
  one ((Nat.eqb (i / 8) 0 && Nat.eqb (i mod 8) 1)
       || (Nat.eqb (i / 8) 1 && Nat.eqb (i mod 8) 0)).
Definition p11 : data := fun i _ _ =>
  one (Nat.eqb (i / 8) 1 && Nat.eqb (i mod 8) 1).
Definition W01 : plain := Plain w01 false false.
Definition P11 : plain := Plain p11 false false.

Lemma s1_proper : proper s1.
Proof. split; [repeat constructor; lia|]. split; [cbn; lia|cbn; lra]. Qed.

Lemma s1_k : kDotR s1 0%nat 0%nat = 0.
Proof. unfold kDotR. cbn. unfold Rdiv. ring. Qed.
Lemma s1_sp f : sp s1 0%nat f = f 0%nat.
Proof. unfold sp. change (vol s1) with 1%nat. cbn [csum]. rewrite s1_k, Ropp_0, cis_0. ring. Qed.
Lemma s1_ht f : ht s1 0%nat 0%nat f = f 0%nat 0%nat.
Proof.
  unfold ht. change (bins s1) with 1%nat. cbn [csum]. rewrite s1_sp.
  replace (matsubara s1 0 * binTime s1 0) with 0.
  - rewrite Ropp_0, cis_0. ring.
  - unfold matsubara. cbn. field.
Qed.

Lemma s1_conv2 c x y i : conv2 8 s1 c x y i 0%nat 0%nat =
  csum 8 (fun l => Cmult (x ((i / 8) * 8 + l)%nat 0%nat 0%nat)
                         (y (l * 8 + i mod 8)%nat 0%nat 0%nat)).
Proof.
  unfold conv2. apply csum_ext. intros l _.
  change (vol s1) with 1%nat. change (bins s1) with 1%nat. cbn [csum].
  rewrite Nat.mod_1_r. change (addSite (dims s1) 0 0) with 0%nat.
  cbn [Nat.eqb andb]. unfold around. cbn [isSymmetric s1]. ring.
Qed.
Lemma s1_convL d x i : convL 8 s1 d x i 0%nat 0%nat =
  csum 8 (fun l => Cmult (d ((i / 8) * 8 + l)%nat 0%nat 0%nat)
                         (x (l * 8 + i mod 8)%nat 0%nat 0%nat)).
Proof.
  unfold convL. apply csum_ext. intros l _.
  change (vol s1) with 1%nat. cbn [csum].
  change (addSite (dims s1) 0 0) with 0%nat. cbn [Nat.eqb andb]. ring.
Qed.
Lemma s1_convR x d i : convR 8 s1 x d i 0%nat 0%nat =
  csum 8 (fun l => Cmult (x ((i / 8) * 8 + l)%nat 0%nat 0%nat)
                         (d (l * 8 + i mod 8)%nat 0%nat 0%nat)).
Proof.
  unfold convR. apply csum_ext. intros l _.
  change (vol s1) with 1%nat. cbn [csum].
  change (addSite (dims s1) 0 0) with 0%nat. cbn [Nat.eqb andb]. ring.
Qed.
Lemma s1_mean x y i : convMean 8 s1 x y i 0%nat 0%nat =
  csum 8 (fun l => Cmult (x ((i / 8) * 8 + l)%nat 0%nat 0%nat)
                         (y (l * 8 + i mod 8)%nat 0%nat 0%nat)).
Proof.
  unfold convMean, dataScale, dataAdd. rewrite !s1_conv2.
  set (S := csum 8 _).
  apply injective_projections; cbn; field.
Qed.

Lemma w01_at a b r t : (b < 8)%nat -> w01 (a * 8 + b)%nat r t =
  one ((Nat.eqb a 0 && Nat.eqb b 1) || (Nat.eqb a 1 && Nat.eqb b 0)).
Proof.
  intros H. unfold w01. destruct (idx 8 a b ltac:(lia) H) as [-> ->]. reflexivity.
Qed.
Lemma p11_at a b r t : (b < 8)%nat -> p11 (a * 8 + b)%nat r t =
  one (Nat.eqb a 1 && Nat.eqb b 1).
Proof.
  intros H. unfold p11. destruct (idx 8 a b ltac:(lia) H) as [-> ->]. reflexivity.
Qed.

Definition E01 : matrix := fun a b => one (Nat.eqb a 0 && Nat.eqb b 1).

Lemma wp a b : (b < 8)%nat ->
  csum 8 (fun l => Cmult (w01 (a * 8 + l)%nat 0%nat 0%nat) (p11 (l * 8 + b)%nat 0%nat 0%nat))
  = E01 a b.
Proof.
  intros Hb.
  rewrite (csum_ext 8 _ (fun l => if Nat.eqb l 1 then E01 a b else RtoC 0)).
  - now rewrite csum_delta by lia.
  - intros l Hl. rewrite w01_at, p11_at by assumption. unfold E01.
    destruct (Nat.eqb_spec l 1) as [->|D]; cbn [andb]; [|cbn [one]; ring].
    cbn [Nat.eqb andb]. rewrite andb_false_r, orb_false_r, andb_true_r.
    destruct (Nat.eqb a 0), (Nat.eqb b 1); cbn [one andb]; ring.
Qed.
Lemma pw b : (b < 8)%nat ->
  csum 8 (fun l => Cmult (p11 (0 * 8 + l)%nat 0%nat 0%nat) (w01 (l * 8 + b)%nat 0%nat 0%nat))
  = RtoC 0.
Proof.
  intros Hb.
  rewrite (csum_ext 8 _ (fun l => RtoC 0)); [apply csum_zero|].
  intros l Hl. rewrite p11_at by exact Hl. cbn [Nat.eqb andb one]. ring.
Qed.

Lemma E01_row (X : matrix) a b :
  csum 8 (fun l => Cmult (E01 a l) (X l b)) = if Nat.eqb a 0 then X 1%nat b else RtoC 0.
Proof.
  unfold E01. destruct (Nat.eqb a 0); cbn [andb].
  - rewrite <- (csum_delta 8 1 (fun l => X l b)) by lia. apply csum_ext. intros l _.
    destruct (Nat.eqb l 1); cbn [one]; ring.
  - rewrite (csum_ext 8 _ (fun l => RtoC 0)); [apply csum_zero|].
    intros. cbn [one]. ring.
Qed.

Lemma eye_E_inv (D : matrix) :
  (forall a b, (a < 8)%nat -> (b < 8)%nat -> D a b = Cminus (eye a b) (E01 a b)) ->
  invertible 8 D.
Proof.
  intros H. exists (fun a b => Cplus (eye a b) (E01 a b)). split; intros i j Hi Hj.
  - rewrite (csum_ext 8 _ (fun l => Cmult (Cminus (eye i l) (E01 i l))
                                          ((fun l => Cplus (eye l j) (E01 l j)) l))).
    2:{ intros l Hl. now rewrite H. }
    rewrite (minus_eye 8 E01 (fun l => Cplus (eye l j) (E01 l j)) i Hi).
    rewrite (E01_row (fun l j => Cplus (eye l j) (E01 l j)) i j).
    unfold E01, eye. rewrite (Nat.eqb_sym 1 j).
    destruct (Nat.eqb i 0); cbn [andb one Nat.eqb]; [|ring].
    destruct (Nat.eqb j 1); cbn [one]; ring.
  - rewrite (csum_ext 8 _ (fun l => Cplus (Cmult (eye i l) (D l j)) (Cmult (E01 i l) (D l j)))).
    2:{ intros. ring. }
    rewrite csum_plus, (eye_l 8 D i j Hi), (E01_row D i j).
    rewrite (H i j Hi Hj).
    destruct (Nat.eqb i 0) eqn:E.
    + rewrite (H 1%nat j) by lia. unfold E01, eye. rewrite (Nat.eqb_sym 1 j), E.
      destruct (Nat.eqb j 1); cbn [andb one Nat.eqb]; ring.
    + unfold E01. rewrite E. cbn [andb one]. ring.
Qed.

Lemma W01_stands : standsFor (noTau s1) W01 w01.
Proof. intros i v t _ _. reflexivity. Qed.
Lemma P11_stands : standsFor s1 P11 p11.
Proof. intros i v t _ _. reflexivity. Qed.

Lemma s1_inv v t : (v < vol s1)%nat -> (t < bins s1)%nat ->
  invertible 8 (wDenorm 8 s1 (pData (fftPlain (noTau s1) toKonly W01))
                  (pData (fftPlain s1 toKW P11)) v t).
Proof.
  intros Hv Ht. apply eye_E_inv. intros a b Ha Hb. unfold wDenorm. f_equal.
  assert (v = 0%nat) by (cbn in Hv; lia). assert (t = 0%nat) by (cbn in Ht; lia). subst v t.
  assert (M : mm 8 (el 8 (pData (fftPlain (noTau s1) toKonly W01)) 0 0)
                   (el 8 (pData (fftPlain s1 toKW P11)) 0 0) a b = E01 a b).
  { rewrite <- (wp a b Hb). unfold mm, el. apply csum_ext. intros l Hl.
    rewrite (stands_sp s1 W01 w01 _ _ s1_proper W01_stands Hv), s1_sp.
    rewrite (stands_ht s1 P11 p11 _ _ _ s1_proper eq_refl P11_stands Hv Ht), s1_ht.
    reflexivity. }
  rewrite M.
  replace (step s1) with 1 by (unfold step; cbn; field).
  replace (INR 0 * PI / INR (bins s1)) with 0 by (cbn; field).
  rewrite cos_0. ring.
Qed.

Lemma chi_apart solve chi : goodSolver solve ->
  standsFor s1 (snd (wDyson solve 8 s1 W01 P11)) chi ->
  ~ chainEquation 8 s1 w01 p11 chi.
Proof.
  intros Hs Hc Hr.
  destruct (chi_law solve 8 s1 ltac:(lia) s1_proper eq_refl (Hs 8%nat) W01 P11 w01 p11 chi chi
              W01_stands P11_stands eq_refl s1_inv Hc) as [Hl _].
  assert (B : (0 < vol s1)%nat /\ (0 < bins s1)%nat) by (cbn; lia).
  destruct B as [B1 B2].
  assert (St : step s1 = 1) by (unfold step; cbn; field).
  assert (L9 : chi 9%nat 0%nat 0%nat = RtoC (-1)).
  { rewrite (Hl 9%nat 0%nat 0%nat ltac:(lia) B1 B2).
    unfold dataAdd, dataScale. rewrite s1_mean, St.
    rewrite (csum_ext 8 _ (fun l => Cmult (E01 1%nat l)
               ((fun l b => chi (l * 8 + b)%nat 0%nat 0%nat) l 1%nat))).
    2:{ intros l Hlt. rewrite s1_convL.
        change (9 / 8)%nat with 1%nat. change (9 mod 8)%nat with 1%nat.
        destruct (idx 8 1 l ltac:(lia) Hlt) as [-> ->].
        rewrite wp by exact Hlt. reflexivity. }
    pose proof (E01_row (fun l b => chi (l * 8 + b)%nat 0%nat 0%nat) 1%nat 1%nat) as Q.
    cbn beta in Q. rewrite Q. cbn [Nat.eqb]. change (p11 9%nat 0%nat 0%nat) with (RtoC 1).
    apply injective_projections; cbn; ring. }
  assert (L1 : chi 1%nat 0%nat 0%nat = RtoC (-1)).
  { rewrite (Hl 1%nat 0%nat 0%nat ltac:(lia) B1 B2).
    unfold dataAdd, dataScale. rewrite s1_mean, St.
    rewrite (csum_ext 8 _ (fun l => Cmult (E01 0%nat l)
               ((fun l b => chi (l * 8 + b)%nat 0%nat 0%nat) l 1%nat))).
    2:{ intros l Hlt. rewrite s1_convL.
        change (1 / 8)%nat with 0%nat. change (1 mod 8)%nat with 1%nat.
        destruct (idx 8 0 l ltac:(lia) Hlt) as [-> ->].
        rewrite wp by exact Hlt. reflexivity. }
    pose proof (E01_row (fun l b => chi (l * 8 + b)%nat 0%nat 0%nat) 0%nat 1%nat) as Q.
    cbn beta in Q. rewrite Q. cbn [Nat.eqb]. change (p11 1%nat 0%nat 0%nat) with (RtoC 0).
    change (1 * 8 + 1)%nat with 9%nat. rewrite L9.
    apply injective_projections; cbn; ring. }
  assert (R1 : chi 1%nat 0%nat 0%nat = RtoC 0).
  { rewrite (Hr 1%nat 0%nat 0%nat ltac:(lia) B1 B2).
    unfold dataAdd, dataScale. rewrite s1_mean.
    rewrite (csum_ext 8 _ (fun l => RtoC 0)).
    2:{ intros l Hlt. rewrite s1_convR.
        change (1 / 8)%nat with 0%nat. change (1 mod 8)%nat with 1%nat.
        destruct (idx 8 0 l ltac:(lia) Hlt) as [-> ->].
        rewrite pw by exact Hlt. ring. }
    rewrite csum_zero. change (p11 1%nat 0%nat 0%nat) with (RtoC 0).
    apply injective_projections; cbn; ring. }
  rewrite L1 in R1. injection R1 as R1. lra.
Qed.

(* ---- Check_Denorminator ---- *)
Lemma below_lex x y : if below y x then lexLe y x else lexLe x y.
Proof.
  unfold below, lexLe.
  destruct (Rlt_dec (fst y) (fst x)); [left; lra|].
  destruct (Rlt_dec (fst x) (fst y)); [left; lra|].
  destruct (Rlt_dec (snd y) (snd x)); right; lra.
Qed.
Lemma lex_refl x : lexLe x x.
Proof. right. lra. Qed.
Lemma lex_trans x y z : lexLe x y -> lexLe y z -> lexLe x z.
Proof. unfold lexLe. intros [H|[H H']] [K|[K K']]; [left; lra|left; lra|left; lra|right; lra]. Qed.

Lemma smallest_spec l : forall x,
  In (smallest x l) (x :: l) /\ forall y, In y (x :: l) -> lexLe (smallest x l) y.
Proof.
  induction l as [|z l IH]; intros x; cbn [smallest].
  - split; [now left|]. intros y [<-|[]]. apply lex_refl.
  - pose proof (below_lex x z) as B.
    destruct (IH (if below z x then z else x)) as [I M].
    split.
    + destruct I as [I|I]; [|now right; right]. destruct (below z x); [right; left|left]; exact I.
    + assert (M0 : lexLe (smallest (if below z x then z else x) l) (if below z x then z else x))
        by (apply M; now left).
      intros y [<-|[<-|Hy]].
      * destruct (below z x); [now apply (lex_trans _ z)|exact M0].
      * destruct (below z x); [exact M0|now apply (lex_trans _ x)].
      * apply M. now right.
Qed.

Lemma lex_antisym x y : lexLe x y -> lexLe y x -> x = y.
Proof.
  unfold lexLe. intros H K. apply injective_projections; lra.
Qed.

Lemma check_spec d ds : checkFails d ds = true <->
  exists m, In m (d :: ds) /\ (forall y, In y (d :: ds) -> lexLe m y) /\
            fst m < 0 /\ snd m < 1e-4.
Proof.
  destruct (smallest_spec ds d) as [I M]. unfold checkFails.
  split.
  - intros H. exists (smallest d ds).
    destruct (Rlt_dec (fst (smallest d ds)) 0) as [A|]; [|discriminate].
    destruct (Rlt_dec (snd (smallest d ds)) 1e-4) as [B|]; [|discriminate]. auto.
  - intros (m & Im & Mm & A & B).
    assert (E : m = smallest d ds) by (apply lex_antisym; auto).
    subst m. destruct (Rlt_dec (fst (smallest d ds)) 0); [|easy].
    destruct (Rlt_dec (snd (smallest d ds)) 1e-4); easy.
Qed.

Lemma check_real d ds : (forall y, In y (d :: ds) -> snd y = 0) ->
  checkFails d ds = true <-> exists y, In y (d :: ds) /\ fst y < 0.
Proof.
  intros H. rewrite check_spec. split.
  - intros (m & I & _ & A & _). eauto.
  - intros (y & I & A). destruct (smallest_spec ds d) as [I0 M].
    exists (smallest d ds). split; [exact I0|]. split; [exact M|].
    rewrite (H _ I0). specialize (M y I). unfold lexLe in M. split; lra.
Qed.

(* ---- a case of G_Dyson: one site, one bin, G0 = Sigma = SigmaDeltaT = 1 ---- *)
Definition a1 : shape := Shape true false [1%nat] 1 1.
Definition ones : data := fun _ _ _ => RtoC 1.
Definition onesP : plain := Plain ones false false.

Lemma a1_proper : proper a1.
Proof. split; [repeat constructor; lia|]. split; [cbn; lia|cbn; lra]. Qed.
Lemma ones_stand s : standsFor s onesP ones.
Proof. intros i v t _ _. reflexivity. Qed.

Lemma a1_sp : sp a1 0%nat (fun r => RtoC 1) = RtoC 1.
Proof.
  unfold sp. change (vol a1) with 1%nat. cbn [csum].
  change (kDotR a1 0 0) with (kDotR s1 0 0). rewrite s1_k, Ropp_0, cis_0. ring.
Qed.
Lemma a1_ht : ht a1 0%nat 0%nat (fun _ _ => RtoC 1) = (0, -1).
Proof.
  unfold ht. change (bins a1) with 1%nat. cbn [csum]. rewrite a1_sp.
  replace (matsubara a1 0 * binTime a1 0) with (PI / 2)
    by (unfold matsubara, binTime; cbn; field).
  unfold cis. rewrite cos_neg, sin_neg, cos_PI2, sin_PI2.
  apply injective_projections; cbn; ring.
Qed.

Lemma a1_inv v t : (v < vol a1)%nat -> (t < bins a1)%nat ->
  invertible 1 (gDenorm 1 a1 (pData (fftPlain a1 toKW onesP))
    (pData (fftPlain (noTau a1) toKonly onesP)) (pData (fftPlain a1 toKW onesP)) v t).
Proof.
  intros Hv Ht.
  assert (v = 0%nat) by (cbn in Hv; lia). assert (t = 0%nat) by (cbn in Ht; lia). subst v t.
  set (D := gDenorm _ _ _ _ _ _ _).
  assert (E : D 0%nat 0%nat = RtoC 2).
  { unfold D, gDenorm, mm, el. cbn [csum].
    rewrite !(stands_ht a1 onesP ones _ _ _ a1_proper eq_refl (ones_stand a1) Hv Ht).
    rewrite (stands_sp a1 onesP ones _ _ a1_proper (ones_stand _) Hv).
    unfold ones. rewrite a1_ht, a1_sp.
    replace (PI * indexToTau a1 0 / beta a1) with (PI / 2)
      by (rewrite tau_mid; unfold binTime; cbn; field).
    rewrite cos_PI2. replace (step a1) with 1 by (unfold step; cbn; field).
    unfold eye. cbn [Nat.eqb]. apply injective_projections; cbn; ring. }
  exists (fun _ _ => RtoC (1/2)).
  split; intros i j Hi Hj; assert (i = 0%nat) by lia; assert (j = 0%nat) by lia; subst i j;
    cbn [csum]; rewrite E; unfold eye; cbn [Nat.eqb];
    apply injective_projections; cbn; field.
Qed.
