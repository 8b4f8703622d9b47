Require Import Reals List Arith Bool Lra Lia.
From Coquelicot Require Import Complex.
Require Import Verif.PyWeight Verif.PyWeightSpec Verif.Dyson Verif.DysonSpec
  Verif.P_Fourier Verif.P_PyWeight Verif.P_PyWeight2.
Import ListNotations.
Local Open Scope R_scope.

(* ---- the transform of space alone and of both ---- *)
Definition sp s k (f : nat -> C) : C :=
  csum (vol s) (fun r => Cmult (f r) (cis (- kDotR s k r))).
Definition ht s k m (f : nat -> nat -> C) : C :=
  csum (bins s) (fun n => Cmult (sp s k (fun r => f r n))
                                (cis (- (matsubara s m * binTime s n)))).

Lemma sp_ext s k f g : (forall r, (r < vol s)%nat -> f r = g r) -> sp s k f = sp s k g.
Proof. intros H. apply csum_ext. intros r Hr. now rewrite H. Qed.
Lemma ht_ext s k m f g :
  (forall r n, (r < vol s)%nat -> (n < bins s)%nat -> f r n = g r n) ->
  ht s k m f = ht s k m g.
Proof. intros H. apply csum_ext. intros n Hn. f_equal. apply sp_ext. auto. Qed.

Lemma sp_sum s k n f : sp s k (fun r => csum n (fun l => f l r))
  = csum n (fun l => sp s k (f l)).
Proof.
  unfold sp. rewrite csum_swap. apply csum_ext. intros r _.
  now rewrite csum_scal_r.
Qed.
Lemma ht_sum s k m n f : ht s k m (fun r t => csum n (fun l => f l r t))
  = csum n (fun l => ht s k m (f l)).
Proof.
  unfold ht. rewrite csum_swap. apply csum_ext. intros t _.
  rewrite (sp_sum s k n (fun l r => f l r t)). now rewrite csum_scal_r.
Qed.
Lemma sp_scal s k a f : sp s k (fun r => Cmult a (f r)) = Cmult a (sp s k f).
Proof.
  unfold sp. rewrite <- csum_scal. apply csum_ext. intros. ring.
Qed.
Lemma ht_scal s k m a f : ht s k m (fun r t => Cmult a (f r t)) = Cmult a (ht s k m f).
Proof.
  unfold ht. rewrite <- csum_scal. apply csum_ext. intros.
  rewrite (sp_scal s k a). ring.
Qed.
Lemma sp_plus s k f g : sp s k (fun r => Cplus (f r) (g r)) = Cplus (sp s k f) (sp s k g).
Proof. unfold sp. rewrite <- csum_plus. apply csum_ext. intros. ring. Qed.
Lemma ht_plus s k m f g : ht s k m (fun r t => Cplus (f r t) (g r t))
  = Cplus (ht s k m f) (ht s k m g).
Proof.
  unfold ht. rewrite <- csum_plus. apply csum_ext. intros.
  rewrite sp_plus. ring.
Qed.

Lemma sp_at s k r0 a : (r0 < vol s)%nat ->
  sp s k (fun r => if Nat.eqb r r0 then a else RtoC 0)
  = Cmult a (cis (- kDotR s k r0)).
Proof.
  intros H. unfold sp.
  rewrite <- (csum_delta (vol s) r0 (fun r => Cmult a (cis (- kDotR s k r))) H).
  apply csum_ext. intros r _. destruct (Nat.eqb r r0); [reflexivity|ring].
Qed.
Lemma ht_at s k m r0 t0 a : (r0 < vol s)%nat -> (t0 < bins s)%nat ->
  ht s k m (fun r t => if Nat.eqb r r0 && Nat.eqb t t0 then a else RtoC 0)
  = Cmult a (Cmult (cis (- kDotR s k r0)) (cis (- (matsubara s m * binTime s t0)))).
Proof.
  intros H Ht. unfold ht.
  rewrite <- (csum_delta (bins s) t0
    (fun t => Cmult a (Cmult (cis (- kDotR s k r0)) (cis (- (matsubara s m * binTime s t))))) Ht).
  apply csum_ext. intros t _. destruct (Nat.eqb_spec t t0) as [->|D].
  - rewrite (sp_ext s k _ (fun r => if Nat.eqb r r0 then a else RtoC 0)).
    + rewrite sp_at by exact H. ring.
    + intros r _. now rewrite andb_true_r.
  - rewrite (sp_ext s k _ (fun r => Cmult (RtoC 0) (RtoC 0))).
    + rewrite sp_scal. ring.
    + intros r _. rewrite andb_false_r. ring.
Qed.
Lemma ht_row s k m r0 (a : nat -> C) : (r0 < vol s)%nat ->
  ht s k m (fun r t => if Nat.eqb r r0 then a t else RtoC 0)
  = Cmult (cis (- kDotR s k r0))
      (csum (bins s) (fun t => Cmult (a t) (cis (- (matsubara s m * binTime s t))))).
Proof.
  intros H. unfold ht. rewrite <- csum_scal. apply csum_ext. intros t _.
  rewrite sp_at by exact H. ring.
Qed.

(* ---- sites ---- *)
Lemma addSite_lt L : Forall (fun l => (0 < l)%nat) L -> forall r1 r2,
  (addSite L r1 r2 < prod L)%nat.
Proof.
  induction 1 as [|l L Hl F IH]; intros r1 r2; cbn; [lia|].
  pose proof (prod_pos L F) as P.
  pose proof (Nat.mod_upper_bound (r1 / prod L + r2 / prod L) l ltac:(lia)) as M.
  specialize (IH (r1 mod prod L)%nat (r2 mod prod L)%nat).
  set (q := ((r1 / prod L + r2 / prod L) mod l)%nat) in *. nia.
Qed.

Lemma addSite_dot L : Forall (fun l => (0 < l)%nat) L -> forall k r1 r2,
  cis (- (2 * PI * dotOver L (coords L k) (coords L (addSite L r1 r2))))
  = Cmult (cis (- (2 * PI * dotOver L (coords L k) (coords L r1))))
          (cis (- (2 * PI * dotOver L (coords L k) (coords L r2)))).
Proof.
  induction 1 as [|l L Hl F IH]; intros k r1 r2.
  - cbn. rewrite <- cis_plus. f_equal. ring.
  - cbn [addSite]. rewrite coords_split by (try apply addSite_lt; assumption).
    cbn [coords dotOver].
    set (K := (k / prod L)%nat). set (k' := (k mod prod L)%nat).
    set (a := (r1 / prod L)%nat). set (b := (r2 / prod L)%nat).
    set (r1' := (r1 mod prod L)%nat). set (r2' := (r2 mod prod L)%nat).
    specialize (IH k' r1' r2').
    assert (Hl' : INR l <> 0) by (apply not_0_INR; lia).
    assert (D : INR a + INR b = INR l * INR ((a + b) / l) + INR ((a + b) mod l)).
    { rewrite <- plus_INR, <- mult_INR, <- plus_INR. f_equal.
      apply Nat.div_mod. lia. }
    rewrite Rmult_plus_distr_l, Ropp_plus_distr, cis_plus, IH.
    rewrite !Rmult_plus_distr_l, !Ropp_plus_distr, !cis_plus.
    set (X := cis (- (2 * PI * dotOver L _ (coords L r1')))).
    set (Y := cis (- (2 * PI * dotOver L _ (coords L r2')))).
    assert (E : cis (- (2 * PI * (INR K * INR ((a + b) mod l) / INR l)))
              = Cmult (cis (- (2 * PI * (INR K * INR a / INR l))))
                      (cis (- (2 * PI * (INR K * INR b / INR l))))).
    { rewrite <- cis_plus.
      replace (- (2 * PI * (INR K * INR a / INR l)) + - (2 * PI * (INR K * INR b / INR l)))
        with (- (2 * PI * (INR K * INR ((a + b) mod l) / INR l))
              + - (2 * PI * INR (K * ((a + b) / l)))).
      - rewrite cis_plus.
        rewrite <- (Cmult_1_r (cis (- (2 * PI * (INR K * INR ((a + b) mod l) / INR l))))) at 1.
        f_equal. rewrite <- (cis_inv (2 * PI * INR (K * ((a + b) / l)))), cis_2PI. ring.
      - rewrite mult_INR.
        replace (INR ((a + b) mod l)) with (INR a + INR b - INR l * INR ((a + b) / l)) by lra.
        field. exact Hl'. }
    rewrite E. ring.
Qed.

Lemma k_add s k r1 r2 : proper s ->
  cis (- kDotR s k (addSite (dims s) r1 r2))
  = Cmult (cis (- kDotR s k r1)) (cis (- kDotR s k r2)).
Proof. intros (P & _). unfold kDotR. now apply addSite_dot. Qed.

(* ---- time ---- *)
Lemma cis_PI n : cis (- (INR n * PI)) = RtoC ((-1) ^ n).
Proof.
  induction n as [|n IH].
  - cbn. rewrite Rmult_0_l, Ropp_0. apply cis_0.
  - rewrite S_INR. replace (- ((INR n + 1) * PI)) with (- (INR n * PI) + - PI) by ring.
    rewrite cis_plus, IH. unfold cis. rewrite cos_neg, sin_neg, cos_PI, sin_PI.
    cbn [pow]. unfold RtoC, Cmult. cbn. f_equal; ring.
Qed.

Lemma even_pow q m : (-1) ^ (q * (2 * m + 1)) = (-1) ^ q.
Proof.
  induction q as [|q IH]; [reflexivity|].
  replace (S q * (2 * m + 1))%nat with (q * (2 * m + 1) + (2 * m + 1))%nat by lia.
  rewrite pow_add, IH, pow_add, pow_mult.
  replace ((-1) ^ 2) with 1 by ring. rewrite pow1. cbn. ring.
Qed.

Lemma around_time s m T : proper s ->
  Cmult (around s T) (cis (- (matsubara s m * binTime s (T mod bins s))))
  = cis (- (matsubara s m * ((INR T + 1/2) * step s))).
Proof.
  intros (_ & N & B). assert (N' : INR (bins s) <> 0) by now apply INR_nz.
  assert (D : INR T = INR (bins s) * INR (T / bins s) + INR (T mod bins s)).
  { rewrite <- mult_INR, <- plus_INR. f_equal. apply Nat.div_mod. lia. }
  set (q := (T / bins s)%nat) in *.
  replace (- (matsubara s m * ((INR T + 1/2) * step s)))
    with (- (matsubara s m * beta s * INR q)
          + - (matsubara s m * binTime s (T mod bins s))).
  2:{ rewrite D. unfold binTime, step. field. exact N'. }
  rewrite cis_plus. f_equal. unfold around, matsubara. fold q.
  destruct (isSymmetric s).
  - replace (- (2 * INR m * PI / beta s * beta s * INR q))
      with (- (2 * PI * INR (m * q))) by (rewrite mult_INR; field; lra).
    rewrite <- (cis_inv (2 * PI * INR (m * q))), cis_2PI. ring.
  - replace (- ((2 * INR m + 1) * PI / beta s * beta s * INR q))
      with (- (INR (q * (2 * m + 1)) * PI)).
    + rewrite cis_PI, even_pow. reflexivity.
    + rewrite mult_INR, plus_INR, mult_INR. cbn [INR]. field. lra.
Qed.

Lemma shift_time s m t1 t2 c :
  cis (- (matsubara s m * ((INR (t1 + t2 + c) + 1/2) * step s)))
  = Cmult (cis (- (matsubara s m * (INR c - 1/2) * step s)))
      (Cmult (cis (- (matsubara s m * binTime s t1)))
             (cis (- (matsubara s m * binTime s t2)))).
Proof.
  rewrite <- !cis_plus. f_equal. rewrite !plus_INR. unfold binTime, step, Rdiv. ring.
Qed.

(* ---- the transforms of the convolutions ---- *)
Lemma ht_swap s k m f : ht s k m f =
  csum (vol s) (fun r => csum (bins s) (fun t =>
    Cmult (f r t) (Cmult (cis (- kDotR s k r)) (cis (- (matsubara s m * binTime s t)))))).
Proof.
  unfold ht, sp. rewrite csum_swap. apply csum_ext. intros t _.
  rewrite <- csum_scal_r. apply csum_ext. intros r _. ring.
Qed.

Lemma ht_conv2 n s c x y k m i : proper s ->
  ht s k m (conv2 n s c x y i)
  = Cmult (cis (- (matsubara s m * (INR c - 1/2) * step s)))
      (csum n (fun l => Cmult (ht s k m (x ((i / n) * n + l)%nat))
                              (ht s k m (y (l * n + i mod n)%nat)))).
Proof.
  intros P. pose proof P as (PL & PN & _).
  unfold conv2. rewrite ht_sum, <- csum_scal. apply csum_ext. intros l _.
  rewrite ht_sum.
  set (u := x _). set (w := y _).
  rewrite (ht_swap s k m u), (ht_swap s k m w).
  rewrite <- csum_prod2, <- csum_scal. apply csum_ext. intros r1 _.
  rewrite ht_sum, <- csum_scal. apply csum_ext. intros r2 _.
  rewrite <- csum_prod2, <- csum_scal.
  rewrite ht_sum. apply csum_ext. intros t1 _.
  rewrite ht_sum, <- csum_scal. apply csum_ext. intros t2 _.
  rewrite ht_at; [|now apply addSite_lt|apply Nat.mod_upper_bound; lia].
  rewrite k_add by exact P.
  set (A := around s (t1 + t2 + c)). set (Z := cis (- (matsubara s m * binTime s _))).
  assert (E : Cmult A Z = cis (- (matsubara s m * ((INR (t1 + t2 + c) + 1/2) * step s))))
    by (now apply around_time).
  rewrite shift_time in E.
  set (k1 := cis (- kDotR s k r1)) in *. set (k2 := cis (- kDotR s k r2)) in *.
  replace (Cmult (Cmult A (Cmult (u r1 t1) (w r2 t2))) (Cmult (Cmult k1 k2) Z))
    with (Cmult (Cmult A Z) (Cmult (Cmult (u r1 t1) (w r2 t2)) (Cmult k1 k2))) by ring.
  rewrite E. ring.
Qed.

Lemma ht_convR n s x d k m i : proper s ->
  ht s k m (convR n s x d i)
  = csum n (fun l => Cmult (ht s k m (x ((i / n) * n + l)%nat))
                           (sp s k (fun r => d (l * n + i mod n)%nat r 0%nat))).
Proof.
  intros P. pose proof P as (PL & PN & _).
  unfold convR. rewrite ht_sum. apply csum_ext. intros l _.
  rewrite ht_sum.
  set (u := x _). set (w := d _).
  rewrite (ht_swap s k m u). unfold sp.
  rewrite <- csum_prod2. apply csum_ext. intros r1 _.
  rewrite ht_sum. apply csum_ext. intros r2 _.
  rewrite (ht_row s k m _ (fun t => Cmult (u r1 t) (w r2 0%nat))) by now apply addSite_lt.
  rewrite k_add by exact P.
  rewrite <- csum_scal, <- csum_scal_r. apply csum_ext. intros t _. ring.
Qed.

Lemma ht_convL n s d x k m i : proper s ->
  ht s k m (convL n s d x i)
  = csum n (fun l => Cmult (sp s k (fun r => d ((i / n) * n + l)%nat r 0%nat))
                           (ht s k m (x (l * n + i mod n)%nat))).
Proof.
  intros P. pose proof P as (PL & PN & _).
  unfold convL. rewrite ht_sum. apply csum_ext. intros l _.
  rewrite ht_sum.
  set (u := x _). set (w := d _).
  rewrite (ht_swap s k m u). unfold sp.
  rewrite <- csum_prod2. apply csum_ext. intros r1 _.
  rewrite ht_sum. apply csum_ext. intros r2 _.
  rewrite (ht_row s k m _ (fun t => Cmult (w r1 0%nat) (u r2 t))) by now apply addSite_lt.
  rewrite k_add by exact P.
  rewrite <- csum_scal, <- csum_scal. apply csum_ext. intros t _. ring.
Qed.

Lemma half_cos s m : cis (- (matsubara s m * (INR 0 - 1/2) * step s))
  = cis (matsubara s m * (step s / 2)).
Proof. f_equal. cbn. field. Qed.

Lemma ht_mean n s x y k m i : proper s ->
  ht s k m (convMean n s x y i)
  = Cmult (RtoC (cos (matsubara s m * (step s / 2))))
      (csum n (fun l => Cmult (ht s k m (x ((i / n) * n + l)%nat))
                              (ht s k m (y (l * n + i mod n)%nat)))).
Proof.
  intros P. unfold convMean, dataScale, dataAdd.
  rewrite ht_scal, ht_plus, !ht_conv2 by exact P.
  set (S := csum n _).
  replace (- (matsubara s m * (INR 0 - 1/2) * step s))
    with (matsubara s m * (step s / 2)) by (cbn; field).
  replace (- (matsubara s m * (INR 1 - 1/2) * step s))
    with (- (matsubara s m * (step s / 2))) by (cbn; field).
  set (a := matsubara s m * (step s / 2)).
  unfold cis. rewrite cos_neg, sin_neg.
  replace (RtoC (cos a)) with (Cmult (RtoC (1/2)) (Cplus (cos a, sin a) (cos a, - sin a))).
  - ring.
  - unfold RtoC, Cmult, Cplus. cbn. f_equal; field.
Qed.

Lemma ht_conv10 n s x y z k m i : proper s -> (0 < n)%nat ->
  ht s k m (conv2 n s 1 (conv2 n s 0 x y) z i)
  = csum n (fun l => Cmult
      (csum n (fun j => Cmult (ht s k m (x ((i / n) * n + j)%nat))
                              (ht s k m (y (j * n + l)%nat))))
      (ht s k m (z (l * n + i mod n)%nat))).
Proof.
  intros P Hn. rewrite ht_conv2 by exact P. rewrite <- csum_scal.
  apply csum_ext. intros l Hl. rewrite ht_conv2 by exact P.
  rewrite Nat.div_add_l, (Nat.div_small l n), Nat.add_0_r by lia.
  rewrite (Nat.add_comm (i / n * n) l), Nat.mod_add, Nat.mod_small by lia.
  rewrite !Cmult_assoc. f_equal. rewrite <- cis_plus.
  replace (_ + _) with 0 by (cbn; field).
  rewrite cis_0. ring.
Qed.
