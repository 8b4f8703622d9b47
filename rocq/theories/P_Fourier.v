(* Finite Fourier sums. *)
Require Import Reals List Arith Bool Lra Lia.
From Coquelicot Require Import Complex.
Require Import Verif.PyWeight.
Import ListNotations.
Local Open Scope R_scope.

Lemma csum_ext n f g : (forall i, (i < n)%nat -> f i = g i) ->
  csum n f = csum n g.
Proof.
  induction n as [|n IH]; intros H; cbn; [reflexivity|].
  rewrite IH by (intros; apply H; lia). now rewrite H by lia.
Qed.

Lemma csum_plus n f g :
  csum n (fun i => Cplus (f i) (g i)) = Cplus (csum n f) (csum n g).
Proof. induction n as [|n IH]; cbn; [ring|]. rewrite IH. ring. Qed.

Lemma csum_scal n a f : csum n (fun i => Cmult a (f i)) = Cmult a (csum n f).
Proof. induction n as [|n IH]; cbn; [ring|]. rewrite IH. ring. Qed.

Lemma csum_scal_r n a f : csum n (fun i => Cmult (f i) a) = Cmult (csum n f) a.
Proof. induction n as [|n IH]; cbn; [ring|]. rewrite IH. ring. Qed.

Lemma csum_zero n : csum n (fun _ => RtoC 0) = RtoC 0.
Proof. induction n as [|n IH]; cbn; [reflexivity|]. rewrite IH. ring. Qed.

Lemma csum_swap n m (f : nat -> nat -> C) :
  csum n (fun i => csum m (fun j => f i j))
  = csum m (fun j => csum n (fun i => f i j)).
Proof.
  induction n as [|n IH]; cbn.
  - now rewrite csum_zero.
  - now rewrite IH, csum_plus.
Qed.

Lemma csum_delta n k f : (k < n)%nat ->
  csum n (fun i => if Nat.eqb i k then f i else RtoC 0) = f k.
Proof.
  induction n as [|n IH]; intros H; [lia|]. cbn.
  destruct (Nat.eqb_spec n k) as [->|D].
  - rewrite (csum_ext k _ (fun _ => RtoC 0)).
    + rewrite csum_zero. ring.
    + intros i Hi. destruct (Nat.eqb_spec i k); [lia|reflexivity].
  - rewrite IH by lia. ring.
Qed.

Lemma csum_app n m f :
  csum (n + m) f = Cplus (csum n f) (csum m (fun j => f (n + j)%nat)).
Proof.
  induction m as [|m IH]; cbn.
  - rewrite Nat.add_0_r. ring.
  - rewrite Nat.add_succ_r. cbn. rewrite IH. ring.
Qed.

Lemma csum_prod a b f :
  csum (a * b) f = csum a (fun i => csum b (fun j => f (i * b + j)%nat)).
Proof.
  induction a as [|a IH]; cbn [csum Nat.mul]; [reflexivity|].
  rewrite Nat.add_comm, csum_app, IH. reflexivity.
Qed.

Lemma csum_const n c : csum n (fun _ => c) = Cmult (RtoC (INR n)) c.
Proof.
  induction n as [|n IH]; [cbn; ring|].
  rewrite S_INR, RtoC_plus. cbn [csum]. rewrite IH. ring.
Qed.

Lemma csum_prod2 a b (f g : nat -> C) :
  csum a (fun i => csum b (fun j => Cmult (f i) (g j)))
  = Cmult (csum a f) (csum b g).
Proof.
  rewrite (csum_ext a _ (fun i => Cmult (f i) (csum b g))).
  - now rewrite csum_scal_r.
  - intros. apply csum_scal.
Qed.

Lemma cis_plus x y : cis (x + y) = Cmult (cis x) (cis y).
Proof.
  unfold cis, Cmult; cbn. rewrite cos_plus, sin_plus. f_equal; ring.
Qed.
Lemma cis_0 : cis 0 = RtoC 1.
Proof. unfold cis. now rewrite cos_0, sin_0. Qed.
Lemma cis_2PI n : cis (2 * PI * INR n) = RtoC 1.
Proof.
  unfold cis. replace (2 * PI * INR n) with (0 + 2 * INR n * PI) by ring.
  rewrite cos_period, sin_period, cos_0, sin_0. reflexivity.
Qed.
Lemma cis_inv x : Cmult (cis x) (cis (- x)) = RtoC 1.
Proof. rewrite <- cis_plus. replace (x + - x) with 0 by ring. apply cis_0. Qed.
Lemma cis_inv' x : Cmult (cis (- x)) (cis x) = RtoC 1.
Proof. rewrite Cmult_comm. apply cis_inv. Qed.

Fixpoint Cpow (z : C) (n : nat) : C :=
  match n with O => RtoC 1 | S n => Cmult z (Cpow z n) end.

Lemma geometric z n :
  Cmult (Cminus z (RtoC 1)) (csum n (fun i => Cpow z i))
  = Cminus (Cpow z n) (RtoC 1).
Proof.
  induction n as [|n IH]; cbn [csum Cpow]; [ring|].
  rewrite Cmult_plus_distr_l, IH. ring.
Qed.

Lemma cis_pow x n : Cpow (cis x) n = cis (INR n * x).
Proof.
  induction n as [|n IH].
  - cbn. rewrite Rmult_0_l. now rewrite cis_0.
  - cbn [Cpow]. rewrite IH, <- cis_plus, S_INR. f_equal. ring.
Qed.

Lemma cis_not1 d N : (0 < d < N)%nat -> cis (2 * PI * (INR d / INR N)) <> RtoC 1.
Proof.
  intros H E. assert (P : 0 < INR N) by (apply lt_0_INR; lia).
  assert (Hd : 0 < INR d / INR N < 1).
  { assert (0 < INR d) by (apply lt_0_INR; lia).
    assert (INR d < INR N) by (apply lt_INR; lia). split.
    - now apply Rdiv_lt_0_compat.
    - apply (Rmult_lt_reg_r (INR N)); [exact P|]. unfold Rdiv.
      rewrite Rmult_assoc, Rinv_l by lra. lra. }
  injection E as E _.
  replace (2 * PI * (INR d / INR N)) with (2 * (PI * (INR d / INR N))) in E by ring.
  rewrite cos_2a_sin in E.
  assert (S : 0 < sin (PI * (INR d / INR N))).
  { pose proof PI_RGT_0. apply sin_gt_0; nra. }
  nra.
Qed.

(* sums over all N-th roots of unity *)
Lemma roots N n n' : (n < N)%nat -> (n' < N)%nat ->
  csum N (fun m => Cmult (cis (2 * PI * (INR m * INR n / INR N)))
                         (cis (- (2 * PI * (INR m * INR n' / INR N)))))
  = if Nat.eqb n n' then RtoC (INR N) else RtoC 0.
Proof.
  intros Hn Hn'. assert (P : 0 < INR N) by (apply lt_0_INR; lia).
  destruct (Nat.eqb_spec n n') as [->|D].
  - rewrite (csum_ext N _ (fun _ => RtoC 1)) by (intros; apply cis_inv).
    rewrite csum_const. ring.
  - assert (G : forall a b, (a < b)%nat -> (b < N)%nat -> forall sg : R,
       (sg = 1 \/ sg = -1) ->
       csum N (fun m => cis (sg * (2 * PI * (INR m * (INR b - INR a) / INR N))))
       = RtoC 0).
    { intros a b Hab Hb sg Hsg.
      set (z := cis (sg * (2 * PI * (INR (b - a) / INR N)))).
      rewrite (csum_ext N _ (fun m => Cpow z m)).
      2:{ intros m _. unfold z. rewrite cis_pow. f_equal.
          rewrite minus_INR by lia. field. lra. }
      assert (Z1 : Cpow z N = RtoC 1).
      { unfold z. rewrite cis_pow. destruct Hsg as [->| ->].
        - replace (INR N * (1 * (2 * PI * (INR (b - a) / INR N))))
            with (2 * PI * INR (b - a)) by (field; lra). apply cis_2PI.
        - replace (INR N * (-1 * (2 * PI * (INR (b - a) / INR N))))
            with (- (2 * PI * INR (b - a))) by (field; lra).
          rewrite <- (cis_inv (2 * PI * INR (b - a))).
          rewrite cis_2PI. ring. }
      assert (Zn : Cminus z (RtoC 1) <> RtoC 0).
      { intros E. assert (E1 : z = RtoC 1).
        { replace z with (Cplus (Cminus z (RtoC 1)) (RtoC 1)) by ring.
          rewrite E. ring. }
        apply (cis_not1 (b - a) N); [lia|]. unfold z in E1.
        destruct Hsg as [->| ->].
        - now rewrite Rmult_1_l in E1.
        - rewrite <- (cis_inv (2 * PI * (INR (b - a) / INR N))).
          replace (-1 * (2 * PI * (INR (b - a) / INR N)))
            with (- (2 * PI * (INR (b - a) / INR N))) in E1 by ring.
          rewrite E1. ring. }
      pose proof (geometric z N) as Ge. rewrite Z1 in Ge.
      replace (Cminus (RtoC 1) (RtoC 1)) with (RtoC 0) in Ge by ring.
      destruct (Ceq_dec (csum N (fun i => Cpow z i)) (RtoC 0)) as [E|E];
        [exact E|].
      exfalso. exact (Cmult_neq_0 _ _ Zn E Ge). }
    destruct (Nat.lt_ge_cases n n') as [L|L].
    + rewrite <- (G n n' L Hn' (-1)) by auto. apply csum_ext. intros m _.
      rewrite <- cis_plus. f_equal. field. lra.
    + rewrite <- (G n' n ltac:(lia) Hn 1) by auto. apply csum_ext. intros m _.
      rewrite <- cis_plus. f_equal. field. lra.
Qed.

Notation prod L := (fold_right Nat.mul 1%nat L).

Lemma prod_pos L : Forall (fun l => (0 < l)%nat) L -> (0 < prod L)%nat.
Proof. induction 1; cbn; [lia|]. nia. Qed.

Lemma dot_sym L : forall k r, dotOver L k r = dotOver L r k.
Proof.
  induction L as [|l L IH]; intros [|a k] [|b r]; cbn; try reflexivity.
  rewrite IH. lra.
Qed.

Lemma coords_split l L i j : Forall (fun l => (0 < l)%nat) L -> (j < prod L)%nat ->
  coords (l :: L) (i * prod L + j) = i :: coords L j.
Proof.
  intros F H. cbn [coords].
  rewrite Nat.div_add_l by lia. rewrite Nat.div_small by exact H.
  rewrite Nat.add_0_r. f_equal. f_equal.
  rewrite Nat.add_comm, Nat.mod_add by lia. now apply Nat.mod_small.
Qed.

Lemma lattice_roots L : Forall (fun l => (0 < l)%nat) L -> forall r r',
  (r < prod L)%nat -> (r' < prod L)%nat ->
  csum (prod L) (fun k =>
    Cmult (cis (2 * PI * dotOver L (coords L k) (coords L r)))
          (cis (- (2 * PI * dotOver L (coords L k) (coords L r')))))
  = if Nat.eqb r r' then RtoC (INR (prod L)) else RtoC 0.
Proof.
  induction 1 as [|l L Hl F IH]; intros r r' Hr Hr'.
  - cbn in Hr, Hr'. assert (r = 0%nat) by lia. assert (r' = 0%nat) by lia. subst.
    cbn. rewrite cis_inv. ring.
  - pose proof (prod_pos L F) as P.
    cbn [fold_right] in *. rewrite csum_prod.
    assert (Dr : (r = (r / prod L) * prod L + r mod prod L)%nat)
      by (rewrite Nat.mul_comm; apply Nat.div_mod; lia).
    assert (Dr' : (r' = (r' / prod L) * prod L + r' mod prod L)%nat)
      by (rewrite Nat.mul_comm; apply Nat.div_mod; lia).
    assert (B : (r / prod L < l)%nat) by (apply Nat.div_lt_upper_bound; nia).
    assert (B' : (r' / prod L < l)%nat) by (apply Nat.div_lt_upper_bound; nia).
    assert (M : (r mod prod L < prod L)%nat) by (apply Nat.mod_upper_bound; lia).
    assert (M' : (r' mod prod L < prod L)%nat) by (apply Nat.mod_upper_bound; lia).
    rewrite (csum_ext l _ (fun i => csum (prod L) (fun j =>
       Cmult (Cmult (cis (2 * PI * (INR i * INR (r / prod L) / INR l)))
                    (cis (- (2 * PI * (INR i * INR (r' / prod L) / INR l)))))
             (Cmult (cis (2 * PI * dotOver L (coords L j) (coords L (r mod prod L))))
                    (cis (- (2 * PI * dotOver L (coords L j) (coords L (r' mod prod L))))))))).
    2:{ intros i Hi. apply csum_ext. intros j Hj.
        rewrite coords_split by assumption.
        cbn [coords dotOver].
        rewrite <- !cis_plus. f_equal. ring. }
    rewrite csum_prod2, roots, IH by assumption.
    destruct (Nat.eqb_spec r r') as [->|D].
    + rewrite !Nat.eqb_refl, mult_INR, RtoC_mult. reflexivity.
    + destruct (Nat.eqb_spec (r / prod L) (r' / prod L)) as [E1|];
        destruct (Nat.eqb_spec (r mod prod L) (r' mod prod L)) as [E2|];
        try ring.
      exfalso. apply D. rewrite Dr, Dr', E1, E2. reflexivity.
Qed.

(* a pair of transforms with phases A, inverse to each other *)
Definition ortho (N : nat) (A : nat -> nat -> R) : Prop :=
  (forall n n', (n < N)%nat -> (n' < N)%nat ->
     csum N (fun m => Cmult (cis (A m n)) (cis (- A m n')))
     = if Nat.eqb n n' then RtoC (INR N) else RtoC 0).

Definition fwd (N : nat) (A : nat -> nat -> R) (x : nat -> C) (m : nat) : C :=
  csum N (fun n => Cmult (x n) (cis (- A m n))).
Definition bwd (N : nat) (A : nat -> nat -> R) (y : nat -> C) (n : nat) : C :=
  Cmult (RtoC (/ INR N)) (csum N (fun m => Cmult (y m) (cis (A m n)))).

Lemma bwd_fwd N A x n : ortho N A -> (n < N)%nat -> bwd N A (fwd N A x) n = x n.
Proof.
  intros O H. unfold bwd, fwd.
  rewrite (csum_ext N _ (fun m => csum N (fun j =>
     Cmult (x j) (Cmult (cis (A m n)) (cis (- A m j)))))).
  2:{ intros m _. rewrite <- csum_scal_r. apply csum_ext. intros. ring. }
  rewrite csum_swap.
  rewrite (csum_ext N _ (fun j => if Nat.eqb j n then
        Cmult (RtoC (INR N)) (x j) else RtoC 0)).
  2:{ intros j Hj. rewrite csum_scal, (O n j H Hj).
      rewrite Nat.eqb_sym. destruct (Nat.eqb j n); ring. }
  rewrite csum_delta by exact H. rewrite Cmult_assoc, <- RtoC_mult, Rinv_l.
  - ring.
  - apply not_0_INR. lia.
Qed.

Definition flip (A : nat -> nat -> R) (m n : nat) : R := - A n m.

Lemma fwd_bwd N A y m : ortho N (flip A) -> (m < N)%nat ->
  fwd N A (bwd N A y) m = y m.
Proof.
  intros O H. rewrite <- (bwd_fwd N (flip A) y m O H).
  unfold bwd, fwd, flip. rewrite <- csum_scal. apply csum_ext. intros n _.
  rewrite (csum_ext N (fun n0 => Cmult (y n0) (cis (- - A n0 n)))
                      (fun n0 => Cmult (y n0) (cis (A n0 n)))).
  - ring.
  - intros. now rewrite Ropp_involutive.
Qed.

Lemma fwd_ext N A x x' m : (forall n, (n < N)%nat -> x n = x' n) ->
  fwd N A x m = fwd N A x' m.
Proof. intros H. apply csum_ext. intros. now rewrite H. Qed.
Lemma bwd_ext N A x x' m : (forall n, (n < N)%nat -> x n = x' n) ->
  bwd N A x m = bwd N A x' m.
Proof.
  intros H. unfold bwd. f_equal. apply csum_ext. intros. now rewrite H.
Qed.

(* time phases: 2 pi m n/N plus a part in m and a part in n *)
Lemma time_ortho N (A : nat -> nat -> R) (f g : nat -> R) : (0 < N)%nat ->
  (forall m n, A m n = 2 * PI * (INR m * INR n / INR N) + f m + g n) ->
  ortho N A /\ ortho N (flip A).
Proof.
  intros P H. split; intros n n' Hn Hn'.
  - rewrite (csum_ext N _ (fun m => Cmult (cis (g n - g n'))
        (Cmult (cis (2 * PI * (INR m * INR n / INR N)))
               (cis (- (2 * PI * (INR m * INR n' / INR N))))))).
    + rewrite csum_scal, roots by assumption.
      destruct (Nat.eqb_spec n n') as [->|]; [|ring].
      replace (g n' - g n') with 0 by ring. rewrite cis_0. ring.
    + intros m _. rewrite <- !cis_plus. f_equal. rewrite !H. ring.
  - unfold flip.
    rewrite (csum_ext N _ (fun m => Cmult (cis (f n' - f n))
        (Cmult (cis (2 * PI * (INR m * INR n' / INR N)))
               (cis (- (2 * PI * (INR m * INR n / INR N))))))).
    + rewrite csum_scal, roots by assumption. rewrite Nat.eqb_sym.
      destruct (Nat.eqb_spec n n') as [->|]; [|ring].
      replace (f n' - f n') with 0 by ring. rewrite cis_0. ring.
    + intros m _. rewrite <- !cis_plus. f_equal. rewrite !H.
      unfold Rdiv. ring.
Qed.

Lemma space_ortho L : Forall (fun l => (0 < l)%nat) L ->
  let A := fun k r => 2 * PI * dotOver L (coords L k) (coords L r) in
  ortho (prod L) A /\ ortho (prod L) (flip A).
Proof.
  intros F A. split; intros n n' Hn Hn'.
  - now apply lattice_roots.
  - unfold flip, A. rewrite (csum_ext _ _ (fun k =>
      Cmult (cis (2 * PI * dotOver L (coords L k) (coords L n')))
            (cis (- (2 * PI * dotOver L (coords L k) (coords L n)))))).
    + rewrite lattice_roots by assumption. now rewrite Nat.eqb_sym.
    + intros k _. rewrite Ropp_involutive, Cmult_comm.
      now rewrite (dot_sym L (coords L n')), (dot_sym L (coords L n)).
Qed.
