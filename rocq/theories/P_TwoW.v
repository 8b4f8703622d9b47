Require Import Reals List Arith Bool ZArith Lia Lra.
From Coquelicot Require Import Complex.
Require Import Verif.PyWeight Verif.P_Fourier Verif.DysonSpec Verif.P_Dyson Verif.Vertex Verif.P_Vertex Verif.P_Vertex2 Verif.TwoW.
Import ListNotations.
Local Open Scope nat_scope.

Definition good (L : list nat) := Forall (fun l => 0 < l) L.
Lemma back_forth L x n : good L -> n < prod L -> ifftn L (fftn L x) n = x n.
Proof.
  intros G H. rewrite <- (bwd_fwd (prod L) (fun k r => 2 * PI * dotOver L (coords L k) (coords L r))%R x n); [|apply space_ortho; exact G|exact H].
  unfold ifftn, bwd, fftn, fwd, prod. f_equal. apply csum_ext. intros k _. now rewrite (dot_sym L (coords L n)).
Qed.
Lemma ifftn_ext L x y n : (forall k, k < prod L -> x k = y k) -> ifftn L x n = ifftn L y n.
Proof. intros H. unfold ifftn. f_equal. apply csum_ext. intros k Hk. now rewrite H. Qed.

Definition conv1 (L : list nat) (w x : nat -> C) (a : nat) : C :=
  csum (prod L) (fun i => csum (prod L) (fun j => if Nat.eqb a (addSite L i j) then Cmult (w i) (x j) else RtoC 0)).
Lemma fftn_conv L w x k : good L -> fftn L (conv1 L w x) k = Cmult (fftn L w k) (fftn L x k).
Proof.
  intros G. unfold fftn at 1, conv1. fold (prod L).
  set (e := fun r => cis (- (2 * PI * dotOver L (coords L k) (coords L r)))).
  rewrite (csum_ext _ _ (fun a => csum (prod L) (fun i => csum (prod L) (fun j => if Nat.eqb a (addSite L i j) then Cmult (Cmult (w i) (x j)) (e a) else RtoC 0)))).
  2:{ intros a _. rewrite <- csum_scal_r. apply csum_ext. intros i _. rewrite <- csum_scal_r. apply csum_ext. intros j _.
      unfold e. destruct (Nat.eqb a (addSite L i j)); ring. }
  rewrite csum_swap.
  rewrite (csum_ext _ _ (fun i => csum (prod L) (fun j => Cmult (Cmult (w i) (e i)) (Cmult (x j) (e j))))).
  2:{ intros i Hi. rewrite csum_swap. apply csum_ext. intros j Hj.
      rewrite (csum_pick (prod L) (addSite L i j) (fun a => Cmult (Cmult (w i) (x j)) (e a))) by (apply addSite_lt; exact G).
      unfold e. rewrite addSite_dot by exact G. ring. }
  unfold fftn. fold (prod L). rewrite (csum_ext _ _ (fun i => Cmult (Cmult (w i) (e i)) (csum (prod L) (fun j => Cmult (x j) (e j))))).
  - rewrite csum_scal_r. reflexivity.
  - intros i _. apply csum_scal.
Qed.

(** Both indices *)
Definition conv12 (L : list nat) (w : nat -> C) (x : nat -> nat -> C) (a b : nat) : C :=
  conv1 L w (fun i => conv1 L w (x i) b) a.
Lemma fftn_ext L x y k : (forall r, r < prod L -> x r = y r) -> fftn L x k = fftn L y k.
Proof. intros H. unfold fftn. apply csum_ext. intros r Hr. now rewrite H. Qed.
Lemma fftn_scal L c x k : fftn L (fun r => Cmult c (x r)) k = Cmult c (fftn L x k).
Proof. unfold fftn. rewrite <- csum_scal. apply csum_ext. intros r _. ring. Qed.
Lemma fftn_if (L : list nat) (p : bool) x k : fftn L (fun r => if p then x r else RtoC 0) k = if p then fftn L x k else RtoC 0.
Proof. destruct p; [reflexivity|]. unfold fftn. rewrite (csum_ext _ _ (fun _ => RtoC 0)); [apply csum_zero|]. intros. ring. Qed.
Lemma fftn_sum L n (f : nat -> nat -> C) k : fftn L (fun r => csum n (fun i => f i r)) k = csum n (fun i => fftn L (f i) k).
Proof.
  unfold fftn. rewrite csum_swap. apply csum_ext. intros r _. now rewrite <- csum_scal_r.
Qed.
Lemma forth_conv L w x k1 k2 : good L -> forth2 L (conv12 L w x) k1 k2 = Cmult (Cmult (fftn L w k1) (forth2 L x k1 k2)) (fftn L w k2).
Proof.
  intros G. unfold forth2, conv12.
  rewrite (fftn_ext _ _ (conv1 L w (fun i => Cmult (fftn L w k2) (fftn L (x i) k2)))).
  2:{ intros a _. unfold conv1 at 1. rewrite fftn_sum. unfold conv1 at 2. apply csum_ext. intros i _.
      rewrite fftn_sum. apply csum_ext. intros j _. rewrite (fftn_if L (a =? addSite L i j) (fun b => Cmult (w i) (conv1 L w (x j) b))).
      rewrite fftn_scal, fftn_conv by exact G. reflexivity. }
  rewrite fftn_conv by exact G. rewrite fftn_scal. ring.
Qed.
Lemma back_forth2 L x a b : good L -> a < prod L -> b < prod L -> back2 L (forth2 L x) a b = x a b.
Proof.
  intros G Ha Hb. unfold back2, forth2.
  rewrite (ifftn_ext _ _ (fftn L (fun a => x a b))).
  - now rewrite (back_forth L (fun a => x a b) a G Ha).
  - intros k1 _. unfold ifftn. fold (prod L).
    rewrite (csum_ext _ _ (fun k => fftn L (fun a => Cmult (cis (2 * PI * dotOver L (coords L b) (coords L k))) (fftn L (x a) k)) k1))
      by (intros k _; rewrite fftn_scal; ring).
    rewrite <- (fftn_sum L (prod L) (fun k a => Cmult (cis (2 * PI * dotOver L (coords L b) (coords L k))) (fftn L (x a) k)) k1).
    rewrite <- fftn_scal. apply fftn_ext. intros r _. rewrite <- (back_forth L (x r) b G Hb). unfold ifftn. fold (prod L). f_equal.
    apply csum_ext. intros k _. ring.
Qed.
Lemma back2_ext L x y a b : (forall k1 k2, k1 < prod L -> k2 < prod L -> x k1 k2 = y k1 k2) -> back2 L x a b = back2 L y a b.
Proof. intros H. unfold back2. apply ifftn_ext. intros k1 H1. apply ifftn_ext. intros k2 H2. now apply H. Qed.
Lemma ifftn_scal L c x k : ifftn L (fun r => Cmult c (x r)) k = Cmult c (ifftn L x k).
Proof.
  unfold ifftn. rewrite (csum_ext _ _ (fun r => Cmult c (Cmult (x r) (cis (2 * PI * dotOver L (coords L k) (coords L r)))))) by (intros; ring).
  rewrite csum_scal. ring.
Qed.
Lemma back2_scal L c x a b : back2 L (fun k1 k2 => Cmult c (x k1 k2)) a b = Cmult c (back2 L x a b).
Proof.
  unfold back2. rewrite <- ifftn_scal. apply ifftn_ext. intros k1 _. apply ifftn_scal.
Qed.

Lemma twoW_conv L s w x a b : good L -> a < prod L -> b < prod L ->
  addTwoW L s w x a b =
  Cmult (RtoC (if s =? 0 then -1 else -4))
    (csum (prod L) (fun i => csum (prod L) (fun j => csum (prod L) (fun i' => csum (prod L) (fun j' =>
       if (a =? addSite L i j) && (b =? addSite L i' j') then Cmult (Cmult (w i) (w i')) (x j j') else RtoC 0))))).
Proof.
  intros G Ha Hb. unfold addTwoW.
  set (c := if s =? 0 then RtoC 1 else RtoC 4).
  rewrite (back2_ext _ _ (fun k1 k2 => Cmult c (forth2 L (conv12 L w x) k1 k2))).
  2:{ intros k1 k2 _ _. rewrite forth_conv by exact G. unfold c. destruct (s =? 0); [ring|].
      replace (RtoC 4) with (Cmult (RtoC 2) (RtoC 2)) by (rewrite <- RtoC_mult; f_equal; ring). ring. }
  rewrite back2_scal, back_forth2 by assumption. rewrite Cmult_assoc. f_equal.
  - unfold c. destruct (s =? 0); rewrite <- RtoC_mult; f_equal; ring.
  - unfold conv12, conv1. apply csum_ext. intros i _. apply csum_ext. intros j _.
    destruct (a =? addSite L i j); cbn [andb].
    + rewrite <- csum_scal. apply csum_ext. intros i' _. rewrite <- csum_scal. apply csum_ext. intros j' _.
      destruct (b =? addSite L i' j'); ring.
    + rewrite (csum_ext _ _ (fun _ => RtoC 0)); [now rewrite csum_zero|]. intros i' _. now rewrite csum_zero.
Qed.

Lemma csum_swap4 n (f : nat -> nat -> nat -> nat -> C) :
  csum n (fun i => csum n (fun j => csum n (fun i' => csum n (fun j' => f i j i' j')))) =
  csum n (fun i' => csum n (fun j' => csum n (fun i => csum n (fun j => f i j i' j')))).
Proof.
  rewrite (csum_ext _ _ (fun i => csum n (fun i' => csum n (fun j => csum n (fun j' => f i j i' j'))))) by (intros; apply csum_swap).
  rewrite csum_swap. apply csum_ext. intros i' _.
  rewrite (csum_ext _ _ (fun i => csum n (fun j' => csum n (fun j => f i j i' j')))) by (intros; apply csum_swap).
  apply csum_swap.
Qed.
Lemma twoW_antihermitian L s w x : good L -> (forall i, i < prod L -> Cconj (w i) = w i) ->
  (forall a b, a < prod L -> b < prod L -> x a b = Copp (Cconj (x b a))) ->
  forall a b, a < prod L -> b < prod L -> addTwoW L s w x a b = Copp (Cconj (addTwoW L s w x b a)).
Proof.
  intros G Rw X a b Ha Hb. rewrite !twoW_conv by assumption. rewrite cj_mult, cj_real.
  rewrite <- (Cmult_1_l (Copp _)).
  replace (Cmult (RtoC 1) (Copp (Cmult (RtoC (if s =? 0 then -1 else -4)) (Cconj
    (csum (prod L) (fun i => csum (prod L) (fun j => csum (prod L) (fun i' => csum (prod L) (fun j' =>
       if (b =? addSite L i j) && (a =? addSite L i' j') then Cmult (Cmult (w i) (w i')) (x j j') else RtoC 0)))))))))
  with (Cmult (RtoC (if s =? 0 then -1 else -4)) (Cmult (RtoC (-1)) (Cconj
    (csum (prod L) (fun i => csum (prod L) (fun j => csum (prod L) (fun i' => csum (prod L) (fun j' =>
       if (b =? addSite L i j) && (a =? addSite L i' j') then Cmult (Cmult (w i) (w i')) (x j j') else RtoC 0))))))))
   by (rewrite minus1; ring).
  f_equal. rewrite csum_swap4. rewrite cj_csum, <- csum_scal. apply csum_ext. intros i Hi.
  rewrite cj_csum, <- csum_scal. apply csum_ext. intros j Hj.
  rewrite cj_csum, <- csum_scal. apply csum_ext. intros i' Hi'.
  rewrite cj_csum, <- csum_scal. apply csum_ext. intros j' Hj'.
  rewrite andb_comm. destruct ((b =? addSite L i j) && (a =? addSite L i' j')).
  - rewrite (X j' j) by assumption. rewrite !cj_mult, !Rw by assumption. rewrite minus1. ring.
  - rewrite cj_real, minus1. ring.
Qed.

Lemma kept_all maxTau tiny q : 0 < tiny -> 0 < q -> maxTau = q * tiny ->
  kept maxTau tiny = Some (map (fun i => i * q) (seq 0 tiny)).
Proof.
  intros T Q ->. unfold kept. rewrite Nat.div_mul by lia. destruct (Nat.eqb_spec tiny 0); [lia|]. destruct (Nat.eqb_spec q 0); [lia|].
  cbn [orb]. do 3 f_equal. replace (q * tiny + q - 1) with (tiny * q + (q - 1)) by lia. rewrite Nat.div_add_l by lia. rewrite Nat.div_small by lia. lia.
Qed.
Lemma kept_times beta maxTau tiny q i : 0 < tiny -> 0 < q -> maxTau = q * tiny ->
  (INR (i * q) * (beta / INR maxTau) = INR i * (beta / INR tiny))%R.
Proof.
  intros T Q ->. rewrite !mult_INR. field. split; apply not_0_INR; lia.
Qed.
Lemma kept_wrong : exists maxTau tiny l, 0 < tiny /\ tiny <= maxTau /\ kept maxTau tiny = Some l /\ length l <> tiny.
Proof. exists 10, 4, [0; 2; 4; 6; 8]. repeat split; try lia. cbn. lia. Qed.
Lemma kept_none maxTau tiny : 0 < tiny -> maxTau < tiny -> kept maxTau tiny = None.
Proof. intros T H. unfold kept. rewrite Nat.div_small by exact H. now rewrite orb_true_r. Qed.
Lemma wtot_value beta maxTau tiny W W0 (w : nat -> Z -> C) q r t : 0 < tiny -> 0 < q -> maxTau = q * tiny -> t < tiny ->
  (forall r b, b < maxTau -> w r (Z.of_nat b) = W r b) -> (forall r k, w r (k - Z.of_nat maxTau)%Z = w r k) ->
  wtot beta maxTau tiny W W0 (t * q) r t =
  Cplus (Cmult (Cmult (RtoC (1 / 2)) (Cplus (w r (Z.of_nat t * Z.of_nat q - 1)%Z) (w r (Z.of_nat t * Z.of_nat q)%Z))) (RtoC (beta / INR tiny)))
        (if t =? 0 then W0 r else RtoC 0).
Proof.
  intros T Q E Ht A P. unfold wtot, wshift. do 3 f_equal.
  destruct (Nat.eqb_spec (t * q) 0) as [Z|Z].
  - rewrite <- !A by nia. rewrite <- (P r (Z.of_nat (maxTau - 1))). f_equal; f_equal; nia.
  - rewrite <- !A by nia. f_equal; f_equal; nia.
Qed.
Lemma wtot_real beta maxTau tiny W W0 bin r t : (forall b, Cconj (W r b) = W r b) -> Cconj (W0 r) = W0 r ->
  Cconj (wtot beta maxTau tiny W W0 bin r t) = wtot beta maxTau tiny W W0 bin r t.
Proof.
  intros A B. unfold wtot, wshift. rewrite cj_plus, !cj_mult, cj_plus, !cj_real, !A. destruct (t =? 0); rewrite ?cj_real, ?B; reflexivity.
Qed.
