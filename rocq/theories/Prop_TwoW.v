(** * C162: attaching two interaction lines by Fourier transforms *)
Require Import Reals List Arith Bool ZArith Lia.
From Coquelicot Require Import Complex.
Require Import Verif.PyWeight Verif.DysonSpec Verif.Vertex Verif.TwoW Verif.P_Vertex Verif.P_TwoW.
Import ListNotations.
Local Open Scope nat_scope.

(** The result is the sum over the places j, j' of the function and the displacements i, i' of the two
    lines; a place is a site with a time, displacements add modulo the lattice and Beta. *)
Theorem C162_lines : forall L s w x a b, Forall (fun l => 0 < l) L -> a < fold_right Nat.mul 1 L -> b < fold_right Nat.mul 1 L ->
  let n := fold_right Nat.mul 1 L in
  addTwoW L s w x a b =
  Cmult (RtoC (if s =? 0 then -1 else -4))
    (csum n (fun i => csum n (fun j => csum n (fun i' => csum n (fun j' =>
       if (a =? addSite L i j) && (b =? addSite L i' j') then Cmult (Cmult (w i) (w i')) (x j j') else RtoC 0))))).
Proof. exact twoW_conv. Qed.
Print Assumptions C162_lines.

Theorem C162_keeps : forall L s w x, Forall (fun l => 0 < l) L ->
  (forall i, i < fold_right Nat.mul 1 L -> Cconj (w i) = w i) ->
  (forall a b, a < fold_right Nat.mul 1 L -> b < fold_right Nat.mul 1 L -> x a b = Copp (Cconj (x b a))) ->
  forall a b, a < fold_right Nat.mul 1 L -> b < fold_right Nat.mul 1 L ->
  addTwoW L s w x a b = Copp (Cconj (addTwoW L s w x b a)).
Proof. exact twoW_antihermitian. Qed.
Print Assumptions C162_keeps.
Example C162_meets : Forall (fun l => 0 < l) [2; 2; 4] /\ 15 < fold_right Nat.mul 1 [2; 2; 4] /\
  (forall a b : nat, (fun _ _ : nat => Ci) a b = Copp (Cconj ((fun _ _ => Ci) b a))).
Proof.
  split; [repeat constructor; lia|]. split; [cbn; lia|]. intros _ _. unfold Ci, Copp, Cconj. cbn. f_equal; ring.
Qed.

(** The line on the coarse bins is that on the fine ones at the same times *)
Theorem C162_kept : forall maxTau tiny q, 0 < tiny -> 0 < q -> maxTau = q * tiny ->
  kept maxTau tiny = Some (map (fun i => i * q) (seq 0 tiny)).
Proof. exact kept_all. Qed.
Print Assumptions C162_kept.
Theorem C162_times : forall beta maxTau tiny q i, 0 < tiny -> 0 < q -> maxTau = q * tiny ->
  (INR (i * q) * (beta / INR maxTau) = INR i * (beta / INR tiny))%R.
Proof. exact kept_times. Qed.
Print Assumptions C162_times.
Theorem C162_line : forall beta maxTau tiny W W0 (w : nat -> Z -> C) q r t, 0 < tiny -> 0 < q -> maxTau = q * tiny -> t < tiny ->
  (forall r b, b < maxTau -> w r (Z.of_nat b) = W r b) -> (forall r k, w r (k - Z.of_nat maxTau)%Z = w r k) ->
  wtot beta maxTau tiny W W0 (t * q) r t =
  Cplus (Cmult (Cmult (RtoC (1 / 2)) (Cplus (w r (Z.of_nat t * Z.of_nat q - 1)%Z) (w r (Z.of_nat t * Z.of_nat q)%Z))) (RtoC (beta / INR tiny)))
        (if t =? 0 then W0 r else RtoC 0).
Proof. exact wtot_value. Qed.
Print Assumptions C162_line.
Theorem C162_real : forall beta maxTau tiny W W0 bin r t, (forall b, Cconj (W r b) = W r b) -> Cconj (W0 r) = W0 r ->
  Cconj (wtot beta maxTau tiny W W0 bin r t) = wtot beta maxTau tiny W W0 bin r t.
Proof. exact wtot_real. Qed.
Print Assumptions C162_real.
Example C162_line_meets : 0 < 4 /\ 0 < 2 /\ 8 = 2 * 4 /\ 3 < 4 /\ (forall b : nat, Cconj (RtoC 1) = RtoC 1) /\
  (forall k, (fun z => RtoC (IZR (z mod 8))) (k - Z.of_nat 8)%Z = (fun z => RtoC (IZR (z mod 8))) k).
Proof.
  repeat split; try lia; [intros _; apply cj_real|]. intros k. do 2 f_equal. change (Z.of_nat 8) with 8%Z.
  replace (k - 8)%Z with (k + (-1) * 8)%Z by lia. apply Z.mod_add. lia.
Qed.

(** Other numbers of bins: too many samples, or none *)
Theorem C162_kept_refuted : exists maxTau tiny l, 0 < tiny /\ tiny <= maxTau /\ kept maxTau tiny = Some l /\ length l <> tiny.
Proof. exact kept_wrong. Qed.
Print Assumptions C162_kept_refuted.
Theorem C162_none : forall maxTau tiny, 0 < tiny -> maxTau < tiny -> kept maxTau tiny = None.
Proof. exact kept_none. Qed.
Print Assumptions C162_none.
Example C162_none_meets : 0 < 16 /\ 8 < 16.
Proof. lia. Qed.
