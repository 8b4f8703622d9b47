(** Proofs about EnforceSumRule. *)
Require Import Reals List Arith Bool Lia Lra FunctionalExtensionality.
From Coquelicot Require Import Complex.
Require Import Verif.PyWeight Verif.Dyson Verif.DysonSpec Verif.FirstOrder Verif.SumRule Verif.P_Fourier Verif.P_Vertex2.
Local Open Scope R_scope.

(** What Add_ChiTensor_ZerothOrder adds: the product of the two magnetisations *)
Definition mag (N : nat) (G : arr) (a : nat) : C :=
  Cmult (RtoC (1 / 2)) (Cminus (lastExtrapolated N (G 1%nat a 1%nat a 0%nat)) (lastExtrapolated N (G 0%nat a 0%nat a 0%nat))).
Lemma zeroth N G X m n v t : calculateChi (addChiZeroth N G X) m n v t =
  Cplus (calculateChi X m n v t) (Cmult (mag N G m) (mag N G n)).
Proof.
  unfold calculateChi, addChiZeroth, mag, szsz. cbn [csum Nat.eqb andb orb].
  change (3 / 2)%nat with 1%nat. change (3 mod 2)%nat with 1%nat. change (0 / 2)%nat with 0%nat. change (0 mod 2)%nat with 0%nat.
  replace (-1 / 4) with (- (1 / 4)) by field. replace (0 / 4) with 0 by field.
  replace (1 / 4) with (1 / 2 * (1 / 2)) by field. rewrite RtoC_opp, RtoC_mult. ring.
Qed.

Lemma enforce_exit solve nsub s W0 G f : forall p q, enforce solve nsub s W0 G f p = Some q ->
  Cmod (Cminus (chi0 solve nsub s W0 G q) (RtoC (3 / 4))) <= 1 / 1000 /\
  exists c, forall i k m, q i k m = Cmult (p i k m) c.
Proof.
  induction f as [|f IH]; intros p q; cbn [enforce]; destruct Rle_dec as [H|H]; intros E; try discriminate.
  - injection E as <-. split; [exact H|]. exists (RtoC 1). intros. ring.
  - injection E as <-. split; [exact H|]. exists (RtoC 1). intros. ring.
  - destruct (IH _ _ E) as (A & c & B). split; [exact A|].
    exists (Cmult (ratio solve nsub s W0 G p) c). intros i k m. rewrite B. unfold rescale. ring.
Qed.
Lemma not_quarter z : Cmod (Cminus z (RtoC (3 / 4))) <= 1 / 1000 -> 499 / 1000 <= Cmod (Cminus z (RtoC (1 / 4))).
Proof.
  intros H. pose proof (Cmod_triangle (Cminus z (RtoC (1 / 4))) (Cminus (RtoC (3 / 4)) z)) as T.
  replace (Cplus (Cminus z (RtoC (1 / 4))) (Cminus (RtoC (3 / 4)) z)) with (RtoC (1 / 2)) in T.
  2:{ replace (3 / 4) with (1 / 4 + 1 / 2) by field. rewrite RtoC_plus. ring. }
  replace (Cminus (RtoC (3 / 4)) z) with (Copp (Cminus z (RtoC (3 / 4)))) in T by ring.
  rewrite Cmod_opp, Cmod_R, Rabs_right in T by lra. lra.
Qed.

(** No interaction: ChiTensor is linear in Polar *)
Definition noW0 : plain := Plain dataZero true false.
Definition back (s : shape) (y : nat -> nat -> C) (r t : nat) : C :=
  pData (fftPlain s toRT (Plain (fun _ => y) true true)) 0%nat r t.
Lemma back_index s x i r t : pData (fftPlain s toRT (Plain x true true)) i r t = back s (x i) r t.
Proof.
  unfold back, fftPlain, fftWith, toRT. cbn. unfold timeBack, extraPhase, changeSymmetry, spaceBack.
  destruct (hasTau s); cbn; [destruct (isSymmetric s || _); reflexivity | reflexivity].
Qed.
Lemma back_scal s y c r t : back s (fun k m => Cmult (y k m) c) r t = Cmult (back s y r t) c.
Proof.
  assert (Z : forall L u k, ifftn L (fun r => Cmult (u r) c) k = Cmult (ifftn L u k) c).
  { intros L u q. unfold ifftn. rewrite <- Cmult_assoc. f_equal. rewrite <- csum_scal_r. apply csum_ext. intros. ring. }
  unfold back, fftPlain, fftWith, toRT. cbn. unfold timeBack, extraPhase, changeSymmetry, spaceBack.
  destruct (hasTau s); cbn; [|apply Z].
  assert (Y : forall u : nat -> nat -> C,
    ifft (bins s) (fun m => Cmult (ifftn (dims s) (fun k => Cmult (u k m) c) r) (cis (- (-1 * PI * INR m / INR (bins s))))) t =
    Cmult (ifft (bins s) (fun m => Cmult (ifftn (dims s) (fun k => u k m) r) (cis (- (-1 * PI * INR m / INR (bins s))))) t) c).
  { intros u. unfold ifft. rewrite <- Cmult_assoc. f_equal. rewrite <- csum_scal_r. apply csum_ext. intros m _.
    rewrite (Z (dims s) (fun k => u k m) r). ring. }
  destruct (isSymmetric s || false); cbn; rewrite (Y y); ring.
Qed.

Lemma free_connected solve nsub s p a sa b sb r t : goodSolver solve ->
  (a < 4)%nat -> (b < 4)%nat -> (sa < nsub)%nat -> (sb < nsub)%nat ->
  connected solve nsub s noW0 p a sa b sb r t =
  Copp (back s (p ((a * nsub + sa) * (4 * nsub) + (b * nsub + sb))%nat) r t).
Proof.
  intros good Ha Hb Hsa Hsb. unfold connected, wDyson. cbn [snd]. unfold el at 1.
  set (n := (4 * nsub)%nat). set (i := (a * nsub + sa)%nat). set (j := (b * nsub + sb)%nat).
  assert (Hi : (i < n)%nat) by (unfold i, n; nia). assert (Hj : (j < n)%nat) by (unfold j, n; nia).
  rewrite back_index. transitivity (back s (fun k m => Cmult (p (i * n + j)%nat k m) (RtoC (-1))) r t).
  2:{ rewrite back_scal, minus1. ring. }
  f_equal. extensionality k. extensionality m. unfold ofMatrix.
  replace ((i * n + j) / n)%nat with i by (rewrite Nat.div_add_l, Nat.div_small; lia).
  replace ((i * n + j) mod n)%nat with j by (rewrite Nat.add_comm, Nat.mod_add, Nat.mod_small; lia).
  match goal with |- solve _ ?D ?R i j = _ => set (DD := D); set (RR := R) end.
  assert (ED : DD = eye).
  { unfold DD, wDenorm, mm. extensionality u. extensionality v. unfold el at 1, noW0, fftPlain. cbn [pData fftWith toKonly fst snd pK pW].
    rewrite (csum_ext _ _ (fun _ => RtoC 0)). 2:{ intros; unfold dataZero; cbn. ring. }
    rewrite csum_zero. ring. }
  assert (I : invertible n DD).
  { rewrite ED. exists eye. split; intros u v Hu Hv; unfold eye; rewrite (csum_ext _ _ (fun l => if Nat.eqb l u then (if Nat.eqb u v then RtoC 1 else RtoC 0) else RtoC 0)).
    1,3: now rewrite (csum_delta n u (fun _ => if Nat.eqb u v then RtoC 1 else RtoC 0)) by exact Hu.
    all: intros l _; destruct (Nat.eqb_spec u l) as [->|E]; [rewrite Nat.eqb_refl; ring|destruct (Nat.eqb_spec l u); [congruence|ring]]. }
  pose proof (good n DD RR I i j Hi Hj) as S.
  assert (EDl : forall l, DD i l = eye i l) by (intros l; now rewrite ED).
  clearbody DD.
  rewrite (csum_ext _ _ (fun l => if Nat.eqb l i then solve n DD RR i j else RtoC 0)) in S.
  2:{ intros l _. rewrite EDl. unfold eye. destruct (Nat.eqb_spec i l) as [->|E]; [rewrite Nat.eqb_refl; ring|destruct (Nat.eqb_spec l i); [congruence|ring]]. }
  rewrite (csum_delta n i (fun _ => solve n DD RR i j)) in S by exact Hi.
  rewrite S. unfold RR, el. cbn. rewrite minus1. ring.
Qed.

Lemma free_scal solve nsub s p c m n r t : goodSolver solve -> (m < nsub)%nat -> (n < nsub)%nat ->
  calculateChi (connected solve nsub s noW0 (fun i k w => Cmult (p i k w) c)) m n r t =
  Cmult (calculateChi (connected solve nsub s noW0 p) m n r t) c.
Proof.
  intros good Hm Hn. unfold calculateChi. rewrite <- csum_scal_r. apply csum_ext. intros i Hi.
  rewrite <- csum_scal_r. apply csum_ext. intros k Hk.
  rewrite !free_connected by assumption.
  rewrite (back_scal s (p ((k * nsub + m) * (4 * nsub) + (i * nsub + n))%nat) c r t). ring.
Qed.

Lemma csqrt_pos x : 0 <= x -> csqrt (RtoC x) = RtoC (sqrt x).
Proof.
  intros H. unfold csqrt. rewrite Cmod_R, Rabs_right by lra. cbn [fst snd RtoC].
  destruct Rlt_dec; [lra|]. unfold RtoC. f_equal; [f_equal; field|].
  replace ((x - x) / 2) with 0 by field. apply sqrt_0.
Qed.

Section Free.
Variables (solve : nat -> matrix -> matrix -> matrix) (nsub : nat) (s : shape) (G : arr).
Hypothesis good : goodSolver solve.
Hypothesis Hn : (0 < nsub)%nat.
Hypothesis unmag : mag (bins s) G 0 = RtoC 0.

Lemma chi0_scal p c : chi0 solve nsub s noW0 G (fun i k m => Cmult (p i k m) c) = Cmult (chi0 solve nsub s noW0 G p) c.
Proof. unfold chi0, chiTensor. rewrite !zeroth, unmag, free_scal by assumption. ring. Qed.

(** Each pass takes the square root of the ratio *)
Lemma pass p r : 0 < r -> chi0 solve nsub s noW0 G p = RtoC (3 / 4 * r) ->
  chi0 solve nsub s noW0 G (rescale solve nsub s noW0 G p) = RtoC (3 / 4 * sqrt r).
Proof.
  intros H E. unfold rescale. rewrite chi0_scal. unfold ratio. rewrite E.
  rewrite <- RtoC_div by lra. replace (3 / 4 / (3 / 4 * r)) with (/ r) by (field; lra).
  assert (0 < / r) by now apply Rinv_0_lt_compat.
  rewrite csqrt_pos by lra. rewrite <- RtoC_mult. f_equal.
  assert (S : sqrt r * sqrt r = r) by (apply sqrt_sqrt; lra).
  assert (0 < sqrt r) by now apply sqrt_lt_R0.
  assert (Q : sqrt (/ r) = / sqrt r).
  { apply sqrt_lem_1; [lra|left; now apply Rinv_0_lt_compat|]. rewrite <- Rinv_mult. now rewrite S. }
  rewrite Q. rewrite <- S at 1. field. lra.
Qed.

Lemma root_near q r : 0 < q -> q <= 1 -> q * q <= r -> Rabs (sqrt r - 1) <= Rabs (r - 1) / (1 + q) /\ q * q <= sqrt r.
Proof.
  intros H H1 HR. assert (0 < q * q) by nra.
  assert (S : sqrt r * sqrt r = r) by (apply sqrt_sqrt; lra).
  assert (A : q <= sqrt r). { rewrite <- (sqrt_square q) by lra. apply sqrt_le_1; lra. }
  split; [|nra].
  replace (r - 1) with ((sqrt r - 1) * (sqrt r + 1)) by (rewrite <- S at 3; ring).
  rewrite Rabs_mult, (Rabs_right (sqrt r + 1)) by lra.
  apply (Rmult_le_reg_r (1 + q)); [lra|]. unfold Rdiv. rewrite Rmult_assoc, Rinv_l, Rmult_1_r by lra.
  apply Rmult_le_compat_l; [apply Rabs_pos|lra].
Qed.

Lemma free_stops_aux q f : 0 < q -> q <= 1 -> forall p r, q * q <= r ->
  chi0 solve nsub s noW0 G p = RtoC (3 / 4 * r) ->
  Rabs (r - 1) <= (1 + q) ^ f / 1000 -> exists x, enforce solve nsub s noW0 G f p = Some x.
Proof.
  intros Hq Hq1. induction f as [|f IH]; intros p r Hr E B; cbn [enforce].
  - destruct Rle_dec as [H|H]; [eauto|]. exfalso. apply H. rewrite E.
    unfold Cminus. rewrite <- RtoC_opp, <- RtoC_plus, Cmod_R.
    replace (3 / 4 * r + - (3 / 4)) with (3 / 4 * (r - 1)) by field. rewrite Rabs_mult, (Rabs_right (3 / 4)) by lra.
    cbn in B. pose proof (Rabs_pos (r - 1)). lra.
  - destruct Rle_dec as [H|H]; [eauto|].
    assert (0 < r) by nra. destruct (root_near q r Hq Hq1 Hr) as [R1 R2].
    apply (IH _ (sqrt r)); [exact R2|now apply pass|].
    eapply Rle_trans; [exact R1|]. cbn [pow] in B.
    apply (Rmult_le_reg_r (1 + q)); [lra|]. unfold Rdiv. rewrite Rmult_assoc, Rinv_l, Rmult_1_r by lra. lra.
Qed.

Lemma free_stops p c : 0 < c -> chi0 solve nsub s noW0 G p = RtoC c ->
  exists f x, enforce solve nsub s noW0 G f p = Some x.
Proof.
  intros Hc E. set (r := 4 / 3 * c).
  assert (Hr : 0 < r) by (unfold r; lra).
  set (q := Rmin 1 r). assert (Hq : 0 < q) by (unfold q, Rmin; destruct Rle_dec; lra).
  assert (Hq1 : q <= 1) by apply Rmin_l. assert (Hqr : q * q <= r) by (pose proof (Rmin_r 1 r : q <= r); nra).
  destruct (Pow_x_infinity (1 + q)) with (b := 1000 * Rabs (r - 1)) as [f F].
  { rewrite Rabs_right; lra. }
  exists f. apply (free_stops_aux q f Hq Hq1 p r Hqr).
  - rewrite E. f_equal. unfold r. field.
  - specialize (F f (le_n f)). rewrite Rabs_right in F by (apply Rle_ge, pow_le; lra). lra.
Qed.
End Free.

(** Polar is zero, the spin is magnetised *)
Definition upG : arr := fun a _ b _ _ _ => if Nat.eqb a 1 && Nat.eqb b 1 then RtoC 1 else RtoC 0.
Lemma mag_up N a : mag N upG a = RtoC (1 / 2).
Proof.
  unfold mag, lastExtrapolated, upG. cbn [Nat.eqb andb]. unfold Cminus.
  repeat (rewrite <- RtoC_opp || rewrite <- RtoC_mult || rewrite <- RtoC_plus). f_equal. field.
Qed.
Lemma chi0_up solve nsub s p : goodSolver solve -> (0 < nsub)%nat ->
  chi0 solve nsub s noW0 upG p = Cplus (calculateChi (connected solve nsub s noW0 p) 0 0 0 0) (RtoC (1 / 4)).
Proof.
  intros good Hn. unfold chi0, chiTensor. rewrite zeroth, mag_up. f_equal. rewrite <- RtoC_mult. f_equal. field.
Qed.
Lemma never solve nsub s : goodSolver solve -> (0 < nsub)%nat -> forall f, enforce solve nsub s noW0 upG f dataZero = None.
Proof.
  intros good Hn.
  assert (Z : chi0 solve nsub s noW0 upG dataZero = RtoC (1 / 4)).
  { rewrite chi0_up by assumption.
    pose proof (free_scal solve nsub s dataZero (RtoC 0) 0 0 0 0 good Hn Hn) as S.
    replace (fun i k w : nat => Cmult (dataZero i k w) (RtoC 0)) with dataZero in S.
    2:{ extensionality i. extensionality k. extensionality w. unfold dataZero. ring. }
    rewrite S. ring. }
  assert (N : ~ Cmod (Cminus (RtoC (1 / 4)) (RtoC (3 / 4))) <= 1 / 1000).
  { unfold Cminus. rewrite <- RtoC_opp, <- RtoC_plus, Cmod_R, Rabs_left by lra. lra. }
  assert (R : rescale solve nsub s noW0 upG dataZero = dataZero).
  { extensionality i. extensionality k. extensionality w. unfold rescale, dataZero at 1. unfold dataZero. ring. }
  induction f as [|f IH]; cbn [enforce]; rewrite Z; destruct Rle_dec; try contradiction; [reflexivity|].
  now rewrite R.
Qed.

(** One site, one bin *)
Definition sOne : shape := Shape true true (cons 1%nat nil) 1 1.
Definition pOne : data := fun i _ _ => if Nat.eqb i 15 then RtoC (-2) else RtoC 0.
Lemma cis_zero' : cis 0 = RtoC 1.
Proof. unfold cis. rewrite cos_0, sin_0. reflexivity. Qed.
Lemma back_one y : back sOne y 0 0 = y 0%nat 0%nat.
Proof.
  unfold back. cbn -[INR]. unfold timeBack, extraPhase, changeSymmetry, spaceBack, ifft, ifftn. cbn -[INR].
  replace (2 * PI * (INR 0 * INR 0 / INR 1 + 0)) with 0 by (cbn; field).
  replace (2 * PI * (INR 0 * INR 0 / INR 1)) with 0 by (cbn; field).
  replace (- (-1 * PI * INR 0 / INR 1)) with 0 by (cbn; field). replace (/ INR 1) with 1 by (cbn; field).
  rewrite cis_zero'. ring.
Qed.
Lemma conn_one solve : goodSolver solve -> calculateChi (connected solve 1 sOne noW0 pOne) 0 0 0 0 = RtoC (1 / 2).
Proof.
  intros good. unfold calculateChi. cbn [csum]. rewrite !free_connected by (assumption || lia). rewrite !back_one.
  unfold pOne, szsz. cbn [Nat.mul Nat.add Nat.eqb andb orb].
  repeat (rewrite <- RtoC_opp || rewrite <- RtoC_mult || rewrite <- RtoC_plus). f_equal. field.
Qed.
Lemma exit_one solve f : goodSolver solve -> enforce solve 1 sOne noW0 upG f pOne = Some pOne.
Proof.
  intros good. assert (E : chi0 solve 1 sOne noW0 upG pOne = RtoC (3 / 4)).
  { rewrite chi0_up, conn_one by (assumption || lia). rewrite <- RtoC_plus. f_equal. field. }
  destruct f; cbn [enforce]; rewrite E; destruct Rle_dec as [_|H]; try reflexivity; exfalso; apply H;
  (replace (Cminus (RtoC (3 / 4)) (RtoC (3 / 4))) with (RtoC 0) by ring); rewrite Cmod_R, Rabs_R0; lra.
Qed.
