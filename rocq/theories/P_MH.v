(** Detailed balance of every update, in exact arithmetic *)
From Coq Require Import ZArith List Bool Arith Lia Reals Lra.
From Coquelicot Require Import Complex.
From Verif Require Import Base Num NumR RNG Momentum Complex Lattice Bundle IndexMap Weights Diagram Markov DiagramIO History
  P_Momentum P_RNG P_Bundle P_Lattice P_IndexMap P_Complex P_WP P_Inv P_Rel P_Sem1 P_Sem2 P_Sem3 P_Pres1 P_Pres2 P_Pres3 P_Pres4
  P_Hop P_Fix P_IO P_History P_IOProm P_Loop P_Weight P_Step Target.
Import ListNotations.
Open Scope Z_scope.

Section MH.
Notation D := (@diagram NumR).

(** the part of [target] that does not depend on the weight *)
Definition T0 (c : cfgR) (o : Z) (ex mg : bool) (ga : Z) (n : nat) : R :=
  (nth (Z.to_nat o) (c_orw c) 0 * (if ex then c_wsr c else 1) * (if mg then 1 else c_pr c) *
   (if ga =? 0 then 1 else if mg then c_ggr c else c_gwr c) *
   ((/ 2) ^ n * (/ nK) ^ (n + 1 + (if ex then 1 else 0))%nat))%R.
Lemma target_T0 c d : target c d = (Cmod (toC (dweight d)) * T0 c (order d) (wm_ex d) (measG d) (gamma d) (avail (wB d)))%R.
Proof. unfold target, T0, labels, toC. change (@real NumR) with R. ring. Qed.
Lemma mulR_target c (d : D) wr : target c (mulR wr d) = (cmod wr * target c d)%R.
Proof.
  rewrite !target_T0. change (dweight (mulR wr d)) with (cmul (dweight d) wr).
  change (order (mulR wr d)) with (order d). change (wm_ex (mulR wr d)) with (wm_ex d). change (measG (mulR wr d)) with (measG d).
  change (gamma (mulR wr d)) with (gamma d). change (wB (mulR wr d)) with (wB d).
  rewrite toC_cmul, Cmod_mult, cmod_Cmod. ring.
Qed.
Lemma PcR c op : op < nupd c -> @Pc NumR c op = (/ (if c_gamma3 c then 23 else 19))%R.
Proof. intros H. unfold Pc. destruct (Z.ltb_spec op (nupd c)); [|lia]. unfold nupd. destruct (c_gamma3 c); apply Rmult_1_l. Qed.
Lemma nth_Some {A} (l : list A) n x d : nth_error l n = Some x -> nth n l d = x.
Proof. revert n. induction l as [|a l IH]; intros [|n]; cbn; try discriminate; [now intros [= ->]|apply IH]. Qed.
Lemma orw_pos c n x : positive c -> nth_error (c_orw c) n = Some x -> (0 < x)%R.
Proof. intros [H _] E. apply nth_error_In in E. rewrite Forall_forall in H. exact (H x E). Qed.

Definition worm1 (d : D) : Prop := wm_ex d = true -> wm_W d = 1%R.
(** the acceptance ratio satisfies detailed balance *)
Definition balance (c : cfgR) (op : Z) (p : R) (d d' : D) : Prop :=
  (p * (target c d * density c op d) = target c d' * density c (inverse op) d')%R.

Context (c : cfgR) (C : cfg_ok c) (PS : positive c).
Lemma nu_pos : (0 < (if c_gamma3 c then 23 else 19))%R.
Proof. destruct (c_gamma3 c); lra. Qed.
Lemma nK_pos : (0 < nK)%R.
Proof. unfold nK, MAX_K. lra. Qed.
Lemma cnt_pos d : Inv c d -> (0 < nW d)%R /\ nG d = (2 * nW d)%R /\ nV d = (2 * nW d)%R /\ (order d <> 0 -> IZR (order d) = nW d).
Proof.
  intros HI. destruct (i_cnt _ _ HI) as (A & B & E & F & _). unfold nW, nG, nV.
  split; [apply lt_0_INR; lia|]. rewrite B, E. split; [rewrite mult_INR; cbn; lra|]. split; [rewrite mult_INR; cbn; lra|].
  intros H. destruct A as [->|[A _]]; [|contradiction]. now rewrite INR_IZR_INZ.
Qed.

Ltac hyp HI :=
  pose proof nu_pos as NU; pose proof nK_pos as NK; pose proof (cnt_pos _ HI) as (NW & NG & NV & NO);
  destruct PS as (PO & Pw & Pp & Pg1 & Pg2 & Pb & Psi);
  change (@real NumR) with R in *.

Lemma tgt d (o : Z) ex mg ga n : order d = o -> wm_ex d = ex -> measG d = mg -> gamma d = ga -> avail (wB d) = n ->
  target c d = (Cmod (toC (dweight d)) * T0 c o ex mg ga n)%R.
Proof. intros <- <- <- <- <-. apply target_T0. Qed.
(** an update multiplying the weight by [wr] *)
Lemma bal (op : Z) (q q' f p : R) (wr : cR) (d d0 : D) : p = (@cmod NumR wr * f)%R ->
  dweight d0 = dweight d -> density c op d = (/ (if c_gamma3 c then 23 else 19) * q)%R ->
  density c (inverse op) d0 = (/ (if c_gamma3 c then 23 else 19) * q')%R ->
  (f * (T0 c (order d) (wm_ex d) (measG d) (gamma d) (avail (wB d)) * q) =
   T0 c (order d0) (wm_ex d0) (measG d0) (gamma d0) (avail (wB d0)) * q')%R -> balance c op p d (mulR wr d0).
Proof.
  intros -> E1 E2 E3 E4. unfold balance. rewrite mulR_target, !target_T0, E1, E2.
  change (density c (inverse op) (mulR wr d0)) with (density c (inverse op) d0). rewrite E3.
  transitivity (@cmod NumR wr * Cmod (toC (dweight d)) * / (if c_gamma3 c then 23 else 19) *
    (f * (T0 c (order d) (wm_ex d) (measG d) (gamma d) (avail (wB d)) * q)))%R; [ring|]. rewrite E4. ring.
Qed.
Ltac pcs := rewrite !PcR by (unfold nupd; destruct (c_gamma3 c); reflexivity).
Ltac start q q' := eapply (bal _ q q'); [try reflexivity|reflexivity|reflexivity|reflexivity|].

Lemma WW1 : @WormWeight NumR = 1%R. Proof. reflexivity. Qed.
Lemma PT : @ProbTau NumR c = (/ c_beta c)%R. Proof. apply Rmult_1_l. Qed.
Lemma PSi : @ProbSite NumR c = (/ sites c)%R. Proof. apply Rmult_1_l. Qed.
Ltac gen x := let y := fresh "x" in set (y := x) in *; clearbody y.
Ltac fin d :=
  rewrite ?WW1, ?PT, ?PSi;
  repeat match goal with |- context[@r2 NumR] => change (@r2 NumR) with 2%R | |- context[@rhalf NumR] => change (@rhalf NumR) with (1 / 2)%R end;
  rewrite ?pow_add; cbn [pow];
  gen (if measG d then 1%R else c_pr c);
  set (nu := (if c_gamma3 c then 23%R else 19%R)) in *; clearbody nu;
  match goal with |- ?a = ?b => change (@eq R a b) end; field; repeat split; apply Rgt_not_eq; (assumption || lra || auto).
Ltac tform d o ex mg ga n q' :=
  match goal with |- (?f * (?t * ?q) = _)%R => change (f * (t * q) = T0 c o ex mg ga n * q')%R end.

Lemma create_bal d p d' r : Inv c d -> create_rel c d p d' r -> balance c CREATE_WORM p d d'.
Proof.
  intros HI H. hyp HI. destruct H as [w vi vo kM kW ds wW O Ex L _ _ _ _ _ _ _ _ _].
  unfold create_post. start (/ nW d * / nK * / 2)%R 1%R.
  tform d (order d) true (measG d) (gamma d) (avail (wB d)) 1%R.
  pcs. rewrite Ex. unfold T0. cbn [rmul rdiv rofZ NumR]. rewrite NO by auto. fin d.
Qed.
Lemma delete_bal d p d' r : Inv c d -> worm1 d -> delete_rel c d p d' r -> balance c DELETE_WORM p d d'.
Proof.
  intros HI W1 H. hyp HI. destruct H as [w k wW O Ex _ _ _ _ _ _]. specialize (W1 Ex).
  unfold delete_post. start 1%R (/ nW d * / nK * / 2)%R.
  tform d (order d) false (measG d) (gamma d) (avail (wB d)) (/ nW d * / nK * / 2)%R.
  pcs. rewrite Ex, W1. unfold T0. cbn [rmul rdiv rofZ NumR]. rewrite NO by auto. fin d.
Qed.
Lemma moveG_bal d p d' r : Inv c d -> worm1 d -> moveG_rel c d p d' r -> balance c MOVE_WORM_G p d d'.
Proof.
  intros HI W1 H. hyp HI. destruct H as [dr g v1 v2 k w1 vW1 w2 vW2 iw1 s1 s2 w1W w2W gW O Ex]. specialize (W1 Ex).
  unfold moveG_post. start (/ 2)%R (/ 2)%R.
  tform d (order d) (wm_ex d) (measG d) (gamma d) (avail (wB d)) (/ 2)%R.
  rewrite W1. cbn [rmul rdiv rofZ NumR]. gen (T0 c (order d) (wm_ex d) (measG d) (gamma d) (avail (wB d))). fin d.
Qed.
Lemma moveW_bal d p d' r : Inv c d -> worm1 d -> moveW_rel c d p d' r -> balance c MOVE_WORM_W p d d'.
Proof.
  intros HI W1 H. hyp HI. destruct H as [v1 w v2 k wW O Ex]. specialize (W1 Ex).
  unfold moveW_post. start 1%R 1%R.
  tform d (order d) (wm_ex d) (measG d) (gamma d) (avail (wB d)) 1%R.
  rewrite W1. cbn [rmul rdiv rofZ NumR]. gen (T0 c (order d) (wm_ex d) (measG d) (gamma d) (avail (wB d))). fin d.
Qed.
Lemma reconnect_bal d p d' r : Inv c d -> reconnect_rel c d p d' r -> balance c RECONNECT p d d'.
Proof.
  intros HI H. hyp HI. destruct H as [I Ma dr GIA GMB k vA vB' gi gm O Ex].
  unfold reconnect_post. eapply (bal _ (/ 2) (/ 2) 1); [symmetry; apply Rmult_1_r|reflexivity|reflexivity|reflexivity|].
  tform d (order d) (wm_ex d) (measG d) (gamma d) (avail (wB d)) (/ 2)%R. ring.
Qed.
Lemma badd_avail b n b' : badd b = Ok (n, b') -> avail b' = S (avail b).
Proof. unfold badd. destruct (_ <? _)%nat; [discriminate|]. destruct (_ <=? _)%nat; [discriminate|]. intros [= _ <-]. reflexivity. Qed.
Lemma bremove_avail b n b' : bremove b n = Ok b' -> avail b = S (avail b').
Proof.
  unfold bremove. destruct (negb _); [discriminate|]. destruct (Nat.eqb_spec (avail b) 0); [discriminate|]. intros [= <-].
  unfold bswap. cbn [avail]. lia.
Qed.
Lemma add_bal de d p d' r : Inv c d -> add_rel de c d p d' r -> balance c (if de then ADD_DELTA_INTERACTION else ADD_INTERACTION) p d d'.
Proof.
  intros HI H. assert (PS' := PS). hyp HI. destruct H as [I Ma dr dw GIC GMD kW kIA kMB kM vC vD tA tB sA sB wW gIA gMB gAC gBD o1 o0
    vA vB' GIA GMB WAB bv1 bv bg1 bg bw Ex O OL _ _ _ _ _ _ _ _ _ _ _ _ _ _ _ _ _ _ _ _ _ _ _ _ _ E1 E0 _ _ _ _ Ew].
  assert (O1 : (0 < o1)%R) by (eapply orw_pos; eauto). assert (O0 : (0 < o0)%R) by (eapply orw_pos; eauto).
  apply badd_avail in Ew.
  unfold add_post. destruct de.
  - start (/ nK * / 2 * / 2 * / c_beta c)%R (/ 2)%R. 
    tform d (order d + 1) (wm_ex d) (measG d) (gamma d) (avail bw) (/ 2)%R.
    pcs. unfold T0. rewrite Ew, (nth_Some _ _ _ _ E1), (nth_Some _ _ _ _ E0). cbn [rmul rdiv rofZ NumR pow Nat.add].
    gen (if wm_ex d then c_wsr c else 1%R). gen (if gamma d =? 0 then 1%R else if measG d then c_ggr c else c_gwr c). gen ((/ nK) ^ (avail (wB d) + 1 + (if wm_ex d then 1 else 0)))%R. fin d.
  - start (/ nK * / 2 * / 2 * / c_beta c * / c_beta c)%R (/ 2)%R. 
    tform d (order d + 1) (wm_ex d) (measG d) (gamma d) (avail bw) (/ 2)%R.
    pcs. unfold T0. rewrite Ew, (nth_Some _ _ _ _ E1), (nth_Some _ _ _ _ E0). cbn [rmul rdiv rofZ NumR pow Nat.add].
    gen (if wm_ex d then c_wsr c else 1%R). gen (if gamma d =? 0 then 1%R else if measG d then c_ggr c else c_gwr c). gen ((/ nK) ^ (avail (wB d) + 1 + (if wm_ex d then 1 else 0)))%R. fin d.
Qed.
Lemma del_bal de d p d' r : Inv c d -> del_rel de c d p d' r -> balance c (if de then DEL_DELTA_INTERACTION else DEL_INTERACTION) p d d'.
Proof.
  intros HI H. assert (PS' := PS). hyp HI. destruct H as [I Ma dr GIA GMB vA vB' wAB GAC GBD vC vD kM gIC gMD o1 o0 bv1 bv bg1 bg bw 
    Ex O _ _ _ _ _ _ _ _ _ _ _ _ _ _ _ _ _ _ _ _ _ _ _ _ _ E1 E0 _ _ _ _ Ew].
  assert (O1 : (0 < o1)%R) by (eapply orw_pos; eauto). assert (O0 : (0 < o0)%R) by (eapply orw_pos; eauto).
  apply bremove_avail in Ew.
  unfold del_post. destruct de.
  - start (/ 2)%R (/ nK * / 2 * / 2 * / c_beta c)%R. 
    tform d (order d - 1) (wm_ex d) (measG d) (gamma d) (avail bw) (/ nK * / 2 * / 2 * / c_beta c)%R.
    pcs. unfold T0. rewrite Ew, (nth_Some _ _ _ _ E1), (nth_Some _ _ _ _ E0). cbn [rmul rdiv rofZ NumR pow Nat.add].
    gen (if wm_ex d then c_wsr c else 1%R). gen (if gamma d =? 0 then 1%R else if measG d then c_ggr c else c_gwr c). gen ((/ nK) ^ (avail bw + 1 + (if wm_ex d then 1 else 0)))%R. fin d.
  - start (/ 2)%R (/ nK * / 2 * / 2 * / c_beta c * / c_beta c)%R. 
    tform d (order d - 1) (wm_ex d) (measG d) (gamma d) (avail bw) (/ nK * / 2 * / 2 * / c_beta c * / c_beta c)%R.
    pcs. unfold T0. rewrite Ew, (nth_Some _ _ _ _ E1), (nth_Some _ _ _ _ E0). cbn [rmul rdiv rofZ NumR pow Nat.add].
    gen (if wm_ex d then c_wsr c else 1%R). gen (if gamma d =? 0 then 1%R else if measG d then c_ggr c else c_gwr c). gen ((/ nK) ^ (avail bw + 1 + (if wm_ex d then 1 else 0)))%R. fin d.
Qed.
Lemma tau_bal d p d' r : Inv c d -> tau_rel c d p d' r -> balance c CHANGE_TAU_VERTEX p d d'.
Proof.
  intros HI H. hyp HI. destruct H as [v w gi go vi vo vW t giW goW wW O Ex].
  unfold tau_post. start (/ nV d * / c_beta c)%R (/ nV d * / c_beta c)%R.
  tform d (order d) (wm_ex d) (measG d) (gamma d) (avail (wB d)) (/ nV d * / c_beta c)%R.
  rewrite NV. cbn [rmul rdiv rofZ NumR]. gen (T0 c (order d) (wm_ex d) (measG d) (gamma d) (avail (wB d))). fin d.
Qed.
Lemma loop_bal d p d' r : Inv c d -> loop_rel c d p d' r -> balance c CHANGE_R_LOOP p d d'.
Proof.
  intros HI H. hyp HI. destruct H as [v0 vs R L wr O Ex].
  unfold loop_post. start (/ nV d * / sites c)%R (/ nV d * / sites c)%R.
  tform d (order d) (wm_ex d) (measG d) (gamma d) (avail (wB d)) (/ nV d * / sites c)%R.
  rewrite NV. cbn [rmul rdiv rofZ NumR]. gen (T0 c (order d) (wm_ex d) (measG d) (gamma d) (avail (wB d))). fin d.
Qed.
Lemma g2w_bal d p d' r : Inv c d -> g2w_rel c d p d' r -> balance c CHANGE_MEASURE_G2W p d d'.
Proof.
  intros HI H. hyp HI. destruct H as [g w gW wW O Ex Me Ga].
  unfold g2w_post. start (/ nW d)%R (/ nG d)%R.
  tform d (order d) (wm_ex d) false (gamma d) (avail (wB d)) (/ nG d)%R.
  pcs. unfold T0. rewrite NG, Ga, Me. cbn [rmul rdiv rofZ NumR Z.eqb].
  gen (if wm_ex d then c_wsr c else 1%R). gen ((/ nK) ^ (avail (wB d) + 1 + (if wm_ex d then 1 else 0)))%R. fin d.
Qed.
Lemma w2g_bal d p d' r : Inv c d -> w2g_rel c d p d' r -> balance c CHANGE_MEASURE_W2G p d d'.
Proof.
  intros HI H. hyp HI. destruct H as [g w gW wW O Ex Me Ga].
  unfold w2g_post. start (/ nG d)%R (/ nW d)%R.
  tform d (order d) (wm_ex d) true (gamma d) (avail (wB d)) (/ nW d)%R.
  pcs. unfold T0. rewrite NG, Ga, Me. cbn [rmul rdiv rofZ NumR Z.eqb].
  gen (if wm_ex d then c_wsr c else 1%R). gen ((/ nK) ^ (avail (wB d) + 1 + (if wm_ex d then 1 else 0)))%R. fin d.
Qed.
Lemma delta_bal td d p d' r : Inv c d -> delta_rel td c d p d' r -> balance c (if td then CHANGE_CONTINUS2DELTA else CHANGE_DELTA2CONTINUS) p d d'.
Proof.
  intros HI H. hyp HI. destruct H as [w vi vo G1 G2 v1 v2 t wW W1 W2].
  unfold delta_post. destruct td.
  - start (/ nW d)%R (/ nW d * / c_beta c)%R.
    tform d (order d) (wm_ex d) (measG d) (gamma d) (avail (wB d)) (/ nW d * / c_beta c)%R.
    pcs. cbn [rmul rdiv rofZ NumR]. gen (T0 c (order d) (wm_ex d) (measG d) (gamma d) (avail (wB d))). fin d.
  - start (/ nW d * / c_beta c)%R (/ nW d)%R.
    tform d (order d) (wm_ex d) (measG d) (gamma d) (avail (wB d)) (/ nW d)%R.
    pcs. cbn [rmul rdiv rofZ NumR]. gen (T0 c (order d) (wm_ex d) (measG d) (gamma d) (avail (wB d))). fin d.
Qed.
Lemma to0_bal d p d' r : Inv c d -> toC (dweight d) <> RtoC 0 -> to0_rel c d p d' r -> balance c JUMP_TO_ORDER0 p d d'.
Proof.
  intros HI NZ H. assert (PS' := PS). hyp HI. destruct H as [o0 o1 O Ex Ga E0 E1].
  assert (O1 : (0 < o1)%R) by (eapply orw_pos; eauto). assert (O0 : (0 < o0)%R) by (eapply orw_pos; eauto).
  unfold balance. rewrite !target_T0.
  change (density c JUMP_TO_ORDER0 d) with (/ (if c_gamma3 c then 23 else 19) * 1)%R.
  change (density c (inverse JUMP_TO_ORDER0) (to0_post c d)) with (/ (if c_gamma3 c then 23 else 19) * (/ sites c * / c_beta c * / c_beta c * / 2 * / 2))%R.
  change (order (to0_post c d)) with 0. change (wm_ex (to0_post c d)) with (wm_ex d). change (measG (to0_post c d)) with (measG d).
  change (gamma (to0_post c d)) with (gamma d). change (wB (to0_post c d)) with (wB d).
  change (dweight (to0_post c d)) with (cofr (normF (c_tab c)) : cR).
  rewrite cmod_Cmod, (toC_cdiv _ _ NZ). unfold Cdiv. rewrite Cmod_mult, Cmod_inv by auto.
  assert (NM : (0 < Cmod (toC (dweight d)))%R) by now apply Cmod_gt_0.
  gen (Cmod (toC (dweight d))). gen (Cmod (toC (cofr (normF (c_tab c)) : cR))).
  pcs. unfold T0. rewrite O, Ga. change (Z.to_nat 1) with 1%nat. change (Z.to_nat 0) with 0%nat. rewrite (nth_Some _ _ _ _ E1), (nth_Some _ _ _ _ E0).
  cbn [rmul rdiv rofZ NumR Z.eqb].
  gen (if wm_ex d then c_wsr c else 1%R). gen ((/ nK) ^ (avail (wB d) + 1 + (if wm_ex d then 1 else 0)))%R. fin d.
Qed.
Lemma to1_bal d p d' r : Inv c d -> to1_rel c d p d' r -> balance c JUMP_BACK_TO_ORDER1 p d d'.
Proof.
  intros HI H. assert (PS' := PS). hyp HI. destruct H as [V1 V2 G1 G2 W1 R t1 t2 a b g1 g2 wW o0 o1 O Ex Ga _ _ _ _ _ _ _ _ _ _ _ E0 E1].
  assert (O1 : (0 < o1)%R) by (eapply orw_pos; eauto). assert (O0 : (0 < o0)%R) by (eapply orw_pos; eauto).
  unfold to1_post. start (/ sites c * / c_beta c * / c_beta c * / 2 * / 2)%R 1%R.
  tform d 1 (wm_ex d) (measG d) (gamma d) (avail (wB d)) 1%R.
  pcs. unfold T0. rewrite O, Ga. change (Z.to_nat 1) with 1%nat. change (Z.to_nat 0) with 0%nat. rewrite (nth_Some _ _ _ _ E1), (nth_Some _ _ _ _ E0).
  cbn [rmul rdiv rofZ NumR Z.eqb].
  gen (if wm_ex d then c_wsr c else 1%R). gen ((/ nK) ^ (avail (wB d) + 1 + (if wm_ex d then 1 else 0)))%R. fin d.
Qed.
Lemma toGG_bal d p d' r : Inv c d -> toGG_rel c d p d' r -> balance c JUMP_TO_GGGAMMAG p d d'.
Proof.
  intros HI H. hyp HI. destruct H as [g t ext wt O Ex Ga G3].
  unfold toGG_post. eapply (bal _ (/ nG d * / c_beta c) 1); [apply Rmult_assoc|reflexivity|reflexivity|reflexivity|].
  tform d (order d) (wm_ex d) (measG d) 1 (avail (wB d)) 1%R.
  rewrite !PcR by (unfold nupd; rewrite G3; reflexivity). unfold T0, gamma_rw. rewrite Ga, NG. 
  cbn [rmul rdiv rofZ NumR Z.eqb]. rewrite NO by auto.
  gen (if wm_ex d then c_wsr c else 1%R). gen ((/ nK) ^ (avail (wB d) + 1 + (if wm_ex d then 1 else 0)))%R.
  destruct (measG d) eqn:EM; fin d.
Qed.
Lemma fromGG_bal d p d' r : Inv c d -> c_gamma3 c = true -> fromGG_rel c d p d' r -> balance c JUMP_FROM_GGGAMMAG_TO_G p d d'.
Proof.
  intros HI G3 H. hyp HI. destruct H as [g wt O Ex Ga].
  unfold fromGG_post. eapply (bal _ 1 (/ nG d * / c_beta c)); [apply Rmult_assoc|reflexivity|reflexivity|reflexivity|].
  tform d (order d) (wm_ex d) (measG d) 0 (avail (wB d)) (/ nG d * / c_beta c)%R.
  rewrite !PcR by (unfold nupd; rewrite G3; reflexivity). unfold T0, gamma_rw. rewrite Ga, NG. 
  cbn [rmul rdiv rofZ NumR Z.eqb]. rewrite NO by auto.
  gen (if wm_ex d then c_wsr c else 1%R). gen ((/ nK) ^ (avail (wB d) + 1 + (if wm_ex d then 1 else 0)))%R.
  destruct (measG d) eqn:EM; fin d.
Qed.
Lemma toWW_bal d p d' r : Inv c d -> toWW_rel c d p d' r -> balance c JUMP_TO_WWGAMMAW p d d'.
Proof.
  intros HI H. hyp HI. destruct H as [w t r ext wt O Ex Ga G3].
  unfold toWW_post. eapply (bal _ (/ nW d * / c_beta c * / sites c) 1); [apply Rmult_assoc|reflexivity|reflexivity|reflexivity|].
  tform d (order d) (wm_ex d) (measG d) 2 (avail (wB d)) 1%R.
  rewrite !PcR by (unfold nupd; rewrite G3; reflexivity). unfold T0, gamma_rw. rewrite Ga. 
  cbn [rmul rdiv rofZ NumR Z.eqb]. rewrite NO by auto.
  gen (if wm_ex d then c_wsr c else 1%R). gen ((/ nK) ^ (avail (wB d) + 1 + (if wm_ex d then 1 else 0)))%R.
  destruct (measG d) eqn:EM; fin d.
Qed.
Lemma fromWW_bal d p d' r : Inv c d -> c_gamma3 c = true -> fromWW_rel c d p d' r -> balance c JUMP_FROM_WWGAMMAW_TO_W p d d'.
Proof.
  intros HI G3 H. hyp HI. destruct H as [w wt O Ex Ga].
  unfold fromWW_post. eapply (bal _ 1 (/ nW d * / c_beta c * / sites c)); [apply Rmult_assoc|reflexivity|reflexivity|reflexivity|].
  tform d (order d) (wm_ex d) (measG d) 0 (avail (wB d)) (/ nW d * / c_beta c * / sites c)%R.
  rewrite !PcR by (unfold nupd; rewrite G3; reflexivity). unfold T0, gamma_rw. rewrite Ga. 
  cbn [rmul rdiv rofZ NumR Z.eqb]. rewrite NO by auto.
  gen (if wm_ex d then c_wsr c else 1%R). gen ((/ nK) ^ (avail (wB d) + 1 + (if wm_ex d then 1 else 0)))%R.
  destruct (measG d) eqn:EM; fin d.
Qed.
Lemma prop_bal d op p d' r : Inv c d -> LoopSign d -> WInv c d -> worm1 d -> prop_rel c d op p d' r -> balance c op p d d'.
Proof.
  intros HI LS HW W1 H. destruct H as [? ? ? H|? ? ? H|? ? ? H|? ? ? H|? ? ? H|? ? ? H|? ? ? H|? ? ? H|? ? ? H|? ? ? H|? ? ? H|? ? ? H|? ? ? H|? ? ? H|? ? ? H|? ? ? H|? ? ? H|? ? ? G3 H|? ? ? G3 H|? ? ? G3 H|? ? ? G3 H].
  - exact (create_bal d _ _ _ HI H).
  - exact (delete_bal d _ _ _ HI W1 H).
  - exact (moveG_bal d _ _ _ HI W1 H).
  - exact (moveW_bal d _ _ _ HI W1 H).
  - exact (reconnect_bal d _ _ _ HI H).
  - exact (add_bal false d _ _ _ HI H).
  - exact (del_bal false d _ _ _ HI H).
  - exact (add_bal true d _ _ _ HI H).
  - exact (del_bal true d _ _ _ HI H).
  - exact (tau_bal d _ _ _ HI H).
  - exact (loop_bal d _ _ _ HI H).
  - exact (g2w_bal d _ _ _ HI H).
  - exact (w2g_bal d _ _ _ HI H).
  - exact (delta_bal false d _ _ _ HI H).
  - exact (delta_bal true d _ _ _ HI H).
  - exact (to0_bal d _ _ _ HI (dw_nz c d HI LS HW) H).
  - exact (to1_bal d _ _ _ HI H).
  - exact (toGG_bal d _ _ _ HI H).
  - exact (fromGG_bal d _ _ _ HI G3 H).
  - exact (toWW_bal d _ _ _ HI H).
  - exact (fromWW_bal d _ _ _ HI G3 H).
Qed.

Lemma target_pos d : Inv c d -> LoopSign d -> WInv c d -> (0 < target c d)%R.
Proof.
  intros HI LS HW. pose proof (dw_nz c d HI LS HW) as NZ. hyp HI. rewrite target_T0. unfold T0.
  assert (A : (0 < nth (Z.to_nat (order d)) (c_orw c) 0)%R).
  { rewrite Forall_forall in PO. apply PO, nth_In. pose proof (co_orw c C). destruct (i_cnt _ _ HI) as (Q & _ & _ & _ & Q2). pose proof (co_order c C). lia. }
  assert (A2 : (0 < (/ 2) ^ avail (wB d))%R) by (apply pow_lt; lra).
  assert (A3 : (0 < (/ nK) ^ (avail (wB d) + 1 + (if wm_ex d then 1 else 0)))%R) by (apply pow_lt; now apply Rinv_0_lt_compat).
  assert (A4 : (0 < Cmod (toC (dweight d)))%R) by now apply Cmod_gt_0.
  repeat apply Rmult_lt_0_compat; auto; destruct (wm_ex d), (measG d); try destruct (gamma d =? 0); auto; lra.
Qed.
Lemma density_pos d op p d' r : Inv c d -> prop_rel c d op p d' r -> (0 < density c op d)%R.
Proof.
  intros HI H. hyp HI. unfold density. apply Rmult_lt_0_compat; [now apply Rinv_0_lt_compat|].
  assert (NG' : (0 < nG d)%R) by lra. assert (NV' : (0 < nV d)%R) by lra.
  apply Rinv_0_lt_compat in NG', NV', NW, Psi, Pb, NK.
  destruct H as [? ? ? H|? ? ? H|? ? ? H|? ? ? H|? ? ? H|? ? ? H|? ? ? H|? ? ? H|? ? ? H|? ? ? H|? ? ? H|? ? ? H|? ? ? H|? ? ? H|? ? ? H|? ? ? H|? ? ? H|? ? ? G3 H|? ? ? G3 H|? ? ? G3 H|? ? ? G3 H];
  match goal with |- (0 < nth ?n _ _)%R => let m := eval vm_compute in n in change n with m end; unfold draws; cbn [nth]; repeat apply Rmult_lt_0_compat; auto; lra.
Qed.
Lemma worm1_prop d op p d' r : prop_rel c d op p d' r -> worm1 d -> worm1 d' /\ worm1 r.
Proof.
  intros H W. split.
  - destruct H as [? ? ? H|? ? ? H|? ? ? H|? ? ? H|? ? ? H|? ? ? H|? ? ? H|? ? ? H|? ? ? H|? ? ? H|? ? ? H|? ? ? H|? ? ? H|? ? ? H|? ? ? H|? ? ? H|? ? ? H|? ? ? G3 H|? ? ? G3 H|? ? ? G3 H|? ? ? G3 H]; destruct H;
    (exact W || (intros _; reflexivity) || (intros X; discriminate X)).
  - destruct (rej_same c _ _ _ _ _ H) as [->|(_ & e & ->)]; exact W.
Qed.
End MH.

Section Hist.
Context {E : Type} (next : E -> Z * E).
Lemma worm1_history (c : cfgR) s : cfg_ok c -> new_ok (c_lat c) -> history next c s -> worm1 (md s).
Proof.
  intros C LK H. induction H as [s d0 K B|s s1 d0 F H IH T K L|s s' c' n H IH R HH].
  - destruct (BuildNew_inv c d0 C (proj1 LK) (proj2 LK) K) as (co & d1 & d' & _ & B' & Y & F & HI & _). rewrite B in B'. injection B' as E'.
    destruct F as (_ & _ & _ & _ & _ & _ & _ & _ & _ & _ & _ & _ & _ & _ & _ & F1 & _ & _ & _ & _ & _ & _ & _ & _ & F2 & _).
    intros X. rewrite E', F1 in X. rewrite E', F2, X. reflexivity.
  - pose proof (history_inv next c s1 C LK H) as HI. pose proof (Inv_Pre c _ HI) as P. rewrite (ToDict_spec c _ P) in T. injection T as <-.
    destruct (load_inv c (md s1) d0 C P K) as (d1 & d' & B' & Y & F & HI' & Ga'). rewrite L in B'. injection B' as E'.
    destruct F as (_ & _ & _ & _ & _ & _ & _ & _ & _ & _ & _ & _ & _ & _ & _ & F1 & _ & _ & _ & _ & _ & _ & _ & _ & F2 & _).
    intros X. rewrite E', F1 in X. rewrite E', F2, X. reflexivity.
  - pose proof (history_inv next c s C LK H) as HI.
    apply (retuned_Inv c c' _ R) in HI. pose proof (retuned_ok c c' C R) as C'.
    destruct (Hop_ok next c' n s C' HI) as (s2 & B & S & _). rewrite HH in B. injection B as <-.
    clear - S IH. induction S as [|n0 d d1 d2 H Hs IHs]; auto. apply IHs. destruct H as [|op p d' r H _|op p d' r H A];
      [exact IH|exact (proj2 (worm1_prop c' _ _ _ _ _ H IH))|exact (proj1 (worm1_prop c' _ _ _ _ _ H IH))].
Qed.

Lemma step_mh (c c' : cfgR) (s s' : @mstate NumR E) : cfg_ok c -> new_ok (c_lat c) -> regular_history next c s -> retuned c c' -> positive c' ->
  Hop next c' 1 s = Ok (tt, s') ->
  (md s' = md s /\ mprop s' = mprop s /\ macc s' = macc s) \/
  exists op d' r e,
    let ratio := ((target c' d' * density c' (inverse op) d') / (target c' (md s) * density c' op (md s)))%R in
    let u := @urn_of NumR (u32 (fst (next e))) in
    prop_rel c' (md s) op ratio d' r /\
    mprop s' = bump (mprop s) op (order (md s)) /\
    (((1 <= ratio)%R /\ mrng s' = e \/ (u < ratio < 1)%R /\ mrng s' = snd (next e)) /\ md s' = d' /\ macc s' = bump (macc s) op (order (md s)) \/
     (ratio < 1)%R /\ (ratio <= u)%R /\ mrng s' = snd (next e) /\ macc s' = macc s /\
       (md s' = md s \/ gamma (md s) = 0 /\ exists x, md s' = s_uext (md s) x)).
Proof.
  intros C LK H RT PS Q. destruct (regular_w next c s C LK H) as (Hh & HW).
  pose proof (history_inv next c s C LK Hh) as HI. apply (retuned_Inv c c' _ RT) in HI. pose proof (retuned_ok c c' C RT) as C'.
  pose proof (history_sign next c s sign_lawR C LK Hh) as LS. pose proof (worm1_history c s C LK Hh) as W1.
  assert (ET : c_tab c' = c_tab c) by apply RT.
  assert (HW' : WInv c' (md s)) by (destruct HW as [H1 H2 H3 H4 H5]; constructor; rewrite ?ET; auto). clear HW.
  pose proof (hop1_step next c' s C' HI) as W. apply wp_ok in W as ([] & s2 & E2 & W). apply Hop1 in Q. rewrite Q in E2. injection E2 as <-.
  destruct W as (_ & [W|(op & p & d' & r & s1 & P & Ep & Ea & Em & e & b & D1 & D2 & D3 & D4 & D5)]); [left; exact W|right].
  cbn [md mprop macc s_mcount mrng] in *. exists op, d', r, e. cbv zeta.
  pose proof (prop_bal c' PS (md s) op p d' r HI LS HW' W1 P) as B. unfold balance in B.
  pose proof (target_pos c' C' PS (md s) HI LS HW') as TP. pose proof (density_pos c' PS (md s) op p d' r HI P) as DP.
  assert (Er : ((target c' d' * density c' (inverse op) d') / (target c' (md s) * density c' op (md s)))%R = p).
  { rewrite <- B. change (@real NumR) with R in *. field. split; apply Rgt_not_eq; assumption. }
  rewrite Er. split; [exact P|]. rewrite Ep, Em in D4. rewrite Ea, Em in D5. split; [exact D4|].
  change (@rleb NumR) with Rleb in D1. change (@rltb NumR) with Rltb in D1. change (@rofZ NumR 1) with 1%R in D1.
  destruct (Rleb 1 p) eqn:L1.
  - apply Rleb_spec in L1. destruct D1 as [-> D1]. left. auto.
  - apply Rleb_false in L1. destruct D1 as [Eb D1]. destruct b.
    + left. symmetry in Eb. apply Rltb_spec in Eb. auto.
    + right. symmetry in Eb. apply Rltb_false in Eb. repeat split; auto. rewrite D2. exact (rej_same c' _ _ _ _ _ P).
Qed.
End Hist.
