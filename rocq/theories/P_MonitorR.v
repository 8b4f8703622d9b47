(** The measurement module in exact arithmetic: what a measurement adds, seen from the sampled distribution *)
From Coq Require Import ZArith List Bool String Lia ZifyBool Reals Lra.
From Coquelicot Require Import Complex.
From Verif Require Import Base Num NumR Momentum Complex Lattice Bundle IndexMap Weights Diagram Markov DiagramIO History Estimator WeightEstimator Gamma3 Monitor Target
  P_Complex P_Lattice P_IndexMap P_Bundle P_WP P_Inv P_Rel P_Sem1 P_Hop P_IO P_History P_Promises P_Loop P_Weight Prop_Weight P_MH P_Estimator P_WeightEst P_Gamma3 P_Monitor.
Import ListNotations.
Open Scope Z_scope.

Lemma cplx_eq (a b : cR) : (re a : R) = re b -> (im a : R) = im b -> a = b.
Proof. destruct a, b. cbn. intros -> ->. reflexivity. Qed.
Lemma gwstored_scale (g : @gwam NumR) rin rout ur tin tout ut sin sout (w : cR) (x : R) :
  @gwstored NumR g rin rout ur tin tout ut sin sout (@cmul_r NumR w x) = @cmul_r NumR (@gwstored NumR g rin rout ur tin tout ut sin sout w) x.
Proof.
  unfold gwstored. set (n := @rofZ NumR (gwsym g rin rout ur tin tout ut)). change (@real NumR) with R in n.
  destruct (gwflag g tin tout ut), (flipping sout), (spin_eqb (sout IN) UP), (spin_eqb (sout IN) (sin IN)); apply cplx_eq; cbn; unfold Rdiv; ring.
Qed.

(** the factors a diagram's distribution carries beyond |Weight| and the order reweighting *)
Definition kind (c : cfgR) (d : diagramR) : R := if measG d then 1%R else c_pr c.
Definition corr (c : cfgR) (d : diagramR) : R := if gamma d =? 0 then 1%R else if measG d then c_ggr c else c_gwr c.
Definition share (c : cfgR) (d : diagramR) : R := (kind c d * labels d / target c d)%R.

Lemma labels_pos (d : diagramR) : (0 < labels d)%R.
Proof.
  unfold labels. assert (0 < nK)%R by (unfold nK; apply Rplus_le_lt_0_compat; [apply Rmult_le_pos; [lra|apply (IZR_le 0); unfold MAX_K; lia]|lra]).
  apply Rmult_lt_0_compat; apply pow_lt; [lra|now apply Rinv_0_lt_compat].
Qed.
Lemma nth_pos (l : list R) n : Forall (fun x => 0 < x)%R l -> (n < List.length l)%nat -> (0 < nth n l 0)%R.
Proof. intros H. revert n. induction H; intros [|n] L; cbn in *; try lia; auto. apply IHForall. lia. Qed.
Lemma rat_nth (l : list R) i x : @rat NumR l i = Ok x -> 0 <= i -> (nth (Z.to_nat i) l 0 = x)%R.
Proof. unfold rat. intros H I. destruct (i <? 0) eqn:Q; [lia|]. change (@real NumR) with R in *. destruct (nth_error l (Z.to_nat i)) eqn:E; [|discriminate H]. injection H as <-. now apply nth_error_nth. Qed.
Lemma phase_share (c : cfgR) (d : diagramR) x : toC (dweight d) <> RtoC 0 -> toC (dphase d) = Cdiv (toC (dweight d)) (RtoC (Cmod (toC (dweight d)))) ->
  positive c -> 0 <= order d -> @rat NumR (c_orw c) (order d) = Ok x -> wm_ex d = false ->
  @cmul_r NumR (dphase d) (@rdiv NumR (@rofZ NumR 1) x) = @cmul_r NumR (dweight d) (share c d * corr c d)%R.
Proof.
  intros NZ EP (P1 & P2 & P3 & P4 & P5 & _) O RX WX. change (@real NumR) with R in x.
  assert (M : (0 < Cmod (toC (dweight d)))%R) by now apply Cmod_gt_0.
  pose proof (rat_nth _ _ _ RX O) as NX. assert (X : (0 < x)%R).
  { rewrite <- NX. apply nth_pos; auto. unfold rat in RX. destruct (order d <? 0) eqn:Q; [lia|]. apply nth_error_Some. intros Z0. change (@real NumR) with R in RX. rewrite Z0 in RX. discriminate RX. }
  pose proof (labels_pos d) as L. set (m := Cmod (toC (dweight d))) in *.
  assert (T : target c d = (m * x * kind c d * corr c d * labels d)%R) by (unfold target; change (re (dweight d), im (dweight d)) with (toC (dweight d)); fold m; change (@real NumR) with R in *; rewrite NX, WX; unfold kind, corr; ring).
  assert (K : (0 < kind c d)%R) by (unfold kind; destruct (measG d); [lra|exact P3]). assert (Q : (0 < corr c d)%R) by (unfold corr; destruct (gamma d =? 0); [lra|]; destruct (measG d); [exact P4|exact P5]).
  assert (S : (share c d * corr c d = / (m * x))%R) by (unfold share; rewrite T; field; repeat split; lra). rewrite S. clear - EP M X.
  assert (E : (re (dphase d) : R) = (re (dweight d) / m)%R /\ (im (dphase d) : R) = (im (dweight d) / m)%R).
  { destruct (dphase d) as [a b], (dweight d) as [u v]. cbn [re im]. change (@real NumR) with R in *. assert (E : (a, b) = Cdiv (u, v) (RtoC m)) by exact EP.
    unfold Cdiv, Cinv, Cmult, RtoC in E. cbn in E. injection E as -> ->. split; field; lra. }
  destruct E as [E1 E2]. apply cplx_eq; unfold cmul_r; cbn [re im].
  - rewrite E1. change (re (dweight d) / m * (1 / x) = re (dweight d) * / (m * x))%R. field. split; lra.
  - rewrite E2. change (im (dweight d) / m * (1 / x) = im (dweight d) * / (m * x))%R. field. split; lra.
Qed.

(** ** AdjustOrderReWeight *)
Notation estR := (@est NumR).
Definition Qe (e : estR) : Prop := (0 <= e_acc e)%R /\ (e_norm e <= e_acc e + 1)%R.
Lemma Qe_new : Qe est_new.
Proof. unfold Qe, est_new, Clear. cbn. split; lra. Qed.
Lemma Qe_measure e : Qe e -> Qe (@eMeasure NumR (rofZ 1) e).
Proof. unfold Qe, eMeasure. cbn. intros [A B]. split; lra. Qed.
Lemma Qe_squeeze f e e' : (1 <= f)%R -> Qe e -> @eSqueeze NumR f e = Ok e' -> Qe e'.
Proof.
  unfold Qe, eSqueeze. intros F [A B]. destruct (@rltb NumR (rofZ 0) f); [|discriminate]. intros H. injection H as <-. cbn.
  change (@real NumR) with R in *. assert (X : (0 < / f <= 1)%R) by (split; [apply Rinv_0_lt_compat; lra|rewrite <- Rinv_1; apply Rinv_le_contravar; lra]).
  unfold Rdiv. split; [apply Rmult_le_pos; lra|]. nra.
Qed.

Lemma lset_nth (l : list R) (i : nat) x k : (i < List.length l)%nat -> nth k (@lset NumR l (Z.of_nat i) x) 0%R = if Nat.eqb k i then x else nth k l 0%R.
Proof.
  intros L. unfold lset. rewrite Nat2Z.id. rewrite !nth_default_eq || idtac. pose proof (lupd_nth (fun _ : R => x) l i k) as Q. rewrite Nat.eqb_sym in Q.
  destruct (Nat.eqb_spec k i) as [->|D].
  - destruct (nth_error l i) eqn:E; [|apply nth_error_None in E; lia]. cbn in Q. now apply nth_error_nth.
  - destruct (nth_error l k) eqn:E.
    + rewrite (nth_error_nth l k 0%R E). now apply nth_error_nth.
    + apply nth_error_None in E, Q. change (@real NumR) with R in *. now rewrite !nth_overflow.
Qed.
Lemma lset_length (l : list R) i x : List.length (@lset NumR l i x) = List.length l.
Proof. apply lupd_length. Qed.

(** what the counters of order [i] hold *)
Definition held (b : @ebundle NumR) (i : nat) : R := nth i (map (fun p => e_acc (snd p)) (eb_vec b)) 0%R.
Definition total (m : @mon NumR) (i : nat) : R := (held (m_worm m) i + held (m_phy m) i)%R.
Definition Rsum (f : nat -> R) (l : list nat) : R := fold_right (fun i a => (f i + a)%R) 0%R l.
Lemma held_ok (b : @ebundle NumR) i : (i < List.length (eb_vec b))%nat -> @ebValue NumR (Z.of_nat i) b = Ok (held b i).
Proof.
  intros L. unfold ebValue, ebAt, held. destruct (Z.ltb_spec (Z.of_nat i) 0); [lia|]. rewrite Nat2Z.id. change (@real NumR) with R in *.
  destruct (nth_error (eb_vec b) i) as [[n e]|] eqn:E; [|apply nth_error_None in E; lia]. cbn [obind]. f_equal. symmetry. apply nth_error_nth. now rewrite nth_error_map, E.
Qed.
Lemma held_Q (Q : estR -> Prop) b i : (i < List.length (eb_vec b))%nat -> Forall (fun p => Q (snd p)) (eb_vec b) -> exists e, @ebAt NumR (Z.of_nat i) b = Ok e /\ Q e /\ held b i = e_acc e.
Proof.
  intros L F. unfold ebAt, held. destruct (Z.ltb_spec (Z.of_nat i) 0); [lia|]. rewrite Nat2Z.id. change (@real NumR) with R in *.
  destruct (nth_error (eb_vec b) i) as [[n e]|] eqn:E; [|apply nth_error_None in E; lia]. exists e. split; [reflexivity|]. split.
  - rewrite Forall_forall in F. apply (F (n, e)). eapply nth_error_In; eauto.
  - apply nth_error_nth. now rewrite nth_error_map, E.
Qed.
Lemma isZero_R (x : R) : @isZero NumR x = true <-> (Rabs x < / IZR (10 ^ 9))%R.
Proof.
  assert (E : @e_abs NumR x = Rabs x).
  { unfold e_abs. change (@rleb NumR (rofZ 0) x) with (Rleb 0 x). change (@rneg NumR x) with (- x)%R. unfold Rleb. destruct (Rle_dec 0 x); [rewrite Rabs_pos_eq by lra|rewrite Rabs_left by lra]; reflexivity. }
  unfold isZero. rewrite E. change (@rltb NumR (Rabs x) eps0) with (Rltb (Rabs x) (1 / IZR (10 ^ 9))%R). unfold Rltb, Rdiv. rewrite Rmult_1_l.
  destruct (Rlt_dec (Rabs x) (/ IZR (10 ^ 9))) as [L|L]; split; auto; try discriminate; intros; contradiction.
Qed.
Lemma eps_small : (0 < / IZR (10 ^ 9) < 1)%R.
Proof. assert (1 < IZR (10 ^ 9))%R by (apply (IZR_lt 1); lia). split; [apply Rinv_0_lt_compat; lra|rewrite <- Rinv_1; apply Rinv_lt_contravar; lra]. Qed.
Lemma notZero_big (x : R) : (1 <= x)%R -> @isZero NumR x = false.
Proof. intros H. destruct (@isZero NumR x) eqn:E; auto. apply isZero_R in E. rewrite Rabs_pos_eq in E by lra. pose proof eps_small. lra. Qed.
Lemma notZero_pos (x : R) : (0 <= x)%R -> @isZero NumR x = false -> (0 < x)%R.
Proof. intros H E. destruct (Req_dec x 0) as [->|D]; [|lra]. assert (X : @isZero NumR 0%R = true) by (apply isZero_R; rewrite Rabs_R0; apply eps_small). rewrite E in X. discriminate. Qed.

Lemma adjLoop_ok (ratio : list R) (m : @mon NumR) (w0 : R) : forall l (orw : list R) (ws ps : R), NoDup l ->
  (forall i, In i l -> (i < List.length (eb_vec (m_worm m)))%nat /\ (i < List.length (eb_vec (m_phy m)))%nat /\ (i < List.length orw)%nat /\ (i < List.length ratio)%nat /\ @isZero NumR (total m i) = false) ->
  exists orw' : list R, @adjLoop NumR l ratio m w0 orw ws ps = Ok (orw', (ws + Rsum (held (m_worm m)) l)%R, (ps + Rsum (held (m_phy m)) l)%R) /\ List.length orw' = List.length orw /\
    forall k, nth k orw' 0%R = if in_dec Nat.eq_dec k l then (nth k orw 0 * (nth k ratio 0 * w0 / total m k))%R else nth k orw 0%R.
Proof.
  induction l as [|i l IH]; intros orw ws ps ND H; cbn [adjLoop Rsum fold_right].
  - exists orw. rewrite !Rplus_0_r. split; [reflexivity|]. split; [reflexivity|]. intros k. destruct (in_dec Nat.eq_dec k []) as [[]|]; reflexivity.
  - inversion ND as [|? ? NI ND']; subst. destruct (H i (or_introl eq_refl)) as (L1 & L2 & L3 & L4 & Z0). rewrite !held_ok by auto. cbn [obind].
    change (@radd NumR (held (m_worm m) i) (held (m_phy m) i)) with (total m i). rewrite Z0.
    destruct (@rat_ok NumR orw (Z.of_nat i)) as (x & X1 & X2); [lia|rewrite Nat2Z.id; exact L3|]. destruct (@rat_ok NumR ratio (Z.of_nat i)) as (y & Y1 & Y2); [lia|rewrite Nat2Z.id; exact L4|].
    change (@real NumR) with R in *. rewrite X1, Y1. cbn [obind].
    set (z := @rmul NumR x (@rdiv NumR (@rmul NumR y w0) (total m i))).
    destruct (IH (@lset NumR orw (Z.of_nat i) z) (ws + held (m_worm m) i)%R (ps + held (m_phy m) i)%R ND') as (o & O1 & O2 & O3).
    { intros k K. destruct (H k (or_intror K)) as (K1 & K2 & K3 & K4 & K5). rewrite lset_length. auto. }
    exists o. split; [|split].
    + change (@radd NumR ws (held (m_worm m) i)) with (ws + held (m_worm m) i)%R. change (@radd NumR ps (held (m_phy m) i)) with (ps + held (m_phy m) i)%R.
      rewrite O1. unfold Rsum. do 2 f_equal; [f_equal|]; ring.
    + now rewrite O2, lset_length.
    + intros k. rewrite O3. rewrite lset_nth by auto. rewrite Nat2Z.id in X2, Y2.
      destruct (in_dec Nat.eq_dec k l) as [I|I], (in_dec Nat.eq_dec k (i :: l)) as [J|J].
      * destruct (Nat.eqb_spec k i) as [->|D]; [contradiction|reflexivity].
      * exfalso. apply J. now right.
      * destruct J as [->|J]; [|contradiction]. rewrite Nat.eqb_refl. unfold z. rewrite (nth_error_nth orw k 0%R X2), (nth_error_nth ratio k 0%R Y2). reflexivity.
      * destruct (Nat.eqb_spec k i) as [->|D]; [|reflexivity]. exfalso. apply J. now left.
Qed.
Lemma tooFew_false (m : @mon NumR) l : @tooFew NumR l m = Ok false -> forall i, In i l -> exists e, @ebAt NumR (Z.of_nat i) (m_phy m) = Ok e /\ (1000 <= e_norm e)%R.
Proof.
  induction l as [|j l IH]; intros H i []; cbn [tooFew] in H; apply obind_ok in H as (n & E & H); (destruct (@rltb NumR n (rofZ 1000)) eqn:Q; [discriminate H|]).
  - subst j. unfold ebNorm in E. apply obind_ok in E as (e & E1 & E2). injection E2 as <-. exists e. split; auto. now apply Rltb_false in Q.
  - eauto.
Qed.
Lemma tooFew_ok (m : @mon NumR) l : (forall i, In i l -> (i < List.length (eb_vec (m_phy m)))%nat) -> exists b, @tooFew NumR l m = Ok b.
Proof.
  induction l as [|j l IH]; intros H; cbn [tooFew]; [eauto|]. unfold ebNorm, ebAt. destruct (Z.ltb_spec (Z.of_nat j) 0); [lia|]. rewrite Nat2Z.id.
  destruct (nth_error (eb_vec (m_phy m)) j) as [[n e]|] eqn:E; [|apply nth_error_None in E; specialize (H j (or_introl eq_refl)); lia]. cbn [obind].
  destruct (@rltb NumR (eNorm e) (rofZ 1000)); [eauto|]. apply IH. intros i I. apply H. now right.
Qed.

(** the counts after AdjustOrderReWeight got past its tests *)
Lemma adjust_spec (c : cfgR) (ratio : list R) (m : @mon NumR) : 1 <= c_order c -> (Z.to_nat (c_order c) < List.length (c_orw c))%nat -> (Z.to_nat (c_order c) < List.length ratio)%nat ->
  List.length (eb_vec (m_worm m)) = S (Z.to_nat (c_order c)) -> List.length (eb_vec (m_phy m)) = S (Z.to_nat (c_order c)) -> counters Qe m ->
  let l := seq 1 (Z.to_nat (c_order c)) in
  exists b c', @monAdjust NumR c ratio m = Ok (b, c') /\ (b = false /\ c' = c \/
   (exists orw' : list R, List.length orw' = List.length (c_orw c) /\
    (nth 0 orw' 0 = 1)%R /\ (forall k, (1 <= k <= Z.to_nat (c_order c))%nat -> nth k orw' 0 = nth k (c_orw c) 0 * (nth k ratio 0 * total m 0 / total m k))%R /\
    (forall k, (Z.to_nat (c_order c) < k)%nat -> nth k orw' 0 = nth k (c_orw c) 0)%R /\
    (forall k, (k <= Z.to_nat (c_order c))%nat -> (999 <= total m k)%R) /\
    (b = false /\ c' = s_orw c orw' \/
     b = true /\ (0 < Rsum (held (m_worm m)) l)%R /\ (0 < Rsum (held (m_phy m)) l)%R /\ (0 < e_acc (m_sig m))%R /\ (0 < e_acc (m_pol m))%R /\
     (c_gamma3 c = true -> (0 < e_acc (m_gg m))%R /\ (0 < e_acc (m_gw m))%R) /\
     c' = @mkCfg NumR (c_tab c) (c_lat c) (c_beta c) (c_order c) (c_gamma3 c) orw' (c_wsr c * (Rsum (held (m_phy m)) l / Rsum (held (m_worm m)) l))%R
            (c_pr c * (e_acc (m_sig m) / e_acc (m_pol m)))%R
            (if c_gamma3 c then (c_ggr c * (e_acc (m_sig m) / e_acc (m_gg m)))%R else c_ggr c) (if c_gamma3 c then (c_gwr c * (e_acc (m_pol m) / e_acc (m_gw m)))%R else c_gwr c)))).
Proof.
  intros O L1 L2 L3 L4 (C1 & C2 & C3 & C4 & C5 & C6) l. unfold monAdjust. set (n := Z.to_nat (c_order c)) in *.
  assert (RNG : forall i, In i (seq 0 (S n)) -> (i < S n)%nat) by (intros i I; apply in_seq in I; lia).
  destruct (tooFew_ok m (seq 0 (S n))) as (few & F); [intros i I; rewrite L4; auto|]. rewrite F. cbn [obind]. destruct few; [do 2 eexists; split; [reflexivity|]; left; auto|].
  pose proof (tooFew_false m _ F) as FF.
  destruct (@rltb NumR (eNorm (m_pol m)) (rofZ 1000)) eqn:NP; [do 2 eexists; split; [reflexivity|]; left; auto|].
  destruct (isZero (eValue (m_pol m)) || isZero (eValue (m_sig m))) eqn:ZP; [do 2 eexists; split; [reflexivity|]; left; auto|].
  destruct (c_gamma3 c && _) eqn:G3; [do 2 eexists; split; [reflexivity|]; left; auto|].
  apply orb_false_iff in ZP as [ZP ZS].
  assert (T : forall k, (k <= n)%nat -> (0 <= held (m_worm m) k)%R /\ (999 <= held (m_phy m) k)%R).
  { intros k K. destruct (held_Q Qe (m_worm m) k) as (e1 & E1 & Q1 & H1); [lia|exact C1|]. destruct (held_Q Qe (m_phy m) k) as (e2 & E2 & Q2 & H2); [lia|exact C2|].
    destruct (FF k) as (e3 & E3 & N3); [apply in_seq; lia|]. rewrite E2 in E3. injection E3 as <-. destruct Q1 as [Q1 _], Q2 as [_ Q2]. rewrite H1, H2. change (@real NumR) with R in *. split; lra. }
  pose proof (held_ok (m_worm m) 0 ltac:(lia)) as V1. pose proof (held_ok (m_phy m) 0 ltac:(lia)) as V2. change (Z.of_nat 0) with 0 in V1, V2. rewrite V1, V2. cbn [obind]. change (@radd NumR (held (m_worm m) 0) (held (m_phy m) 0)) with (total m 0).
  destruct (adjLoop_ok ratio m (total m 0) (seq 1 n) (c_orw c) 0%R 0%R (seq_NoDup _ _)) as (o & O1 & O2 & O3).
  { intros i I. apply in_seq in I. change (@real NumR) with R in *. repeat split; try lia. apply notZero_big. unfold total. destruct (T i); [lia|]. lra. }
  change (@rofZ NumR 0) with 0%R. rewrite O1. cbn [obind]. rewrite !Rplus_0_l. fold l.
  destruct (@rat_ok NumR o 0) as (x & X1 & _); [lia|change (@real NumR) with R in *; lia|]. rewrite X1. cbn [obind].
  set (orw' := @lset NumR o 0 (@rofZ NumR 1)). assert (SET : forall k, nth k orw' 0%R = if Nat.eqb k 0 then 1%R else nth k o 0%R) by (intros k; unfold orw'; apply (lset_nth o 0); change (@real NumR) with R in *; lia).
  assert (LEN : List.length orw' = List.length (c_orw c)) by (unfold orw'; rewrite lset_length; exact O2).
  assert (SPEC : (nth 0 orw' 0 = 1)%R /\ (forall k, (1 <= k <= n)%nat -> nth k orw' 0 = nth k (c_orw c) 0 * (nth k ratio 0 * total m 0 / total m k))%R /\
    (forall k, (n < k)%nat -> nth k orw' 0 = nth k (c_orw c) 0)%R /\ (forall k, (k <= n)%nat -> (999 <= total m k)%R)).
  { split; [now rewrite SET|]. split; [|split].
    - intros k K. rewrite SET, O3. destruct (Nat.eqb_spec k 0); [lia|]. destruct (in_dec Nat.eq_dec k (seq 1 n)) as [I|I]; [reflexivity|]. exfalso. apply I. apply in_seq. lia.
    - intros k K. rewrite SET, O3. destruct (Nat.eqb_spec k 0); [lia|]. destruct (in_dec Nat.eq_dec k (seq 1 n)) as [I|I]; [apply in_seq in I; lia|reflexivity].
    - intros k K. unfold total. destruct (T k K). lra. }
  destruct SPEC as (S1 & S2 & S3 & S4).
  assert (SW : forall l', (forall k, In k l' -> (k <= n)%nat) -> (0 <= Rsum (held (m_worm m)) l')%R /\ (0 <= Rsum (held (m_phy m)) l')%R /\ (l' <> [] -> 0 < Rsum (held (m_phy m)) l')%R).
  { induction l' as [|k l' IH]; intros H; unfold Rsum; cbn [fold_right]; [split; [lra|split; [lra|congruence]]|]. fold (Rsum (held (m_worm m)) l') (Rsum (held (m_phy m)) l').
    destruct IH as (I1 & I2 & _); [intros; apply H; now right|]. destruct (T k) as [T1 T2]; [apply H; now left|]. repeat split; try (intros _); lra. }
  destruct (SW l) as (W1 & W2 & W3); [intros k K; apply in_seq in K; lia|].
  destruct (@isZero NumR (Rsum (held (m_worm m)) l)) eqn:ZW.
  - do 2 eexists. split; [reflexivity|]. right. exists orw'. do 5 (split; [assumption|]). left. auto.
  - do 2 eexists. split; [reflexivity|]. right. exists orw'. do 5 (split; [assumption|]). right. split; [reflexivity|].
    split; [now apply notZero_pos|]. split; [apply W3; unfold l; destruct n eqn:N0; [lia|discriminate]|]. split; [apply notZero_pos; [apply C3|exact ZS]|]. split; [apply notZero_pos; [apply C4|exact ZP]|].
    destruct (c_gamma3 c) eqn:G; cbn [andb] in G3.
    + apply orb_false_iff in G3 as [G3 Z2]. apply orb_false_iff in G3 as [_ Z1]. split; [intros _; split; [apply notZero_pos; [apply C5|exact Z1]|apply notZero_pos; [apply C6|exact Z2]]|].
      unfold s_orw, s_wsr, s_pr, s_ggr, s_gwr. cbn [c_gamma3 c_tab c_lat c_beta c_order c_orw c_wsr c_pr c_ggr c_gwr]. rewrite G. reflexivity.
    + split; [discriminate|]. unfold s_orw, s_wsr, s_pr, s_ggr, s_gwr. cbn [c_gamma3 c_tab c_lat c_beta c_order c_orw c_wsr c_pr c_ggr c_gwr]. rewrite G. reflexivity.
Qed.

Lemma Forall_nth_pos (l : list R) : (forall k, (k < List.length l)%nat -> (0 < nth k l 0)%R) -> Forall (fun x => 0 < x)%R l.
Proof. intros H. apply Forall_forall. intros x I. destruct (In_nth l x 0%R I) as (k & K & <-). auto. Qed.
Lemma adjust_positive (c : cfgR) (ratio : list R) (m : @mon NumR) b c' : 1 <= c_order c -> (Z.to_nat (c_order c) < List.length (c_orw c))%nat -> (Z.to_nat (c_order c) < List.length ratio)%nat ->
  List.length (eb_vec (m_worm m)) = S (Z.to_nat (c_order c)) -> List.length (eb_vec (m_phy m)) = S (Z.to_nat (c_order c)) -> counters Qe m ->
  positive c -> Forall (fun x => 0 < x)%R ratio -> @monAdjust NumR c ratio m = Ok (b, c') -> positive c' /\ retuned c c'.
Proof.
  intros O L1 L2 L3 L4 CC PC PR H. destruct (adjust_spec c ratio m O L1 L2 L3 L4 CC) as (b2 & c2 & E & S). rewrite H in E. injection E as <- <-.
  assert (RT : forall o a b0 d e, List.length o = List.length (c_orw c) -> retuned c (@mkCfg NumR (c_tab c) (c_lat c) (c_beta c) (c_order c) (c_gamma3 c) o a b0 d e)).
  { intros o a b0 d e L. repeat split. cbn [c_orw]. rewrite L. exact L1. }
  destruct S as [[_ ->]|(o & LO & O0 & O1 & O2 & T & S)].
  - split; [exact PC|]. repeat split. exact L1.
  - destruct PC as (P1 & P2 & P3 & P4 & P5 & P6 & P7).
    assert (PO : Forall (fun x => 0 < x)%R o).
    { apply Forall_nth_pos. intros k K. destruct (Nat.eq_dec k 0) as [->|D]; [rewrite O0; lra|]. change (@real NumR) with R in *. rewrite LO in K.
      pose proof (nth_pos _ k P1 K) as PK. destruct (le_lt_dec k (Z.to_nat (c_order c))) as [LE|GT]; [|rewrite O2 by lia; exact PK].
      rewrite O1 by lia. assert (0 < nth k ratio 0)%R by (apply nth_pos; auto; lia). pose proof (T k LE). pose proof (T 0%nat ltac:(lia)).
      apply Rmult_lt_0_compat; auto. apply Rmult_lt_0_compat; [apply Rmult_lt_0_compat; lra|apply Rinv_0_lt_compat; lra]. }
    destruct S as [[_ ->]|(_ & W & Ph & Sg & Po & G & ->)].
    + split; [|apply RT; exact LO]. unfold positive. cbn [c_orw c_wsr c_pr c_ggr c_gwr c_beta s_orw]. auto 10.
    + split; [|apply RT; exact LO]. unfold positive. cbn [c_orw c_wsr c_pr c_ggr c_gwr c_beta].
      assert (D : forall x a b0 : R, (0 < x -> 0 < a -> 0 < b0 -> 0 < x * (a / b0))%R) by (intros x a b0 X A B; apply Rmult_lt_0_compat; auto; apply Rmult_lt_0_compat; auto; now apply Rinv_0_lt_compat).
      split; [exact PO|]. split; [now apply D|]. split; [now apply D|]. split; [destruct (c_gamma3 c); [apply D; auto; now apply G|exact P4]|].
      split; [destruct (c_gamma3 c); [apply D; auto; now apply G|exact P5]|]. auto.
Qed.
Lemma run_Qe {E} (next : E -> Z * E) c mtG mtW rs ts s m : 1 <= c_order c <= 9 -> @run NumR E next (fun f => (1 <= f)%R) c mtG mtW rs ts s m -> counters Qe m.
Proof. intros O. apply run_counters; auto using Qe_new, Qe_measure; [intros f e e' F; now apply Qe_squeeze|].
  intros e e0 e' Q X. unfold eFromDict in X. destruct (HSIZE <? _); [discriminate X|]. injection X as <-. unfold Qe in *.
  match goal with |- context [eUpdate ?x] => destruct (update_hist x) as (U1 & U2 & U3 & U4 & U5 & U6) end. rewrite U4, U5. exact Q. Qed.
(** ** Adjusting the factors *)
Definition counting (c : cfgR) (m : @mon NumR) : Prop :=
  List.length (eb_vec (m_worm m)) = S (Z.to_nat (c_order c)) /\ List.length (eb_vec (m_phy m)) = S (Z.to_nat (c_order c)) /\ counters Qe m.
Lemma tooFew_enough (m : @mon NumR) l : (forall i, In i l -> exists e, @ebAt NumR (Z.of_nat i) (m_phy m) = Ok e /\ (1000 <= e_norm e)%R) -> @tooFew NumR l m = Ok false.
Proof.
  induction l as [|j l IH]; intros H; [reflexivity|]. cbn [tooFew]. destruct (H j (or_introl eq_refl)) as (e & E & B). unfold ebNorm. rewrite E. cbn [obind].
  assert (Q : @rltb NumR (eNorm e) (rofZ 1000) = false) by (apply Rltb_false; exact B). rewrite Q. apply IH. intros i I. apply H. now right.
Qed.
Lemma adjust_true (c : cfgR) (ratio : list R) (m : @mon NumR) : 1 <= c_order c -> (Z.to_nat (c_order c) < List.length (c_orw c))%nat -> (Z.to_nat (c_order c) < List.length ratio)%nat -> counting c m ->
  (forall i, (i <= Z.to_nat (c_order c))%nat -> exists e, @ebAt NumR (Z.of_nat i) (m_phy m) = Ok e /\ (1000 <= e_norm e)%R) ->
  (forall e, In e [m_pol m] \/ c_gamma3 c = true /\ In e [m_gg m; m_gw m] -> 1000 <= e_norm e)%R ->
  (1 <= e_acc (m_sig m))%R -> (1 <= Rsum (held (m_worm m)) (seq 1 (Z.to_nat (c_order c))))%R ->
  exists c', @monAdjust NumR c ratio m = Ok (true, c').
Proof.
  intros O L1 L2 (L3 & L4 & CC) HP HN HS HW. pose proof (adjust_spec c ratio m O L1 L2 L3 L4 CC) as (b & c' & E & SP). exists c'. rewrite E. f_equal. f_equal. destruct b; [reflexivity|]. exfalso. clear SP. revert E.
  destruct CC as (C1 & C2 & C3 & C4 & C5 & C6). unfold monAdjust. set (n := Z.to_nat (c_order c)) in *.
  rewrite tooFew_enough by (intros i I; apply HP; apply in_seq in I; lia). cbn [obind].
  assert (NL : forall e : estR, (1000 <= e_norm e)%R -> @rltb NumR (eNorm e) (rofZ 1000) = false) by (intros e X; apply Rltb_false; exact X).
  assert (BIG : forall e : estR, Qe e -> (1000 <= e_norm e)%R -> @isZero NumR (eValue e) = false) by (intros e [_ X] Y; apply notZero_big; unfold eValue; change (@real NumR) with R in *; lra).
  assert (PP : (1000 <= e_norm (m_pol m))%R) by (apply HN; left; now left). rewrite (NL _ PP), (BIG _ C4 PP). rewrite (notZero_big (eValue (m_sig m)) HS). cbn [orb].
  assert (G : c_gamma3 c && (@rltb NumR (eNorm (m_gg m)) (rofZ 1000) || @rltb NumR (eNorm (m_gw m)) (rofZ 1000) || isZero (eValue (m_gg m)) || isZero (eValue (m_gw m))) = false).
  { destruct (c_gamma3 c) eqn:G3; [|reflexivity]. assert (G1 : (1000 <= e_norm (m_gg m))%R) by (apply HN; right; split; auto; now left). assert (G2 : (1000 <= e_norm (m_gw m))%R) by (apply HN; right; split; auto; right; now left).
    rewrite (NL _ G1), (NL _ G2), (BIG _ C5 G1), (BIG _ C6 G2). reflexivity. }
  rewrite G.
  assert (T : forall k, (k <= n)%nat -> (0 <= held (m_worm m) k)%R /\ (999 <= held (m_phy m) k)%R).
  { intros k K. destruct (held_Q Qe (m_worm m) k) as (e1 & E1 & Q1 & H1); [lia|exact C1|]. destruct (held_Q Qe (m_phy m) k) as (e2 & E2 & Q2 & H2); [lia|exact C2|].
    destruct (HP k K) as (e3 & E3 & N3). rewrite E2 in E3. injection E3 as <-. destruct Q1 as [Q1 _], Q2 as [_ Q2]. rewrite H1, H2. change (@real NumR) with R in *. split; lra. }
  pose proof (held_ok (m_worm m) 0 ltac:(lia)) as V1. pose proof (held_ok (m_phy m) 0 ltac:(lia)) as V2. change (Z.of_nat 0) with 0 in V1, V2. rewrite V1, V2. cbn [obind]. change (@radd NumR (held (m_worm m) 0) (held (m_phy m) 0)) with (total m 0).
  destruct (adjLoop_ok ratio m (total m 0) (seq 1 n) (c_orw c) 0%R 0%R (seq_NoDup _ _)) as (o & O1 & O2 & O3).
  { intros i I. apply in_seq in I. change (@real NumR) with R in *. repeat split; try lia. apply notZero_big. unfold total. destruct (T i); [lia|]. lra. }
  change (@rofZ NumR 0) with 0%R. rewrite O1. cbn [obind]. rewrite !Rplus_0_l.
  destruct (@rat_ok NumR o 0) as (x & X1 & _); [lia|change (@real NumR) with R in *; lia|]. rewrite X1. cbn [obind]. rewrite (notZero_big _ HW). discriminate.
Qed.
Lemma run_counting {E} (next : E -> Z * E) c mtG mtW rs ts s m : cfg_ok c -> new_ok (c_lat c) -> setup c mtG mtW rs ts -> @run NumR E next (fun f => (1 <= f)%R) c mtG mtW rs ts s m -> counting c m.
Proof.
  intros C LK SU H. destruct (run_ok next _ c mtG mtW rs ts s m C LK SU H) as [_ MO]. split; [apply MO|]. split; [apply MO|]. apply (run_Qe next c mtG mtW rs ts s m (co_order c C) H).
Qed.
Lemma adjust_run {E} (next : E -> Z * E) (c c' : cfgR) mtG mtW rs ts s m (ratio : list R) : cfg_ok c -> new_ok (c_lat c) -> setup c mtG mtW rs ts ->
  @run NumR E next (fun f => (1 <= f)%R) c mtG mtW rs ts s m -> retuned c c' -> positive c' -> (Z.to_nat (c_order c) < List.length ratio)%nat -> Forall (fun x => 0 < x)%R ratio ->
  exists b c2, @monAdjust NumR c' ratio m = Ok (b, c2) /\ positive c2 /\ retuned c c2.
Proof.
  intros C LK SU H (T1 & T2 & T3 & T4 & T5 & T6) PC L PR. destruct (run_counting next c mtG mtW rs ts s m C LK SU H) as (C1 & C2 & C3). pose proof (co_order c C) as O.
  destruct (adjust_spec c' ratio m) as (b & c2 & E1 & _); rewrite ?T4; auto; try lia. exists b, c2. split; [exact E1|].
  destruct (adjust_positive c' ratio m b c2) as [Q1 (Q2 & Q3 & Q4 & Q5 & Q6 & Q7)]; rewrite ?T4; auto; try lia. split; [exact Q1|].
  split; [congruence|]. split; [congruence|]. split; [congruence|]. split; [congruence|]. split; [congruence|]. rewrite <- T4. exact Q7.
Qed.
(** what the counts would have been under the new factors *)
Definition predicted (c c' : cfgR) (m : @mon NumR) (k : nat) : R := (total m k * (nth k (c_orw c') 0 / nth k (c_orw c) 0))%R.
Lemma adjust_balances (c c' : cfgR) (ratio : list R) (m : @mon NumR) : 1 <= c_order c -> positive c -> (Z.to_nat (c_order c) < List.length (c_orw c))%nat -> (Z.to_nat (c_order c) < List.length ratio)%nat ->
  counting c m -> @monAdjust NumR c ratio m = Ok (true, c') ->
  (forall i, (1 <= i <= Z.to_nat (c_order c))%nat -> predicted c c' m i = nth i ratio 0 * total m 0)%R /\
  (nth 0 (c_orw c) 0 = 1 -> predicted c c' m 0 = total m 0)%R /\
  (let l := seq 1 (Z.to_nat (c_order c)) in Rsum (held (m_worm m)) l * (c_wsr c' / c_wsr c) = Rsum (held (m_phy m)) l)%R /\
  (e_acc (m_pol m) * (c_pr c' / c_pr c) = e_acc (m_sig m))%R /\
  (c_gamma3 c = true -> e_acc (m_gg m) * (c_ggr c' / c_ggr c) = e_acc (m_sig m) /\ e_acc (m_gw m) * (c_gwr c' / c_gwr c) = e_acc (m_pol m))%R.
Proof.
  intros O (P1 & P2 & P3 & P4 & P5 & P6 & P7) L1 L2 (L3 & L4 & CC) H. destruct (adjust_spec c ratio m O L1 L2 L3 L4 CC) as (b & c2 & E & S). rewrite H in E. injection E as <- <-.
  destruct S as [[X _]|(o & LO & O0 & O1 & O2 & T & [[X _]|(_ & W & Ph & Sg & Po & G & ->)])]; try discriminate X. cbn [c_orw c_wsr c_pr c_ggr c_gwr]. change (@real NumR) with R in *.
  assert (PK : forall k, (k <= Z.to_nat (c_order c))%nat -> (0 < nth k (c_orw c) 0)%R) by (intros k K; apply nth_pos; auto; change (@real NumR) with R in *; lia).
  assert (D1 : forall x y z a : R, (x <> 0 -> a <> 0 -> a * (x * (y * z / a) / x) = y * z)%R) by (intros x y z a X A; field; auto).
  assert (D2 : forall x y a : R, (x <> 0 -> a <> 0 -> a * (x * (y / a) / x) = y)%R) by (intros x y a X A; field; auto).
  unfold predicted. cbn [c_orw]. change (@real NumR) with R. repeat split.
  - intros i I. rewrite O1 by auto. pose proof (PK i ltac:(lia)). pose proof (T i ltac:(lia)). apply D1; change (@real NumR) with R in *; lra.
  - intros X. rewrite O0, X. unfold Rdiv. now rewrite Rinv_1, !Rmult_1_r.
  - apply D2; change (@real NumR) with R in *; lra.
  - apply D2; change (@real NumR) with R in *; lra.
  - match goal with Q : c_gamma3 c = true |- _ => rewrite Q; destruct (G Q) end. apply D2; change (@real NumR) with R in *; lra.
  - match goal with Q : c_gamma3 c = true |- _ => rewrite Q; destruct (G Q) end. apply D2; change (@real NumR) with R in *; lra.
Qed.
(** on target the adjustment changes nothing *)
Lemma adjust_fixed (c : cfgR) (ratio : list R) (m : @mon NumR) b c' : 1 <= c_order c -> (Z.to_nat (c_order c) < List.length (c_orw c))%nat -> (Z.to_nat (c_order c) < List.length ratio)%nat ->
  counting c m -> (nth 0 (c_orw c) 0 = 1)%R -> (forall i, (1 <= i <= Z.to_nat (c_order c))%nat -> total m i = nth i ratio 0 * total m 0)%R ->
  (let l := seq 1 (Z.to_nat (c_order c)) in Rsum (held (m_worm m)) l = Rsum (held (m_phy m)) l) -> e_acc (m_sig m) = e_acc (m_pol m) ->
  (c_gamma3 c = true -> e_acc (m_gg m) = e_acc (m_sig m) /\ e_acc (m_gw m) = e_acc (m_pol m)) ->
  @monAdjust NumR c ratio m = Ok (b, c') -> c' = c.
Proof.
  intros O L1 L2 (L3 & L4 & CC) Z0 HT HW HS HG H. destruct (adjust_spec c ratio m O L1 L2 L3 L4 CC) as (b2 & c2 & E & S). rewrite H in E. injection E as <- <-. change (@real NumR) with R in *.
  destruct S as [[_ ->]|(o & LO & O0 & O1 & O2 & T & S)]; [reflexivity|].
  assert (EO : o = c_orw c).
  { apply (nth_ext _ _ 0%R 0%R); [exact LO|]. intros k K. destruct (Nat.eq_dec k 0) as [->|D]; [change (@real NumR) with R; rewrite O0, Z0; reflexivity|].
    destruct (le_lt_dec k (Z.to_nat (c_order c))) as [LE|GT]; [|apply O2; lia]. rewrite O1 by lia. pose proof (HT k ltac:(lia)) as Q. pose proof (T k LE). rewrite <- Q. field. lra. }
  assert (DV : forall x y : R, (0 < x -> y * (x / x) = y)%R) by (intros x y X; field; lra).
  destruct S as [[_ ->]|(_ & W & Ph & Sg & Po & G & ->)]; rewrite EO; [destruct c; reflexivity|]. cbv zeta in HW. rewrite HW, HS. rewrite !DV by (auto; lra).
  destruct (c_gamma3 c) eqn:G3; [|destruct c; cbn in *; congruence]. destruct (HG eq_refl) as [-> ->]. destruct (G eq_refl). rewrite HS. rewrite !DV by (auto; lra). destruct c; cbn in *; congruence.
Qed.
Lemma print_spec (c : cfgR) (m : @mon NumR) : counting c m -> let l := seq 1 (Z.to_nat (c_order c)) in
  @monPrint NumR c m = Ok (@s_wsr NumR c (Rsum (held (m_phy m)) l / Rsum (held (m_worm m)) l)%R).
Proof.
  intros (L1 & L2 & _) l. unfold monPrint.
  assert (EA : forall b : @ebundle NumR, List.length (eb_vec b) = S (Z.to_nat (c_order c)) -> exists e, ebAt 0 b = Ok e).
  { intros b L. unfold ebAt. change (0 <? 0) with false. cbn iota. change (Z.to_nat 0) with 0%nat. destruct (eb_vec b) as [|[? e] ?]; [discriminate L|]. cbn. eauto. }
  destruct (EA _ L1) as (e1 & ->), (EA _ L2) as (e2 & ->). cbn [obind].
  assert (SM : forall l' (a b : R), (forall i, In i l' -> (i <= Z.to_nat (c_order c))%nat) -> @Monitor.sums NumR l' m a b = Ok ((a + Rsum (held (m_worm m)) l')%R, (b + Rsum (held (m_phy m)) l')%R)).
  { induction l' as [|i l' IH]; intros a b H; cbn [Monitor.sums Rsum fold_right]; [now rewrite !Rplus_0_r|]. pose proof (H i (or_introl eq_refl)). rewrite !held_ok by (change (@real NumR) with R in *; lia). cbn [obind].
    rewrite IH by (intros; apply H; now right). unfold Rsum. do 2 f_equal; cbn; ring. }
  rewrite SM by (intros i I; apply in_seq in I; lia). cbn [obind]. change (@rofZ NumR 0) with 0%R. rewrite !Rplus_0_l. reflexivity.
Qed.

Lemma unbiased (E : Type) (next : E -> Z * E) (allowed : @real NumR -> Prop) (c c' : @cfg NumR) (mtG mtW rs ts : Z) (s : mstate) (m m' : @mon NumR) :
  cfg_ok c -> new_ok (c_lat c) -> setup c mtG mtW rs ts -> run next allowed c mtG mtW rs ts s m -> regular_history next c s -> retuned c c' -> positive c' ->
  (0 < normF (c_tab c))%R -> monMeasure c' (md s) m = Ok m' -> wm_ex (md s) = false ->
  let d := md s in let k := ((if measG d then 1 else c_pr c') * labels d / target c' d)%R in
  (0 < target c' d)%R /\
  (order d = 0 -> measG d = true -> (we_nacc (m_S m') = we_nacc (m_S m) + normF (c_tab c) * k)%R /\
     (c_gamma3 c = true -> exists g g', m_GG m = PAt g /\ m_GG m' = PAt g' /\ (gg_nacc g' = gg_nacc g + normF (c_tab c) * k)%R)) /\
  (order d = 0 -> measG d = false -> (we_nacc (m_P m') = we_nacc (m_P m) + normF (c_tab c) * k)%R /\
     (c_gamma3 c = true -> exists g g' y, m_GW m = PAt g /\ m_GW m' = PAt g' /\ gw_nacc g = Some y /\ gw_nacc g' = Some (y + normF (c_tab c) * k)%R)) /\
  (order d <> 0 -> gamma d = 0 -> measG d = true -> exists i,
     let vi := g_ver d (gmeas d) OUT in let vo := g_ver d (gmeas d) IN in
     GetIndexSmooth (gmap (c_tab c)) (spinZ (v_S d vi IN)) (spinZ (v_S d vo OUT)) (v_R d vi) (v_R d vo) (v_T d vi) (v_T d vo) = Ok i /\
     added (gmap (c_tab c)) (c_order c) (m_S m) (m_S m') (order d) i (cmul_r (cmul_r (dweight d) (IZR (TauSym (gmap (c_tab c)) (v_T d vi) (v_T d vo)))) k)) /\
  (order d <> 0 -> gamma d = 0 -> measG d = false -> exists i,
     let vi := w_ver d (wmeas d) OUT in let vo := w_ver d (wmeas d) IN in
     GetIndexSmooth (wmap (c_tab c)) (spin4 (v_S d vi)) (spin4 (v_S d vo)) (v_R d vi) (v_R d vo) (v_T d vi) (v_T d vo) = Ok i /\
     added (wmap (c_tab c)) (c_order c) (m_P m) (m_P m') (order d) i (cmul_r (cneg (dweight d)) k)) /\
  (order d <> 0 -> gamma d <> 0 -> measG d = true -> exists g g', m_GG m = PAt g /\ m_GG m' = PAt g' /\
     let vi := g_ver d (gmeas d) OUT in let vo := g_ver d (gmeas d) IN in let u := uext d in
     gg_added (c_lat c) mtG g g' (v_S d vi IN) (CoordiIndex (c_lat c) (v_R d vi) (ex_R u))
       (binTau (c_beta c) mtG (rsub (v_T d vo) (ex_T u))) (binTau (c_beta c) mtG (rsub (v_T d vi) (ex_T u)))
       (cmul_r (cmul_r (dweight d) (ggSign g (v_T d vi) (v_T d vo) (ex_T u))) k)) /\
  (order d <> 0 -> gamma d <> 0 -> measG d = false -> exists g g', m_GW m = PAt g /\ m_GW m' = PAt g' /\
     let vi := w_ver d (wmeas d) IN in let vo := w_ver d (wmeas d) OUT in let u := uext d in
     gw_added rs ts g g' (gwk (v_S d vi)) (gwr g (v_R d vi) (v_R d vo) (ex_R u)) (gwt g (v_T d vi) (v_T d vo) (ex_T u))
       (cmul_r (gwstored g (v_R d vi) (v_R d vo) (ex_R u) (v_T d vi) (v_T d vo) (ex_T u) (v_S d vi) (v_S d vo) (dweight d)) k)).
Proof.
  intros C LK SU H RH RT PC NF MM WX d k. destruct (run_ok next allowed c mtG mtW rs ts s m C LK SU H) as [Hh MO]. pose proof (history_inv next c s C LK Hh) as HI0.
  pose proof HI0 as HI. apply (retuned_Inv c c' _ RT) in HI. pose proof (history_ext next c s C LK Hh) as HX. apply (retuned_ext c c' _ RT) in HX.
  destruct (retuned_mon c c' mtG mtW rs ts m RT) as [RS RM]. pose proof (retuned_ok c c' C RT) as C'.
  destruct (measure_spec c' mtG mtW rs ts (md s) m C' (proj1 RS SU) HI HX (proj1 RM MO)) as (x & m2 & X & M & _ & F). rewrite MM in M. injection M as <-. fold d in WX, HI0, HI, HX, MM, X, F.
  destruct (weight_phase E next c s C LK RH) as (NZ & EP & _). fold d in NZ, EP. destruct (weight_product E next c s C LK RH) as (_ & W0 & _). fold d in W0.
  pose proof (order_range c' d HI C') as OR. pose proof (phase_share c' d x NZ EP PC (proj1 OR) X WX) as PS. unfold share, kind in PS. fold k in PS.
  assert (M : (0 < Cmod (toC (dweight d)))%R) by now apply Cmod_gt_0. pose proof (labels_pos d) as LP. pose proof PC as (P1 & P2 & P3 & P4 & P5 & _).
  pose proof (rat_nth _ _ _ X (proj1 OR)) as NX. change (@real NumR) with R in *. assert (XP : (0 < x)%R).
  { rewrite <- NX. apply nth_pos; auto. pose proof (co_orw c' C'). change (@real NumR) with R in *. lia. }
  assert (KP : (0 < (if measG d then 1 else c_pr c'))%R) by (destruct (measG d); [lra|exact P3]).
  assert (CP : (0 < (if gamma d =? 0 then 1 else if measG d then c_ggr c' else c_gwr c'))%R) by (destruct (gamma d =? 0); [lra|]; destruct (measG d); [exact P4|exact P5]).
  assert (T : target c' d = (Cmod (toC (dweight d)) * x * (if measG d then 1 else c_pr c') * (if gamma d =? 0 then 1 else if measG d then c_ggr c' else c_gwr c') * labels d)%R).
  { unfold target. change (re (dweight d), im (dweight d)) with (toC (dweight d)). change (@real NumR) with R in *. rewrite NX, WX. ring. }
  assert (TP : (0 < target c' d)%R) by (rewrite T; repeat (apply Rmult_lt_0_compat; [|assumption]); exact M).
  assert (OW : order d = 0 -> (@rdiv NumR (@rofZ NumR 1) x = normF (c_tab c) * k)%R).
  { intros O. assert (G0 : gamma d = 0) by (destruct (i_gam _ _ HI0) as [[G _]|[(_ & O' & _)|(_ & O' & _)]]; [exact G|contradiction|contradiction]).
    unfold k. rewrite T, (W0 O), Cmod_R, Rabs_pos_eq, G0 by lra. cbn [Z.eqb]. change (@rdiv NumR (@rofZ NumR 1) x) with (1 / x)%R. change (@real NumR) with R. field. repeat split; lra. }
  destruct RT as (ET & EL & EB & EO & EG & _).
  split; [exact TP|]. unfold corr in PS.
  destruct F as [F1 F2|F1 F2 F3 F4 F5 F6 F7 F8 F9|F1 F2 F3 F4 F5 F6 F7 F8 F9|i F1 F2 F3 F4 F5 F6 F7|i F1 F2 F3 F4 F5 F6 F7|g g' F1 F2 F3 F4 F5 F6 F7 F8 F9|g g' F1 F2 F3 F4 F5 F6 F7 F8 F9].
  - congruence.
  - repeat split; try contradiction; try congruence; intros.
    + destruct F6 as [_ ->]. rewrite (OW F2). reflexivity.
    + rewrite EG in F9. destruct (c_gamma3 c); [|congruence]. destruct F9 as (g & g' & G1 & G2 & _ & G3). exists g, g'. rewrite G3, (OW F2). auto.
  - repeat split; try contradiction; try congruence; intros.
    + destruct F6 as [_ ->]. rewrite (OW F2). reflexivity.
    + rewrite EG in F9. destruct (c_gamma3 c); [|congruence]. destruct F9 as (g & g' & G1 & G2 & _ & y & G3 & G4). exists g, g', y. rewrite G4, (OW F2). auto.
  - repeat split; try contradiction; try congruence; intros. exists i. cbv zeta in F7 |- *. rewrite ET, EO in F7. destruct F7 as [Q1 Q2]. split; [exact Q1|].
    match type of Q2 with added _ _ _ _ _ _ ?w => match goal with |- added _ _ _ _ _ _ ?v => replace v with w; [exact Q2|] end end.
    rewrite PS, F3. cbn [Z.eqb]. apply cplx_eq; cbn; ring.
  - repeat split; try contradiction; try congruence; intros. exists i. cbv zeta in F7 |- *. rewrite ET, EO in F7. destruct F7 as [Q1 Q2]. split; [exact Q1|].
    match type of Q2 with added _ _ _ _ _ _ ?w => match goal with |- added _ _ _ _ _ _ ?v => replace v with w; [exact Q2|] end end.
    assert (Z : @cmul_r NumR (@rmul_c NumR (@rofZ NumR (-1)) (dphase d)) (@rdiv NumR (@rofZ NumR 1) x) = @cneg NumR (@cmul_r NumR (dphase d) (@rdiv NumR (@rofZ NumR 1) x))) by (apply cplx_eq; cbn; ring).
    rewrite Z, PS, F3. cbn [Z.eqb]. apply cplx_eq; cbn; ring.
  - repeat split; try contradiction; try congruence; intros. exists g, g'. cbv zeta in F9 |- *. rewrite EL, EB in F9. split; [exact F7|]. split; [exact F8|].
    match type of F9 with gg_added _ _ _ _ _ _ _ _ ?w => match goal with |- gg_added _ _ _ _ _ _ _ _ ?v => replace v with w; [exact F9|] end end.
    rewrite PS, F4. destruct (Z.eqb_spec (gamma d) 0); [contradiction|]. change (@real NumR) with R in *. apply cplx_eq; cbn; field; lra.
  - repeat split; try contradiction; try congruence; intros. exists g, g'. cbv zeta in F9 |- *. split; [exact F7|]. split; [exact F8|].
    match type of F9 with gw_added _ _ _ _ _ _ _ ?w => match goal with |- gw_added _ _ _ _ _ _ _ ?v => replace v with w; [exact F9|] end end.
    rewrite <- gwstored_scale. f_equal. rewrite PS, F4. destruct (Z.eqb_spec (gamma d) 0); [contradiction|]. change (@real NumR) with R in *. apply cplx_eq; cbn; field; lra.
Qed.

(** *** Squeezing *)
Section Squeeze.
Context (f : R).
(** [x'] is [x] divided by the factor *)
Definition thin (x x' : @real NumR) : Prop := (f * (x' : R) = (x : R))%R.
Definition thin_est (e e' : @est NumR) : Prop := thin (e_acc e) (e_acc e') /\ thin (e_norm e) (e_norm e') /\ e_hist e' = e_hist e.
Definition thin_cells (l l' : list (@cplx NumR)) : Prop := Forall2 (fun z z' => thin (re z) (re z') /\ thin (im z) (im z')) l l'.
Lemma thin_scale (F : (0 < f)%R) a : thin_cells (wa_data a) (wa_data (waScale (@rdiv NumR (rofZ 1) f) a)).
Proof.
  unfold waScale. cbn [wa_data]. induction (wa_data a) as [|z l IH]; [constructor|]. cbn [map]. apply Forall2_cons; [|exact IH].
  cbn [cmul_assign_r re im]. change (@rdiv NumR) with Rdiv. change (@rmul NumR) with Rmult. change (@rofZ NumR 1) with 1%R.
  change (@real NumR) with R in *. unfold thin; split; field; lra.
Qed.
Lemma thin_div (F : (0 < f)%R) (x : R) : (f * @rdiv NumR x f = x)%R.
Proof. change (@rdiv NumR x f) with (x / f)%R. field. lra. Qed.
Lemma thin_e e e' : @eSqueeze NumR f e = Ok e' -> thin_est e e'.
Proof.
  unfold eSqueeze. destruct (@rltb NumR (rofZ 0) f) eqn:P; [|discriminate]. apply Rltb_spec in P. intros H. injection H as <-.
  split; [exact (thin_div P _)|]. split; [exact (thin_div P _)|reflexivity].
Qed.
Lemma thin_eb b b' : @ebSqueeze NumR f b = Ok b' -> Forall2 (fun p p' => fst p' = fst p /\ thin_est (snd p) (snd p')) (eb_vec b) (eb_vec b').
Proof.
  unfold ebSqueeze. intros H. apply obind_ok in H as (v & V & H). injection H as <-. cbn [eb_vec]. revert v V.
  induction (eb_vec b) as [|x l IH]; intros v V; cbn [mapo] in V; [injection V as <-; constructor|].
  apply obind_ok in V as (y & Y & V). apply obind_ok in V as (r & Er & V). injection V as <-.
  apply obind_ok in Y as (e & Ee & Y). injection Y as <-. apply Forall2_cons; [|now apply IH]. split; [reflexivity|]. now apply thin_e.
Qed.
Lemma thin_we e e' : @weSqueeze NumR f e = Ok e' -> (0 < f)%R /\ thin (we_nacc e) (we_nacc e') /\ we_norm e' = we_norm e /\ thin_cells (wa_data (we_accu e)) (wa_data (we_accu e')).
Proof.
  unfold weSqueeze. destruct (@rltb NumR (rofZ 0) f) eqn:P; [|discriminate]. apply Rltb_spec in P. intros H. injection H as <-.
  split; [exact P|]. split; [exact (thin_div P _)|]. split; [reflexivity|]. exact (thin_scale P _).
Qed.
Lemma thin_gg e e' : @ggSqueeze NumR f e = Ok e' -> thin (gg_nacc e) (gg_nacc e') /\ gg_norm e' = gg_norm e /\ gg_w e' = gg_w e /\ thin_cells (wa_data (gg_accu e)) (wa_data (gg_accu e')).
Proof.
  unfold ggSqueeze. destruct (@rltb NumR (rofZ 0) f) eqn:P; [|discriminate]. apply Rltb_spec in P. intros H. injection H as <-.
  split; [exact (thin_div P _)|]. split; [reflexivity|]. split; [reflexivity|]. exact (thin_scale P _).
Qed.
Lemma thin_gw e e' : @gwSqueeze NumR f e = Ok e' -> exists x x' a a', gw_nacc e = Some x /\ gw_nacc e' = Some x' /\ gw_accu e = Some a /\ gw_accu e' = Some a' /\
  thin (x) (x') /\ gw_norm e' = gw_norm e /\ gw_w e' = gw_w e /\ thin_cells (wa_data a) (wa_data a').
Proof.
  unfold gwSqueeze. destruct (@rltb NumR (rofZ 0) f) eqn:P; [|discriminate]. apply Rltb_spec in P.
  destruct (gw_nacc e) as [x|]; [|discriminate]. destruct (gw_accu e) as [a|]; [|discriminate]. intros H. injection H as <-.
  exists x, (@rdiv NumR x f), a, (waScale (@rdiv NumR (rofZ 1) f) a). repeat (split; [reflexivity|]).
  split; [exact (thin_div P _)|]. split; [reflexivity|]. split; [reflexivity|]. exact (thin_scale P _).
Qed.
Definition thin_bundle (b b' : @ebundle NumR) : Prop := Forall2 (fun p p' => fst p' = fst p /\ thin_est (snd p) (snd p')) (eb_vec b) (eb_vec b').
Lemma mon_squeeze c m m' : @monSqueeze NumR c f m = Ok m' ->
  (0 < f)%R /\ thin_bundle (m_worm m) (m_worm m') /\ thin_bundle (m_phy m) (m_phy m') /\ thin_est (m_sig m) (m_sig m') /\ thin_est (m_pol m) (m_pol m') /\
  (thin (we_nacc (m_S m)) (we_nacc (m_S m')) /\ we_norm (m_S m') = we_norm (m_S m) /\ thin_cells (wa_data (we_accu (m_S m))) (wa_data (we_accu (m_S m')))) /\
  (thin (we_nacc (m_P m)) (we_nacc (m_P m')) /\ we_norm (m_P m') = we_norm (m_P m) /\ thin_cells (wa_data (we_accu (m_P m))) (wa_data (we_accu (m_P m')))) /\
  (if c_gamma3 c then
     thin_est (m_gg m) (m_gg m') /\ thin_est (m_gw m) (m_gw m') /\
     (exists g g', m_GG m = PAt g /\ m_GG m' = PAt g' /\ thin (gg_nacc g) (gg_nacc g') /\ gg_norm g' = gg_norm g /\ gg_w g' = gg_w g /\ thin_cells (wa_data (gg_accu g)) (wa_data (gg_accu g'))) /\
     (exists g g' x x' a a', m_GW m = PAt g /\ m_GW m' = PAt g' /\ gw_nacc g = Some x /\ gw_nacc g' = Some x' /\ gw_accu g = Some a /\ gw_accu g' = Some a' /\
       thin (x) (x') /\ gw_norm g' = gw_norm g /\ gw_w g' = gw_w g /\ thin_cells (wa_data a) (wa_data a'))
   else m_gg m' = m_gg m /\ m_gw m' = m_gw m /\ m_GG m' = m_GG m /\ m_GW m' = m_GW m).
Proof.
  unfold monSqueeze. intros H. apply obind_ok in H as (eS & HS & H). apply obind_ok in H as (eP & HP & H). apply obind_ok in H as (wb & Hw & H).
  apply obind_ok in H as (pb & Hp & H). apply obind_ok in H as (es & Hs & H). apply obind_ok in H as (ep & He & H).
  destruct (thin_we _ _ HS) as (F & TS). destruct (thin_we _ _ HP) as (_ & TP).
  destruct (c_gamma3 c).
  - apply obind_ok in H as (G & HG & H). apply obind_ok in H as (G' & HG' & H). apply obind_ok in H as (W & HW & H). apply obind_ok in H as (W' & HW' & H).
    apply obind_ok in H as (eg & Hgg & H). apply obind_ok in H as (ew & Hgw & H). injection H as <-. cbn [m_worm m_phy m_sig m_pol m_S m_P m_gg m_gw m_GG m_GW].
    split; [exact F|]. split; [exact (thin_eb _ _ Hw)|]. split; [exact (thin_eb _ _ Hp)|]. split; [exact (thin_e _ _ Hs)|]. split; [exact (thin_e _ _ He)|].
    split; [exact TS|]. split; [exact TP|]. split; [exact (thin_e _ _ Hgg)|]. split; [exact (thin_e _ _ Hgw)|].
    destruct (m_GG m) as [| |G0]; cbn [pderef] in HG; try discriminate. injection HG as ->.
    destruct (m_GW m) as [| |W0]; cbn [pderef] in HW; try discriminate. injection HW as ->. split.
    + exists G, G'. split; [reflexivity|]. split; [reflexivity|]. exact (thin_gg _ _ HG').
    + destruct (thin_gw _ _ HW') as (x & x' & a & a' & Q). exists W, W', x, x', a, a'. split; [reflexivity|]. split; [reflexivity|]. exact Q.
  - injection H as <-. cbn [m_worm m_phy m_sig m_pol m_S m_P m_gg m_gw m_GG m_GW].
    split; [exact F|]. split; [exact (thin_eb _ _ Hw)|]. split; [exact (thin_eb _ _ Hp)|]. split; [exact (thin_e _ _ Hs)|]. split; [exact (thin_e _ _ He)|].
    split; [exact TS|]. split; [exact TP|]. repeat (split; [reflexivity|]). reflexivity.
Qed.
End Squeeze.
