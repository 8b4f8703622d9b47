(** The built-in consistency check: what its success implies, and that it accepts every history *)
From Coq Require Import ZArith List Bool Arith Lia.
From Verif Require Import Base Num RNG Momentum Complex Lattice Bundle IndexMap Weights Diagram Markov DiagramIO DiagramCheck History
  P_Momentum P_Bundle P_WP P_Inv P_Rel P_Sem1 P_Hop P_IO P_History.
Import ListNotations.
Open Scope Z_scope.

Section C.
Context {N : Num}.
Notation D := diagram.

Lemma each_spec body : forall n i, each body i n = Ok tt <-> forall j, (i <= j < i + n)%nat -> body j = Ok tt.
Proof.
  induction n as [|n IH]; intros i; cbn [each].
  - split; [intros _ j Hj; lia|reflexivity].
  - split.
    + destruct (body i) as [[]| |] eqn:B; cbn [obind]; try discriminate. intros H j Hj. destruct (Nat.eq_dec j i) as [->|Hn]; auto.
      apply (proj1 (IH (S i)) H). lia.
    + intros H. rewrite (H i) by lia. cbn [obind]. apply IH. intros j Hj. apply H. lia.
Qed.
Lemma test_ok b : test b = Ok tt <-> b = true.
Proof. unfold test. destruct b; split; congruence. Qed.
Lemma obind_ok {A B} (m : outcome A) (f : A -> outcome B) y : obind m f = Ok y -> exists x, m = Ok x /\ f x = Ok y.
Proof. destruct m as [x| |]; cbn; try discriminate. eauto. Qed.
Lemma topo_g_ok (d : D) g e : topo_g d g e = Ok tt <-> bexist (vB d) (g_ver d g e) = true /\ v_G d (g_ver d g e) (inv e) = g.
Proof.
  unfold topo_g. destruct (bexist _ _); cbn [negb]; [|split; [discriminate|intros [H _]; discriminate]].
  rewrite test_ok, Nat.eqb_eq. split; [auto|intros [_ H]; auto].
Qed.
Lemma topo_w_ok (d : D) w e : topo_w d w e = Ok tt <->
  bexist (vB d) (w_ver d w e) = true /\ v_W d (w_ver d w e) = w /\ v_D d (w_ver d w e) = e.
Proof.
  unfold topo_w. destruct (bexist _ _); cbn [negb]; [|split; [discriminate|intros [H _]; discriminate]].
  split.
  - intros H. apply obind_ok in H as ([] & H1 & H2). rewrite test_ok in H1, H2. apply Nat.eqb_eq in H1.
    destruct (v_D d (w_ver d w e)), e; auto; discriminate.
  - intros (_ & H1 & H2). rewrite H1, H2, Nat.eqb_refl. cbn [test obind]. destruct e; reflexivity.
Qed.

(** ** soundness (C23) *)
Lemma topo_sound (d : D) : CheckTopo d = Ok true -> order d <> 0 ->
  Z.of_nat (bhowmany (gB d)) = 2 * order d /\ Z.of_nat (bhowmany (wB d)) = order d /\ Z.of_nat (bhowmany (vB d)) = 2 * order d /\
  (forall i, (i < bhowmany (gB d))%nat -> exists g, bat (gB d) i = Ok g /\
     forall e, bexist (vB d) (g_ver d g e) = true /\ v_G d (g_ver d g e) (inv e) = g) /\
  (forall i, (i < bhowmany (wB d))%nat -> exists w, bat (wB d) i = Ok w /\
     forall e, bexist (vB d) (w_ver d w e) = true /\ v_W d (w_ver d w e) = w /\ v_D d (w_ver d w e) = e).
Proof.
  unfold CheckTopo. intros H O. destruct (Z.eqb_spec (order d) 0); [contradiction|].
  apply obind_ok in H as ([] & H1 & H). apply obind_ok in H as ([] & H2 & H). apply obind_ok in H as ([] & H3 & H).
  apply obind_ok in H as ([] & H4 & H). apply obind_ok in H as ([] & H5 & _).
  rewrite test_ok in H1, H2, H3. rewrite each_spec in H4, H5. repeat split; try lia.
  - intros i Hi. specialize (H4 i ltac:(lia)). apply obind_ok in H4 as (g & B & H6). exists g. split; auto.
    apply obind_ok in H6 as ([] & A1 & A2). apply topo_g_ok in A1, A2. intros []; auto.
  - intros i Hi. specialize (H5 i ltac:(lia)). apply obind_ok in H5 as (g & B & H6). exists g. split; auto.
    apply obind_ok in H6 as ([] & A1 & A2). apply topo_w_ok in A1, A2. intros []; auto.
Qed.

(** ** soundness of the other parts, for any diagram *)
Lemma count_zero b f : forall n i, count b f i n = Ok 0 -> forall j, (i <= j < i + n)%nat -> exists x, bat b j = Ok x /\ f x = Ok false.
Proof.
  assert (P : forall n i z, count b f i n = Ok z -> 0 <= z).
  { induction n as [|n IH]; intros i z; cbn [count]; [intros [= <-]; lia|]. intros H. apply obind_ok in H as (x & _ & H). apply obind_ok in H as (y & _ & H).
    apply obind_ok in H as (r & H & Q). apply IH in H. injection Q as <-. destruct y; lia. }
  induction n as [|n IH]; intros i H j Hj; [lia|]. cbn [count] in H. apply obind_ok in H as (x & B & H). apply obind_ok in H as (y & F & H).
  apply obind_ok in H as (r & H & Q). pose proof (P _ _ _ H). injection Q as Q. destruct y; [lia|]. assert (r = 0) by lia. subst r.
  destruct (Nat.eq_dec j i) as [->|]; [eauto|]. apply (IH (S i) H). lia.
Qed.
Lemma count_single b f : forall n i, count b f i n = Ok 1 -> exists k, (i <= k < i + n)%nat /\
  forall j, (i <= j < i + n)%nat -> exists x, bat b j = Ok x /\ f x = Ok (Nat.eqb j k).
Proof.
  induction n as [|n IH]; intros i H; cbn [count] in H; [discriminate|]. apply obind_ok in H as (x & B & H). apply obind_ok in H as (y & F & H).
  apply obind_ok in H as (r & H & Q). injection Q as Q. destruct y.
  - assert (r = 0) by lia. subst r. exists i. split; [lia|]. intros j Hj. destruct (Nat.eqb_spec j i) as [->|]; [eauto|].
    apply (count_zero _ _ _ _ H). lia.
  - assert (r = 1) by lia. subst r. destruct (IH _ H) as (k & Hk & G). exists k. split; [lia|]. intros j Hj. destruct (Nat.eq_dec j i) as [->|].
    + exists x. split; auto. rewrite F. f_equal. symmetry. apply Nat.eqb_neq. lia.
    + apply G. lia.
Qed.
Lemma stat_w_inv (d : D) w r : stat_w d w = Ok r -> r = w_meas d w /\
  (w_delta d w = true -> w_meas d w = false /\ reqb (v_T d (w_ver d w IN)) (v_T d (w_ver d w OUT)) = true).
Proof.
  unfold stat_w. intros H. apply obind_ok in H as ([] & _ & H). apply obind_ok in H as ([] & _ & H). apply obind_ok in H as ([] & A & H).
  injection H as <-. split; auto. intros Ed. rewrite Ed in A. apply obind_ok in A as ([] & _ & A). apply obind_ok in A as ([] & _ & A).
  apply obind_ok in A as ([] & A & B). rewrite test_ok in A, B. split; auto. now apply negb_true_iff.
Qed.
Lemma stat_g_inv (d : D) g r : stat_g d g = Ok r -> r = g_meas d g /\ (r = true -> g = gmeas d).
Proof.
  unfold stat_g. destruct (g_meas d g); [|intros [= <-]; split; auto; discriminate]. intros H. apply obind_ok in H as ([] & A & H). injection H as <-.
  split; auto. intros _. now apply test_ok, Nat.eqb_eq in A.
Qed.
Lemma status_sound (d : D) : CheckStatus d = Ok true -> order d <> 0 ->
  (if measG d
   then (exists i, (i < bhowmany (gB d))%nat /\ bat (gB d) i = Ok (gmeas d) /\
           forall j g, (j < bhowmany (gB d))%nat -> bat (gB d) j = Ok g -> (g_meas d g = true <-> j = i)) /\
        (forall j w, (j < bhowmany (wB d))%nat -> bat (wB d) j = Ok w -> w_meas d w = false)
   else (exists i, (i < bhowmany (wB d))%nat /\
           forall j w, (j < bhowmany (wB d))%nat -> bat (wB d) j = Ok w -> (w_meas d w = true <-> j = i)) /\
        (forall j g, (j < bhowmany (gB d))%nat -> bat (gB d) j = Ok g -> g_meas d g = false)) /\
  (forall j w, (j < bhowmany (wB d))%nat -> bat (wB d) j = Ok w -> w_delta d w = true ->
     w_meas d w = false /\ reqb (v_T d (w_ver d w IN)) (v_T d (w_ver d w OUT)) = true).
Proof.
  unfold CheckStatus. intros H O. destruct (Z.eqb_spec (order d) 0); [contradiction|].
  apply obind_ok in H as (ng & H1 & H). apply obind_ok in H as ([] & T1 & H). apply obind_ok in H as (nw' & H2 & H). apply obind_ok in H as ([] & T2 & _).
  apply test_ok, Z.eqb_eq in T1, T2. subst ng nw'. destruct (measG d).
  - destruct (count_single _ _ _ _ H1) as (k & Hk & G). pose proof (count_zero _ _ _ _ H2) as W. split; [split|].
    + exists k. split; [lia|]. split.
      * destruct (G k ltac:(lia)) as (x & B & F). rewrite Nat.eqb_refl in F. apply stat_g_inv in F as [_ F]. now rewrite B, F.
      * intros j g Hj B. destruct (G j ltac:(lia)) as (x & B' & F). rewrite B in B'. injection B' as <-. apply stat_g_inv in F as [F _].
        rewrite <- F. apply Nat.eqb_eq.
    + intros j w Hj B. destruct (W j ltac:(lia)) as (x & B' & F). rewrite B in B'. injection B' as <-. now apply stat_w_inv in F as [F _].
    + intros j w Hj B. destruct (W j ltac:(lia)) as (x & B' & F). rewrite B in B'. injection B' as <-. now apply stat_w_inv in F as [_ F].
  - destruct (count_single _ _ _ _ H2) as (k & Hk & G). pose proof (count_zero _ _ _ _ H1) as W. split; [split|].
    + exists k. split; [lia|]. intros j g Hj B. destruct (G j ltac:(lia)) as (x & B' & F). rewrite B in B'. injection B' as <-. apply stat_w_inv in F as [F _].
      rewrite <- F. apply Nat.eqb_eq.
    + intros j w Hj B. destruct (W j ltac:(lia)) as (x & B' & F). rewrite B in B'. injection B' as <-. now apply stat_g_inv in F as [F _].
    + intros j w Hj B. destruct (G j ltac:(lia)) as (x & B' & F). rewrite B in B'. injection B' as <-. now apply stat_w_inv in F as [_ F].
Qed.
Lemma spin_sound (d : D) : CheckSpin d = Ok true -> order d <> 0 -> forall i g, (i < bhowmany (gB d))%nat -> bat (gB d) i = Ok g ->
  v_S d (g_ver d g IN) OUT = v_S d (g_ver d g OUT) IN.
Proof.
  unfold CheckSpin. intros H O i g Hi B. destruct (Z.eqb_spec (order d) 0); [contradiction|]. apply obind_ok in H as ([] & H & _).
  rewrite each_spec in H. specialize (H i ltac:(lia)). rewrite B in H. cbn [obind] in H. unfold check_s1 in H.
  apply obind_ok in H as ([] & _ & H). apply obind_ok in H as ([] & _ & H). apply test_ok in H.
  destruct (v_S d (g_ver d g IN) OUT), (v_S d (g_ver d g OUT) IN); auto; discriminate.
Qed.
Lemma k_sound (d : D) : CheckK d = Ok true -> order d <> 0 -> forall i v, (i < bhowmany (vB d))%nat -> bat (vB d) i = Ok v ->
  inrange (g_K d (v_G d v IN)) -> inrange (g_K d (v_G d v OUT)) -> inrange (w_K d (v_W d v)) -> inrange (wm_K d) ->
  eqm (g_K d (v_G d v IN) - g_K d (v_G d v OUT) - SIGN (v_D d v) * w_K d (v_W d v)
       - (if wm_ex d && Nat.eqb v (ira d) then wm_K d else if wm_ex d && Nat.eqb v (masha d) then - wm_K d else 0)) 0.
Proof.
  unfold CheckK. intros H O i v Hi B R1 R2 R3 R4. destruct (Z.eqb_spec (order d) 0); [contradiction|]. apply obind_ok in H as ([] & H & _).
  rewrite each_spec in H. specialize (H i ltac:(lia)). rewrite B in H. cbn [obind] in H. unfold check_k1 in H.
  apply obind_ok in H as ([] & _ & H). apply obind_ok in H as ([] & _ & H). apply obind_ok in H as ([] & _ & H). cbv zeta in H. apply test_ok, Z.eqb_eq in H.
  destruct (ksub_spec _ _ R1 R2) as [S1 S2].
  set (k0 := ksub (g_K d (v_G d v IN)) (g_K d (v_G d v OUT))) in *.
  set (k1 := match v_D d v with IN => ksub k0 (w_K d (v_W d v)) | OUT => kadd k0 (w_K d (v_W d v)) end) in *.
  assert (Q : inrange k1 /\ eqm k1 (g_K d (v_G d v IN) - g_K d (v_G d v OUT) - SIGN (v_D d v) * w_K d (v_W d v))).
  { unfold k1. destruct (v_D d v); cbn [SIGN].
    - destruct (ksub_spec _ _ S1 R3) as [T1 T2]. split; auto. eapply eqm_trans; [exact T2|].
      replace (_ - _ - 1 * _) with (g_K d (v_G d v IN) - g_K d (v_G d v OUT) - w_K d (v_W d v)) by lia. apply eqm_sub; auto using eqm_refl.
    - destruct (kadd_spec _ _ S1 R3) as [T1 T2]. split; auto. eapply eqm_trans; [exact T2|].
      replace (_ - _ - -1 * _) with (g_K d (v_G d v IN) - g_K d (v_G d v OUT) + w_K d (v_W d v)) by lia. apply eqm_add; auto using eqm_refl. }
  destruct Q as [Q1 Q2]. eapply eqm_trans; [apply eqm_sub; [apply eqm_sym, Q2|apply eqm_refl]|].
  match type of H with ?t = 0 => assert (E : eqm t 0) by (rewrite H; apply eqm_refl) end. eapply eqm_trans; [|exact E].
  destruct (wm_ex d && Nat.eqb v (ira d)).
  - apply eqm_sym, (ksub_spec _ _ Q1 R4).
  - destruct (wm_ex d && Nat.eqb v (masha d)); [|apply eqm_of_eq; lia].
    eapply eqm_trans; [|apply eqm_sym, (kadd_spec _ _ Q1 R4)]. apply eqm_of_eq; lia.
Qed.

(** ** completeness (C22) *)
Context (c : cfg) (d : D) (C : cfg_ok c) (HI : Inv c d).
Lemma bat_live b i : BInv b -> (i < bhowmany b)%nat -> exists x, bat b i = Ok x /\ live b x.
Proof. intros B Hi. destruct (bat_spec b i B Hi) as [A L]. eauto. Qed.
Lemma cnt_order : order d <> 0 -> Z.of_nat (avail (gB d)) = 2 * order d /\ Z.of_nat (avail (wB d)) = order d /\ Z.of_nat (avail (vB d)) = 2 * order d.
Proof. intros O. destruct (i_cnt _ _ HI) as (A & B & E & _ & _). lia. Qed.
Lemma topo_complete : CheckTopo d = Ok true.
Proof.
  unfold CheckTopo. destruct (Z.eqb_spec (order d) 0) as [|O]; auto. destruct (cnt_order O) as (A1 & A2 & A3).
  unfold bhowmany at 1 2 3. rewrite A1, A2, A3, !Z.eqb_refl. cbn [test obind].
  assert (E1 : each (fun i => obind (bat (gB d) i) (fun g => obind (topo_g d g IN) (fun _ => topo_g d g OUT))) 0 (bhowmany (gB d)) = Ok tt).
  { apply each_spec. intros j Hj. destruct (bat_live (gB d) j (i_bg _ _ HI) ltac:(lia)) as (g & -> & L). cbn [obind].
    assert (X : forall e, topo_g d g e = Ok tt). { intros e. apply topo_g_ok. split; [apply live_exist, (f_gv HI g e L)|apply (f_gvg HI g e L)]. }
    now rewrite !X. }
  assert (E2 : each (fun i => obind (bat (wB d) i) (fun g => obind (topo_w d g IN) (fun _ => topo_w d g OUT))) 0 (bhowmany (wB d)) = Ok tt).
  { apply each_spec. intros j Hj. destruct (bat_live (wB d) j (i_bw _ _ HI) ltac:(lia)) as (g & -> & L). cbn [obind].
    assert (X : forall e, topo_w d g e = Ok tt). { intros e. apply topo_w_ok. split; [apply live_exist, (f_wv HI g e L)|]. split; [apply (f_wvw HI g e L)|apply (f_wvd HI g e L)]. }
    now rewrite !X. }
  rewrite E1. cbn [obind]. rewrite E2. reflexivity.
Qed.
Lemma deref_live b x : live b x -> deref x = Ok tt.
Proof. intros [L _]. unfold deref, MAX_BUNDLE. destruct (Nat.ltb_spec x 20); auto; lia. Qed.
Lemma k_complete : CheckK d = Ok true.
Proof.
  unfold CheckK. destruct (Z.eqb_spec (order d) 0) as [|O]; auto.
  replace (each _ _ _) with (Ok tt); [reflexivity|]. symmetry. apply each_spec. intros j Hj.
  destruct (bat_live (vB d) j (i_bv _ _ HI) ltac:(lia)) as (v & -> & L). cbn [obind]. unfold check_k1.
  rewrite (deref_live _ _ (f_vg HI v IN L)), (deref_live _ _ (f_vg HI v OUT L)), (deref_live _ _ (f_vw HI v L)). cbn [obind]. cbv zeta.
  apply test_ok, Z.eqb_eq.
  pose proof (f_Kg HI _ (f_vg HI v IN L)) as R1. pose proof (f_Kg HI _ (f_vg HI v OUT L)) as R2. pose proof (f_Kw HI _ (f_vw HI v L)) as R3.
  pose proof (i_K _ _ HI v L) as K.
  destruct (ksub_spec _ _ R1 R2) as [S1 S2].
  set (k0 := ksub (g_K d (v_G d v IN)) (g_K d (v_G d v OUT))) in *.
  set (k1 := match v_D d v with IN => ksub k0 (w_K d (v_W d v)) | OUT => kadd k0 (w_K d (v_W d v)) end).
  assert (Q : inrange k1 /\ eqm k1 (g_K d (v_G d v IN) - g_K d (v_G d v OUT) - SIGN (v_D d v) * w_K d (v_W d v))).
  { unfold k1. destruct (v_D d v); cbn [SIGN].
    - destruct (ksub_spec _ _ S1 R3) as [T1 T2]. split; auto. eapply eqm_trans; [exact T2|]. 
      replace (_ - _ - 1 * _) with (g_K d (v_G d v IN) - g_K d (v_G d v OUT) - w_K d (v_W d v)) by lia. apply eqm_sub; auto using eqm_refl.
    - destruct (kadd_spec _ _ S1 R3) as [T1 T2]. split; auto. eapply eqm_trans; [exact T2|]. 
      replace (_ - _ - -1 * _) with (g_K d (v_G d v IN) - g_K d (v_G d v OUT) + w_K d (v_W d v)) by lia. apply eqm_add; auto using eqm_refl. }
  destruct Q as [Q1 Q2]. assert (R0 : inrange 0) by (unfold inrange, MAX_K; lia).
  assert (G : forall k, inrange k -> eqm k (k1 + wterm (wm_ex d) (ira d) (masha d) (wm_K d) v) -> k = 0).
  { intros k Hk E. apply eqm_inrange; auto. eapply eqm_trans; [exact E|]. eapply eqm_trans; [|exact K]. apply eqm_add; auto using eqm_refl. }
  apply G; clear G.
  - destruct (wm_ex d) eqn:Ex; cbn [andb]; [|auto]. destruct (f_wo HI Ex) as (_ & _ & _ & _ & _ & _ & RK & _).
    destruct (Nat.eqb v (ira d)); [apply ksub_spec; auto|]. destruct (Nat.eqb v (masha d)); [apply kadd_spec; auto|auto].
  - unfold wterm. destruct (wm_ex d) eqn:Ex; cbn [andb]; [|apply eqm_of_eq; lia]. destruct (f_wo HI Ex) as (_ & _ & _ & _ & _ & _ & RK & _).
    destruct (Nat.eqb v (ira d)); [apply ksub_spec; auto|]. destruct (Nat.eqb v (masha d)); [apply kadd_spec; auto|apply eqm_of_eq; lia].
Qed.
Lemma spin_complete : CheckSpin d = Ok true.
Proof.
  unfold CheckSpin. destruct (Z.eqb_spec (order d) 0) as [|O]; auto.
  replace (each _ _ _) with (Ok tt); [reflexivity|]. symmetry. apply each_spec. intros j Hj.
  destruct (bat_live (gB d) j (i_bg _ _ HI) ltac:(lia)) as (g & -> & L). cbn [obind]. unfold check_s1.
  rewrite (deref_live _ _ (f_gv HI g IN L)), (deref_live _ _ (f_gv HI g OUT L)). cbn [obind]. apply test_ok.
  rewrite (i_spin _ _ HI g L). now destruct (v_S d _ _).
Qed.

Lemma count_spec b f k : BInv b -> (forall j, (j < avail b)%nat -> f (names b j) = Ok (Nat.eqb j k)) -> forall n i, (i + n <= avail b)%nat ->
  count b f i n = Ok (if (i <=? k)%nat && (k <? i + n)%nat then 1 else 0).
Proof.
  intros B H. induction n as [|n IH]; intros i Hi; cbn [count].
  - replace (_ && _) with false; [reflexivity|]. symmetry. apply andb_false_iff. destruct (Nat.leb_spec i k); [right; apply Nat.ltb_ge; lia|now left].
  - destruct (bat_spec b i B ltac:(lia)) as [-> _]. cbn [obind]. rewrite H by lia. cbn [obind]. rewrite IH by lia. cbn [obind]. f_equal.
    destruct (Nat.eqb_spec i k), (Nat.leb_spec (S i) k), (Nat.ltb_spec k (S i + n)), (Nat.leb_spec i k), (Nat.ltb_spec k (i + S n)); cbn; lia.
Qed.
Lemma count_none b f : BInv b -> (forall j, (j < avail b)%nat -> f (names b j) = Ok false) -> count b f 0 (bhowmany b) = Ok 0.
Proof.
  intros B H. pose proof (count_spec b f (avail b) B) as G. unfold bhowmany. rewrite G; [|intros j Hj; rewrite H by auto; f_equal; symmetry; apply Nat.eqb_neq; lia|lia].
  cbn [Nat.leb Nat.add andb]. now rewrite Nat.ltb_irrefl.
Qed.
Lemma count_one b f x : BInv b -> live b x -> (forall j, (j < avail b)%nat -> f (names b j) = Ok (Nat.eqb (names b j) x)) -> count b f 0 (bhowmany b) = Ok 1.
Proof.
  intros B L H. pose proof (count_spec b f (nm b x) B) as G. unfold bhowmany. rewrite G.
  - cbn [Nat.leb Nat.add andb]. destruct L as [_ L]. apply Nat.ltb_lt in L. now rewrite L.
  - intros j Hj. rewrite H by auto. f_equal. pose proof (bi_av b B). destruct (bi_names b B j ltac:(lia)) as [_ E]. destruct (bi_nm b B x (proj1 L)) as [_ E'].
    destruct (Nat.eqb_spec (names b j) x) as [Q|Q], (Nat.eqb_spec j (nm b x)) as [Q'|Q']; auto; exfalso; [apply Q'; now rewrite <- Q|apply Q; now rewrite Q'].
  - lia.
Qed.
Lemma names_live b j : BInv b -> (j < avail b)%nat -> live b (names b j).
Proof. intros B Hj. now apply bat_spec. Qed.

(** the two ends of every instantaneous line have equal times *)
Definition delta_times : Prop := forall w, live (wB d) w -> w_delta d w = true -> reqb (v_T d (w_ver d w IN)) (v_T d (w_ver d w OUT)) = true.
Lemma stat_w_ok w : delta_times -> live (wB d) w -> stat_w d w = Ok (w_meas d w).
Proof.
  intros DT L. unfold stat_w.
  assert (E1 : (if w_worm d w then obind (nw d (ira d)) (fun a => if negb (Nat.eqb a w) then obind (nw d (masha d)) (fun b => test (Nat.eqb b w)) else Ok tt) else Ok tt) = Ok tt).
  { destruct (w_worm d w) eqn:Ew; auto. destruct (wm_ex d) eqn:Ex.
    - destruct (f_wo HI Ex) as (Li & Lm & _ & _ & _ & _ & _ & Q). apply (Q w L) in Ew.
      unfold nw. rewrite (deref_live _ _ Li). cbn [obind]. destruct (Nat.eqb_spec (v_W d (ira d)) w); auto. cbn [negb].
      rewrite (deref_live _ _ Lm). cbn [obind]. apply test_ok, Nat.eqb_eq. tauto.
    - rewrite (f_nworm HI w Ex L) in Ew. discriminate. }
  rewrite E1. cbn [obind]. clear E1.
  assert (E2 : (if wm_ex d && negb (w_worm d w) then obind (nw d (ira d)) (fun a => if Nat.eqb a w then Abort else obind (nw d (masha d)) (fun b => test (negb (Nat.eqb b w)))) else Ok tt) = Ok tt).
  { destruct (wm_ex d) eqn:Ex; auto. destruct (w_worm d w) eqn:Ew; auto. cbn [andb negb].
    destruct (f_wo HI Ex) as (Li & Lm & _ & _ & _ & _ & _ & Q). pose proof (proj2 (Q w L)) as Q2.
    unfold nw. rewrite (deref_live _ _ Li). cbn [obind]. destruct (Nat.eqb_spec (v_W d (ira d)) w); [rewrite Q2 in Ew by auto; discriminate|].
    rewrite (deref_live _ _ Lm). cbn [obind]. apply test_ok, negb_true_iff, Nat.eqb_neq. intros E. rewrite Q2 in Ew by auto. discriminate. }
  rewrite E2. cbn [obind]. clear E2.
  destruct (w_delta d w) eqn:Ed; [|reflexivity].
  rewrite (deref_live _ _ (f_wv HI w IN L)), (deref_live _ _ (f_wv HI w OUT L)). cbn [obind].
  rewrite (DT w L Ed). pose proof (f_delta HI w L) as X. rewrite Ed, andb_true_r in X. rewrite X. reflexivity.
Qed.
Lemma status_complete : delta_times -> CheckStatus d = Ok true.
Proof.
  intros DT. unfold CheckStatus. destruct (Z.eqb_spec (order d) 0) as [|O]; auto.
  pose proof (i_meas _ _ HI) as M. unfold Meas in M. destruct (measG d).
  - destruct M as (Lg & Mg & Mw). rewrite (count_one (gB d) (stat_g d) (gmeas d) (i_bg _ _ HI) Lg).
    + cbn [obind Z.eqb Pos.eqb test]. rewrite (count_none (wB d) (stat_w d) (i_bw _ _ HI)); [reflexivity|].
      intros j Hj. pose proof (names_live _ j (i_bw _ _ HI) Hj) as L. rewrite (stat_w_ok _ DT L). now rewrite Mw.
    + intros j Hj. pose proof (names_live _ j (i_bg _ _ HI) Hj) as L. unfold stat_g. pose proof (Mg _ L) as Q.
      destruct (g_meas d (names (gB d) j)) eqn:E.
      * rewrite (proj1 Q eq_refl), Nat.eqb_refl. reflexivity.
      * destruct (Nat.eqb_spec (names (gB d) j) (gmeas d)) as [X|]; auto. apply Q in X. discriminate.
  - destruct M as (Lw & Mw & Mg). rewrite (count_none (gB d) (stat_g d) (i_bg _ _ HI)).
    + cbn [obind Z.eqb test]. rewrite (count_one (wB d) (stat_w d) (wmeas d) (i_bw _ _ HI) Lw); [reflexivity|].
      intros j Hj. pose proof (names_live _ j (i_bw _ _ HI) Hj) as L. rewrite (stat_w_ok _ DT L). f_equal. pose proof (Mw _ L) as Q.
      destruct (w_meas d (names (wB d) j)) eqn:E; symmetry; [apply Nat.eqb_eq, Q; auto|apply Nat.eqb_neq; intros X; apply Q in X; discriminate].
    + intros j Hj. pose proof (names_live _ j (i_bg _ _ HI) Hj) as L. unfold stat_g. now rewrite Mg.
Qed.
End C.
