(** * Jobs that take messages and restart with other files keep sampling what they should (C113, C114) *)
From Coq Require Import ZArith List Bool String Reals Lra Lia.
From Verif Require Import Base Num NumR RNG Complex Lattice Bundle IndexMap Weights Diagram Markov DiagramIO DiagramCheck History Estimator WeightEstimator Monitor PyDict Param ConfigPy Env Job Target
  P_Bundle P_WP P_Inv P_Bundle P_Hop P_Fix P_IO P_History P_Promises P_Param P_ParamIO P_IOProm P_Param2 P_Env P_Job P_JobR P_Monitor P_MonitorR Prop_Check JobSpec P_Env2 VividSpec P_Vivid Prop_Param Prop_Env Prop_Env2.
Import ListNotations.
Open Scope string_scope.
Open Scope Z_scope.

(** ** C113 A job that takes messages and restarts, with whatever weight files: each step is a Metropolis
    step for the distribution that the parameters and arrays of that moment ask for. The weights of a
    diagram's lines in the files must not be 0 at the start and at a restart; the program itself
    makes sure of that when it takes a message. Exact arithmetic. *)
Theorem C113_job_with_messages_samples_its_parameters :
  forall (E : Type) (next : E -> Z * E) (show : E -> string) (read : string -> option E) (seedE : Z -> E)
    (strOf : @py NumR -> string) (pid : @py NumR),
  (forall x, read (show x) = Some x) ->
  forall (e e' : @env NumR E) k s, vivid next show read seedE strOf pid e k s -> positive_para (e_p e) -> envHop next 1 e = Ok e' ->
  (0 < jobTarget (e_p e) (e_d e))%R /\
  ((e_d e' = e_d e /\ e_prop e' = e_prop e /\ e_accs e' = e_accs e) \/
  exists op d' r g,
    let ratio := ((jobTarget (e_p e) d' * jobDensity e (inverse op) d') / (jobTarget (e_p e) (e_d e) * jobDensity e op (e_d e)))%R in
    let u := @urn_of NumR (u32 (fst (next g))) in
    prop_rel (e_cfg e) (e_d e) op ratio d' r /\
    e_prop e' = bump (e_prop e) op (order (e_d e)) /\
    (((1 <= ratio)%R /\ p_rng (e_p e') = g \/ (u < ratio < 1)%R /\ p_rng (e_p e') = snd (next g)) /\ e_d e' = d' /\ e_accs e' = bump (e_accs e) op (order (e_d e)) \/
     (ratio < 1)%R /\ (ratio <= u)%R /\ p_rng (e_p e') = snd (next g) /\ e_accs e' = e_accs e /\
       (e_d e' = e_d e \/ exists x, e_d e' = s_uext (e_d e) x))).
Proof. exact @vivid_metropolis. Qed.
Print Assumptions C113_job_with_messages_samples_its_parameters.
(** No line weight becomes 0 on the way, and the jobs of C103 are among these *)
Theorem C113_no_line_weight_vanishes :
  forall (E : Type) (next : E -> Z * E) (show : E -> string) (read : string -> option E) (seedE : Z -> E)
    (strOf : @py NumR -> string) (pid : @py NumR),
  (forall x, read (show x) = Some x) ->
  forall (e : @env NumR E) k s, vivid next show read seedE strOf pid e k s -> lit e.
Proof. exact @vivid_lit. Qed.
Print Assumptions C113_no_line_weight_vanishes.
Theorem C113_covers_C103 :
  forall (E : Type) (next : E -> Z * E) (show : E -> string) (read : string -> option E) (seedE : Z -> E)
    (strOf : @py NumR -> string) (pid : @py NumR),
  (forall x, read (show x) = Some x) ->
  forall (e0 e : @env NumR E) k s, plain next show read seedE strOf pid e0 e k s -> vivid next show read seedE strOf pid e k s.
Proof. exact @plain_vivid. Qed.
Print Assumptions C113_covers_C103.

(** ** C114 What a measurement of such a job adds, divided by the probability weight of the diagram it is
    taken in: the bare contribution of the diagram (Fock factor and sign included) for the entry its
    external legs select, times a factor that is the same at order 0 for the normalisation -- so the
    ratio of the histogram to the normalisation estimates the sum of the diagrams' weights. *)
Theorem C114_job_with_messages_measures_without_bias :
  forall (E : Type) (next : E -> Z * E) (show : E -> string) (read : string -> option E) (seedE : Z -> E)
    (strOf : @py NumR -> string) (pid : @py NumR),
  (forall x, read (show x) = Some x) ->
  forall (e e' : @env NumR E) k s, vivid next show read seedE strOf pid e k s -> positive_para (e_p e) -> envMeasure e = Ok e' -> wm_ex (e_d e) = false ->
  let d := e_d e in let T := e_tab e in let V := IZR (Vol (p_lat (e_p e)) * SublatVol (p_lat (e_p e))) in
  let q := ((if measG d then 1 else p_pr (e_p e)) * labels d / jobTarget (e_p e) d)%R in
  (0 < q)%R /\ (0 < V)%R /\
  (order d = 0 -> measG d = true -> wf_data (weToDict (m_S (e_m e'))) = wf_data (weToDict (m_S (e_m e))) /\ (we_nacc (m_S (e_m e')) = we_nacc (m_S (e_m e)) + V * q)%R /\ m_P (e_m e') = m_P (e_m e)) /\
  (order d = 0 -> measG d = false -> wf_data (weToDict (m_P (e_m e'))) = wf_data (weToDict (m_P (e_m e))) /\ (we_nacc (m_P (e_m e')) = we_nacc (m_P (e_m e)) + V * q)%R /\ m_S (e_m e') = m_S (e_m e)) /\
  (order d <> 0 -> measG d = true -> m_P (e_m e') = m_P (e_m e) /\ exists i,
     let vi := g_ver d (gmeas d) OUT in let vo := g_ver d (gmeas d) IN in
     GetIndexSmooth (gmap T) (spinZ (v_S d vi IN)) (spinZ (v_S d vo OUT)) (v_R d vi) (v_R d vo) (v_T d vi) (v_T d vo) = Ok i /\
     added (gmap T) (p_order (e_p e)) (m_S (e_m e)) (m_S (e_m e')) (order d) i (cmul_r (cmul_r (dweight d) (IZR (TauSym (gmap T) (v_T d vi) (v_T d vo)))) q)) /\
  (order d <> 0 -> measG d = false -> m_S (e_m e') = m_S (e_m e) /\ exists i,
     let vi := w_ver d (wmeas d) OUT in let vo := w_ver d (wmeas d) IN in
     GetIndexSmooth (wmap T) (spin4 (v_S d vi)) (spin4 (v_S d vo)) (v_R d vi) (v_R d vo) (v_T d vi) (v_T d vo) = Ok i /\
     added (wmap T) (p_order (e_p e)) (m_P (e_m e)) (m_P (e_m e')) (order d) i (cmul_r (cneg (dweight d)) q)).
Proof. exact @vivid_unbiased. Qed.
Print Assumptions C114_job_with_messages_measures_without_bias.

(** A job started with arrays of 1, sent a message that raises Beta from 2 to 3 with arrays of 5, that ran
    1000 steps, was saved, and restarted with arrays of 7 *)
Definition vividS := @vivid NumR string nextS showS readS seedS strS pidS.
Definition reR (x : R) : @cplx NumR := @mkC NumR x 0%R.
Lemma lit_const (e : @env NumR string) (x : R) : (1 <= x)%R -> EnvOk e -> sized e -> e_gs e = ga (reR x) -> e_ws e = wa (reR x) -> e_wd e = wda (reR x) ->
  (forall g, bexist (gB (e_d e)) g = true -> ~ below (g_W (e_d e) g)) /\ (forall w, bexist (wB (e_d e)) w = true -> ~ below (w_W (e_d e) w)).
Proof.
  intros X K S W1 W2 W3. destruct (env_selected e K S) as [SG SW].
  assert (NZ : forall z : Z, z = 1 \/ z = -1 -> ~ below (rmul_c (@rofZ NumR z) (reR x))). { intros z Hz [A _]. cbn in A. destruct Hz as [-> | ->]; [rewrite Rabs_pos_eq in A by lra|rewrite Rabs_left in A by lra]; lra. }
  assert (N1 : ~ below (@c1 NumR)) by (intros [A _]; cbn in A; rewrite Rabs_pos_eq in A by lra; lra). assert (N2 : ~ below (reR x)) by (intros [A _]; cbn in A; rewrite Rabs_pos_eq in A by lra; lra).
  split.
  - intros g Hg. specialize (SG g Hg). cbv zeta in SG. destruct (g_meas (e_d e) g); [rewrite SG; exact N1|]. destruct SG as (y & Y & ->). rewrite W1 in Y. apply entry_one in Y as ->. apply NZ. destruct (rltb _ _); auto.
  - intros w Hw. specialize (SW w Hw). cbv zeta in SW. destruct (w_meas (e_d e) w); [rewrite SW; exact N1|]. rewrite W2, W3 in SW. destruct (w_delta (e_d e) w); apply entry_one in SW; rewrite SW; exact N2.
Qed.
Lemma not_below_nonzero (z : @cplx NumR) : ~ below z -> nonzero z.
Proof. intros H [A B]. apply H. split; rewrite ?A, ?B; cbn; rewrite Rabs_R0; lra. Qed.
Lemma vivid_case : exists (e e1 : @env NumR string) k k1 s, vividS e k None /\ wm_ex (e_d e) = false /\ order (e_d e) <> 0 /\ positive_para (e_p e) /\ p_beta (e_p e) = 3%R /\ e_gs e = ga (reR 5) /\
  vividS e1 k1 (Some s) /\ p_counter (e_p e1) = 1000 /\ positive_para (e_p e1) /\ e_gs e1 = ga (reR 7).
Proof.
  destruct (kit_new (N := NumR) 1 (2%R : R) "start" (reR 1) (reR 1) (reR 1) ltac:(lia) (close_R 2) (usable_R 1 2 "start" ltac:(lra))) as (e & k & B & J & K & E1 & ES & W1 & W2 & W3 & KW & KF & KB & _).
  assert (L0 : lit e). { destruct (lit_const e 1 ltac:(lra) K (job_sized nextS showS readS seedS strS pidS (fun _ => eq_refl) e k None J) W1 W2 W3) as [A1 A2]. split; intros x X; apply not_below_nonzero; auto. }
  assert (V0 : vividS e k None). { eapply vv_new; [|exact B|exact (eo_u e K)|rewrite E1; cbn; lia|exact L0]. repeat (split; [reflexivity|]). reflexivity. }
  assert (D0 : forall w, bexist (wB (e_d e)) w = true -> w_delta (e_d e) w = false).
  { destruct (new_reads _ _ _ _ _ _ _ B) as (o & m & pm & w & GG & GW & F & _ & _ & _ & _ & _ & _ & BN & _). assert (C : cfg_ok (e_cfg e)) by exact (ok_cfg e K). assert (LK : new_ok (c_lat (e_cfg e))) by apply (eo_u e K).
    assert (BN' : BuildNew (c_tab (e_cfg e)) (c_lat (e_cfg e)) diagram_new = Ok (e_d e)). { rewrite <- BN. cbn [e_cfg cfgWith c_tab c_lat]. f_equal. apply tab_none. exact (proj1 (eo_u e K)). }
    destruct (BuildNew_inv (e_cfg e) diagram_new C (proj1 LK) (proj2 LK)) as (co & d1 & d' & _ & B' & Y & FX & HI & _); [repeat (split; [reflexivity|]); reflexivity|]. rewrite BN' in B'. injection B' as E'. rewrite <- E' in *.
    intros w1 X. replace (w_delta (e_d e)) with (w_delta d1) by (symmetry; apply FX). replace (wB (e_d e)) with (wB d1) in X by (symmetry; apply FX). apply live_exist in X.
    destruct (cp_onto (wB (@dref NumR co diagram_new)) (wB d1) _ ltac:(apply BInv_bk; lia) (y_bw _ _ Y) (y_aw _ _ Y) X) as (z & Lz & <-).
    exact (proj1 (proj2 (proj2 (y_w _ _ Y z Lz)))). }
  set (ms := @mkMsg NumR 2 3%R 1%R). set (k' := send k ms (wtf (reR 5) (reR 5) (reR 5)) (3 : R)%R).
  assert (U : usable (updateWith ms (e_p e))) by (rewrite E1; apply usable_exact; [apply (exp_fits (N := NumR) 2 3%R "start")|cbn; lra]).
  assert (V1 : vividS e k' None) by (eapply vv_files; [exact V0|reflexivity|reflexivity]).
  assert (LG : loadGW (updateWith ms (e_p e)) k' (wtf (reR 5) (reR 5) (reR 5)) = Ok (ga (reR 5), wa (reR 5), wda (reR 5))) by (rewrite E1; apply kit_load; try reflexivity; apply kit_basis_R; reflexivity).
  assert (CA : calm e ms).
  { split; [|split; [|split; [|exact ES]]]; rewrite E1; [change (1 * 2 = 2)%R; lra|change (Rleb (1 / 4294967296) 2 = true); apply Rleb_spec; lra|change (Rleb 2 3 = true); apply Rleb_spec; lra]. }
  destruct (envListen_ok k' e (toDict (msgToDict ms)) ms _ _ _ _ K eq_refl ltac:(apply msg_round; change (- 2 ^ 31 <= 2 < 2 ^ 31); lia) ltac:(rewrite E1; cbn; lia) eq_refl LG U CA ltac:(apply Rltb_spec; cbn; lra)) as (e2 & K2 & P2 & G2 & H2 & I2 & DR & FX & LI).
  assert (LN : sized e2). { pose proof LG as LG'. rewrite <- P2, <- G2, <- H2, <- I2 in LG'. exact (loadGW_len _ _ _ _ _ _ (eo_u e2 K2) LG'). }
  destruct (lit_const e2 5 ltac:(lra) K2 LN G2 H2 I2) as [A1 A2].
  destruct (fixed_same (e_cfg e) (e_cfg e2) _ _ (eo_i e K) FX (eo_i e2 K2)) as [_ OD].
  assert (CD : CheckDiagram (e_tab e2) (e_d e2) = Ok true).
  { apply (check_reset (e_cfg e2) (e_d e) (e_d e2) (ok_cfg e2 K2) (eo_i e2 K2) FX ltac:(lia)). split; [|split; assumption].
    intros w X Y. replace (w_delta (e_d e2)) with (w_delta (e_d e)) in Y by (symmetry; apply FX). replace (wB (e_d e2)) with (wB (e_d e)) in X by (symmetry; apply FX). rewrite (D0 w X) in Y. discriminate. }
  rewrite CD in LI. cbn [obind] in LI.
  assert (V2 : vividS e2 k' None). { eapply vv_message; [exact V1|exact LI|exact (eo_u e2 K2)|]. unfold calmly. rewrite P2. exact CA. }
  assert (EW : wm_ex (e_d e2) = false).
  { replace (wm_ex (e_d e2)) with (wm_ex (e_d e)) by (symmetry; apply FX). refine (proj1 (envBuildNew_fresh readS seedS strS diagram_new _ e k _ B (eo_u e K))). repeat (split; [reflexivity|]). reflexivity. }
  destruct (hop_ok nextS 1000 e2 K2) as (e3 & H3 & K3 & _ & C3). rewrite P2, E1 in C3. pose proof (hop_frame nextS 1000 e2 e3 H3) as (F1 & F2 & (Q1 & Q2 & Q3) & F3).
  assert (V3 : vividS e3 k' None) by (eapply vv_hop; [exact V2|exact H3|rewrite C3; cbn; lia]).
  assert (V4 : vividS e3 (saved showS pidS e3 k') (Some e3)) by (eapply vv_save; [exact V3|exact (envSave_ok showS pidS e3 k' K3)]).
  set (k2 := saved showS pidS e3 k') in *. set (k3 := mkDisk (k_input k2) (k_para k2) (FHas (wtf (reR 7) (reR 7) (reR 7))) (k_stat k2) (k_msg k2) (k_fermi k2) (k_bose k2)).
  assert (V5 : vividS e3 k3 (Some e3)) by (eapply vv_files; [exact V4|reflexivity|reflexivity]).
  assert (LG3 : loadGW (e_p e3) k3 (wtf (reR 7) (reR 7) (reR 7)) = Ok (ga (reR 7), wa (reR 7), wda (reR 7))).
  { destruct F1 as (_ & X1 & X2 & _ & _ & X3 & X4 & _). apply kit_load; rewrite ?X1, ?X2, ?X3, ?X4, P2, E1; try reflexivity. apply kit_basis_R; reflexivity. }
  destruct (job_restart nextS showS readS seedS strS pidS (fun _ => eq_refl) e3 k3 e3 diagram_new (wtf (reR 7) (reR 7) (reR 7)) (ga (reR 7)) (wa (reR 7)) (wda (reR 7)) (vivid_job _ _ _ _ _ _ _ _ _ V5) ltac:(repeat split) eq_refl LG3) as (e4 & L & J4 & BK & R1 & R2 & R3).
  pose proof (job_ok nextS showS readS seedS strS pidS (fun _ => eq_refl) _ _ _ J4) as [[K4 _] _].
  destruct (lit_const e4 7 ltac:(lra) K4 (job_sized nextS showS readS seedS strS pidS (fun _ => eq_refl) e4 k3 (Some e3) J4) R1 R2 R3) as [B1 B2].
  assert (V6 : vividS e4 k3 (Some e3)). { eapply vv_restart; [exact V5| |exact L|]; [repeat (split; [reflexivity|]); reflexivity|]. split; intros x X; apply not_below_nonzero; auto. }
  exists e2, e4, k', k3, e3. split; [exact V2|]. split; [exact EW|]. split; [lia|].
  split; [unfold positive_para; rewrite P2, E1; cbn; repeat split; try lra; repeat constructor; lra|]. split; [rewrite P2; reflexivity|]. split; [exact G2|].
  split; [exact V6|]. destruct F1 as (T1 & T2 & T3 & T4 & T5 & T6 & T7 & T8 & T9 & T10 & T). destruct F2 as (Y1 & Y2 & Y3 & Y4 & Y5).
  assert (EP : e_p e4 = e_p e3). { rewrite (bk_p _ _ BK). apply no_seed_id. rewrite T10, P2, E1. reflexivity. }
  rewrite EP. split; [exact C3|]. split; [|exact R1]. unfold positive_para. rewrite T2, Y1, Y2, Y3, Y4, Y5, P2, E1. cbn. repeat split; try lra. repeat constructor; lra.
Qed.
Example C113_case : (forall x, readS (showS x) = Some x) /\ exists (e e' : @env NumR string) k s, vividS e k (Some s) /\ p_counter (e_p e) = 1000 /\ positive_para (e_p e) /\ envHop nextS 1 e = Ok e'.
Proof.
  split; [reflexivity|]. destruct vivid_case as (_ & e & _ & k & s & _ & _ & _ & _ & _ & _ & V & C & P & _).
  pose proof (job_ok nextS showS readS seedS strS pidS (fun _ => eq_refl) _ _ _ (vivid_job _ _ _ _ _ _ _ _ _ V)) as [[K _] _].
  destruct (hop_ok nextS 1 e K) as (e' & H & _). exists e, e', k, s. auto.
Qed.
Example C114_case : (forall x, readS (showS x) = Some x) /\ exists (e e' : @env NumR string) k, vividS e k None /\ positive_para (e_p e) /\ envMeasure e = Ok e' /\ wm_ex (e_d e) = false /\ order (e_d e) <> 0 /\ e_gs e = ga (reR 5).
Proof.
  split; [reflexivity|]. destruct vivid_case as (e & _ & k & _ & _ & V & W & O & P & _ & G & _).
  pose proof (job_ok nextS showS readS seedS strS pidS (fun _ => eq_refl) _ _ _ (vivid_job _ _ _ _ _ _ _ _ _ V)) as [[K _] _].
  destruct (envMeasure_ok e K) as (e' & x & H & _). exists e, e', k. repeat (split; [assumption|]). assumption.
Qed.
