(** Usable parameters and the outcome of a message in exact arithmetic *)
From Coq Require Import ZArith List Bool Arith Lia String Reals Lra.
From Verif Require Import Base Num NumR NumF Complex Lattice Bundle IndexMap Weights Diagram Markov DiagramIO DiagramCheck History Life
  Estimator WeightEstimator Gamma3 Monitor PyDict Param ConfigPy Env
  P_RNG P_Bundle P_IndexMap P_WP P_Inv P_Hop P_Fix P_IO P_History P_Promises P_IOProm P_Estimator P_WeightEst P_Monitor P_Life P_Param P_ParamIO
  P_Float P_FloatTau P_Complex P_Weight P_Check P_CheckW P_Env Job P_Job Prop_Check.
Import ListNotations.
Open Scope string_scope.
Open Scope Z_scope.

(** sizes that fit: what inlist.py produces *)
Definition fits {N : Num} {E} (p : @para N E) : Prop :=
  p_g3 p = false /\ 1 <= p_order p <= 9 /\ p_order p < Z.of_nat (List.length (p_orw p)) /\
  List.length (p_L p) = 2%nat /\ Forall (fun z => 0 < z < 2 ^ 31) (p_L p) /\ 1 < nth 0 (p_L p) 0 /\ 0 < p_nsub p < 2 ^ 31 /\ 0 < p_mtb p < 2 ^ 31 /\
  p_order p * (16 * p_nsub p * p_nsub p * fold_left Z.mul (p_L p) 1 * p_mtb p) < 2 ^ 32.
Lemma vol_pos (l : list Z) : Forall (fun z => 0 < z < 2 ^ 31) l -> forall a, 0 < a -> 0 < fold_left Z.mul l a.
Proof. induction 1 as [|x l Hx Hl IH]; intros a Ha; cbn [fold_left]; [exact Ha|]. apply IH. nia. Qed.
Lemma fits_tables {N : Num} {E} (p : @para N E) : fits p ->
  (p_order p * tabsize (gmapOf p) < 2 ^ 32 /\ p_order p * tabsize (wmapOf p) < 2 ^ 32) /\ (tabsize (gmapOf p) < 2 ^ 32 /\ tabsize (wmapOf p) < 2 ^ 32).
Proof.
  intros (_ & O & _ & _ & L1 & _ & S & M & B). pose proof (vol_pos _ L1 1 ltac:(lia)) as V. set (v := fold_left Z.mul (p_L p) 1) in *.
  assert (EG : tabsize (gmapOf p) = 4 * p_nsub p * p_nsub p * v * p_mtb p) by (unfold tabsize, gmapOf, Vol, v; cbn [im_nsp im_lat im_maxtau p_lat SublatVol Size]; ring).
  assert (EW : tabsize (wmapOf p) = 16 * p_nsub p * p_nsub p * v * p_mtb p) by (unfold tabsize, wmapOf, Vol, v; cbn [im_nsp im_lat im_maxtau p_lat SublatVol Size]; ring).
  rewrite EG, EW. assert (Q : 0 < p_nsub p * p_nsub p * v * p_mtb p) by (repeat apply Z.mul_pos_pos; lia).
  set (q := p_nsub p * p_nsub p * v * p_mtb p) in *. replace (4 * p_nsub p * p_nsub p * v * p_mtb p) with (4 * q) by (unfold q; ring). replace (16 * p_nsub p * p_nsub p * v * p_mtb p) with (16 * q) in * by (unfold q; ring).
  clearbody q. clear - O B Q. split; split; nia.
Qed.
Lemma fits_wepar {N : Num} {E} (p : @para N E) : fits p -> wepar (gmapOf p) (p_order p) /\ wepar (wmapOf p) (p_order p).
Proof.
  intros F. destruct (fits_tables p F) as ((T1 & T2) & T3 & T4). destruct F as (_ & O & _ & L0 & L1 & _ & S & M & _).
  assert (NE : p_L p <> []) by (intros X; rewrite X in L0; discriminate). assert (PO : Forall (fun s => 0 < s) (p_L p)) by (eapply Forall_impl; [|exact L1]; cbn; lia).
  split; (split; [constructor; cbn [gmapOf wmapOf im_lat im_nsp im_maxtau p_lat Size SublatVol]; auto; lia|split; [lia|assumption]]).
Qed.
Theorem usable_exact {E} (p : @para NumR E) : fits p -> (0 < (p_beta p : R))%R -> usable p.
Proof.
  intros F B. destruct (fits_wepar p F) as [W1 W2]. destruct (fits_tables p F) as (_ & T3 & T4). pose proof F as (G & O & OL & L0 & L1 & L2 & S & M & _).
  split; [exact G|]. split; [split; [exact L2|left; exact L0]|]. split; [exact W1|]. split; [exact W2|]. intros T E1 E2.
  apply (setup_exact (cfgWith p T)); cbn [cfgWith c_order c_orw c_lat c_tab c_beta c_gamma3]; rewrite ?E1, ?E2; cbn [gmapOf wmapOf im_lat im_nsp im_maxtau im_beta p_lat Size SublatVol]; try assumption; try reflexivity; try lia; try discriminate;
    intros X; first [rewrite X in L0; discriminate|rewrite G in X; discriminate].
Qed.
Theorem usable_double {E} (p : @para NumF E) b : fits p -> Fin (p_beta p) b -> moderate b -> usable p.
Proof.
  intros F B MO. destruct (fits_wepar p F) as [W1 W2]. destruct (fits_tables p F) as (_ & T3 & T4). pose proof F as (G & O & OL & L0 & L1 & L2 & S & M & _).
  split; [exact G|]. split; [split; [exact L2|left; exact L0]|]. split; [exact W1|]. split; [exact W2|]. intros T E1 E2.
  apply (setup_ieee (cfgWith p T) b); cbn [cfgWith c_order c_orw c_lat c_tab c_beta c_gamma3]; rewrite ?E1, ?E2; cbn [gmapOf wmapOf im_lat im_nsp im_maxtau im_beta p_lat Size SublatVol]; try assumption; try reflexivity; try lia; try discriminate;
    intros X; first [rewrite X in L0; discriminate|rewrite G in X; discriminate].
Qed.

(** the built-in check right after a Reset *)
Lemma below_not0 (z : cR) : ~ below z -> toC z <> Complex.RtoC 0.
Proof.
  intros H X. apply H. destruct z as [a b]. unfold toC in X. cbn in X. injection X as -> ->. split; cbn; rewrite Rabs_R0; lra.
Qed.
Lemma check_reset (c : @cfg NumR) d1 d : cfg_ok c -> Inv c d -> fixed d1 d -> order d <> 0 ->
  (CheckDiagram (c_tab c) d = Ok true <->
   (forall w, bexist (wB d) w = true -> w_delta d w = true -> v_T d (w_ver d w IN) = v_T d (w_ver d w OUT)) /\
   (forall g, bexist (gB d) g = true -> ~ below (g_W d g)) /\ (forall w, bexist (wB d) w = true -> ~ below (w_W d w))).
Proof.
  intros C HI F O. pose proof (topo_complete c d HI) as E1. pose proof (k_complete c d HI) as E2. pose proof (spin_complete c d HI) as E3. split.
  - intros Q. destruct (check_sound NumR (c_tab c) d Q O) as (_ & _ & B & _). destruct (check_parts NumR _ _ Q) as (_ & _ & _ & _ & W).
    destruct (weight_sound c d HI O W) as [W1 W2]. split; [|split; intros x L; apply live_exist in L; [now apply W1|now apply W2]].
    intros w L Ed. apply live_exist in L. destruct (B (nm (wB d) w)) as (w' & B1 & _ & B2); [apply L|].
    destruct (bat_spec (wB d) (nm (wB d) w) (i_bw _ _ HI) (proj2 L)) as [B3 _]. destruct (bi_nm _ (i_bw _ _ HI) w (proj1 L)) as [_ B4].
    rewrite B4, B1 in B3. injection B3 as ->. destruct (B2 Ed) as [_ B5]. now apply Reqb_spec in B5.
  - intros (Q1 & Q2 & Q3).
    assert (HW : WInv c d) by (apply (fixed_w c d1 d HI F); intros x L; apply live_exist in L; apply below_not0; auto).
    unfold CheckDiagram. rewrite E1, E2, E3. cbn [obind negb].
    rewrite (status_complete c d HI); [|intros w L Ed; apply Reqb_spec, Q1; auto; now apply live_exist]. cbn [obind negb].
    rewrite (weight_complete c d HI C HW); [reflexivity|]. split; intros x L; apply live_exist in L; [now apply Q2|now apply Q3].
Qed.
Section R.
Context {E : Type} (next : E -> Z * E).
Context (show : E -> string) (read : string -> option E) (seedE : Z -> E) (strOf : @py NumR -> string) (pid : @py NumR).
Notation job := (job next show read seedE strOf pid).
Theorem job_message (RS : forall x, read (show x) = Some x) (e : @env NumR E) k s o ms w gs ws wd : job e k s ->
  k_msg k = FHas o -> msgLoad o = Ok ms -> p_version (e_p e) < ms_version ms -> k_weight k = FHas w ->
  loadGW (updateWith ms (e_p e)) k w = Ok (gs, ws, wd) -> (0 < (p_beta (e_p e) : R))%R -> (p_beta (e_p e) <= ms_beta ms)%R -> rleb beta_min (p_beta (e_p e)) = true ->
  (0 < (ms_squeeze ms : R))%R -> ends_settled (e_d e) -> usable (updateWith ms (e_p e)) ->
  exists e', structural (e_cfg e') (e_d e') /\ e_p e' = updateWith ms (e_p e) /\ e_gs e' = gs /\ e_ws e' = ws /\ e_wd e' = wd /\
    same_diagram (fun v => v) (fun g => g) (fun w => w) (e_d e) (e_d e') /\ order (e_d e') = Z.max 1 (order (e_d e)) /\
    let d := e_d e' in
    let good := (forall w, bexist (wB d) w = true -> w_delta d w = true -> v_T d (w_ver d w IN) = v_T d (w_ver d w OUT)) /\
      (forall g, bexist (gB d) g = true -> ~ below (g_W d g)) /\ (forall w, bexist (wB d) w = true -> ~ below (w_W d w)) in
    (good -> envListen k e = Ok (true, e') /\ job e' k s) /\ (~ good -> forall r, envListen k e <> Ok r).
Proof.
  intros H HM HL HV HW LG B0 B1 B2 SQ ES U. destruct (job_ok next show read seedE strOf pid RS e k s H) as [[K CN] _].
  assert (CA : calm e ms).
  { split; [|split; [exact B2|split; [now apply Rleb_spec|exact ES]]]. change (@rmul NumR (@rofZ NumR 1) (p_beta (e_p e))) with (1 * (p_beta (e_p e) : R))%R. now rewrite Rmult_1_l. }
  assert (SQ' : @rltb NumR (@rofZ NumR 0) (ms_squeeze ms) = true) by now apply Rltb_spec.
  destruct (envListen_ok k e o ms w gs ws wd K HM HL HV HW LG U CA SQ') as (e' & K' & E1 & E2 & E3 & E4 & DR & FX & LI).
  exists e'. split; [exact (structural_ok (e_cfg e') _ (eo_i e' K') (ok_cfg e' K'))|]. repeat (split; [assumption|]).
  destruct (fixed_same (e_cfg e) (e_cfg e') _ _ (eo_i e K) FX (eo_i e' K')) as [SD OD]. split; [exact SD|]. split; [exact OD|]. cbv zeta.
  pose proof (check_reset (e_cfg e') _ (e_d e') (ok_cfg e' K') (eo_i e' K') FX ltac:(lia)) as CR. change (c_tab (e_cfg e')) with (e_tab e') in CR. split.
  - intros G. apply CR in G. rewrite LI, G. cbn [obind]. split; [reflexivity|]. eapply jb_listen; [exact H| |intros _].
    + rewrite LI, G. reflexivity.
    + rewrite E1. split; [exact U|]. destruct CA as (C1 & C2 & C3 & C4). unfold calmly. rewrite E1. auto.
  - intros G r Q. apply G, CR. rewrite LI in Q. apply obind_ok in Q as (b & Qb & Q). destruct b; [exact Qb|discriminate].
Qed.
End R.
