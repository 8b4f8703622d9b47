(** * What the parameters and files of a job mean for what it does (C102-C107) *)
From Coq Require Import ZArith List Bool String Reals Lra Lia.
From Verif Require Import Base Num NumR RNG Complex Lattice Bundle Weights Diagram Markov DiagramIO History Estimator WeightEstimator Monitor PyDict Param ConfigPy Env Job Target
  P_WP P_Hop P_Param P_ParamIO P_IOProm P_Param2 P_Env P_Job P_Monitor JobSpec P_Env2 Prop_Param Prop_Env.
Import ListNotations.
Open Scope string_scope.
Open Scope Z_scope.

(** ** C102 Whatever a job has done, every line of its diagram carries the entry of the job's arrays
    that the spins, sites and times of its ends select ([selected], JobSpec.v) ... *)
Theorem C102_line_weights_are_table_entries :
  forall (N : Num) (E : Type) (next : E -> Z * E) (show : E -> string) (read : string -> option E) (seedE : Z -> E)
    (strOf : @py N -> string) (pid : @py N),
  (forall x, read (show x) = Some x) ->
  forall e k s, job next show read seedE strOf pid e k s -> selected e.
Proof. exact @job_selected. Qed.
Print Assumptions C102_line_weights_are_table_entries.
(** ... and these arrays hold the entries of the weight file found at the start, restart or message *)
Theorem C102_tables_are_the_files :
  forall (N : Num) (E : Type) (read : string -> option E) (seedE : Z -> E) (strOf : @py N -> string) d0 k (e : @env N E),
  (forall k', envBuildNew read seedE strOf d0 k = Ok (e, k') -> exists w, k_weight k = FHas w /\ holds e w) /\
  (envLoad read seedE strOf d0 k = Ok e -> exists w, k_weight k = FHas w /\ holds e w) /\
  (forall e0, envListen k e0 = Ok (true, e) -> exists w, k_weight k = FHas w /\ holds e w).
Proof.
  intros N E read seedE strOf d0 k e. split; [|split].
  - exact (new_holds read seedE strOf d0 k e).
  - exact (load_holds read seedE strOf d0 k e).
  - intros e0. exact (listen_holds k e0 e).
Qed.
Print Assumptions C102_tables_are_the_files.

(** a job that was started, ran 1000 steps, was saved and started again *)
Definition plainS {N : Num} := @plain N string nextS showS readS seedS strS pidS.
Lemma entry_one {N : Num} (g x : @cplx N) n i : nth_error (repeat g n) i = Some x -> x = g.
Proof. intros H. apply nth_error_In in H. now apply repeat_spec in H. Qed.
Lemma no_seed_id {N : Num} {E : Type} (p : @para N E) : p_seed p = 0 -> no_seed p = p.
Proof. destruct p. cbn. now intros ->. Qed.
Lemma plain_case : exists (e0 e : @env NumR string) k s, plainS e0 e k (Some s) /\ p_counter (e_p e) = 1000 /\ e_p e0 = @exp NumR 1 2%R "start" /\
  same_factors (e_p e0) (e_p e) /\ p_beta (e_p e) = 2%R /\ k_input k = k_input (dk (@exp NumR 1 2%R "start") (wtf oneR oneR oneR)) /\
  k_weight k = FHas (wtf oneR oneR oneR) /\ k_fermi k = FHas (@basis_file NumR 2%R 1%R) /\ k_bose k = FHas (@basis_file NumR 2%R 1%R) /\ e_p s = e_p e /\ same_grid (e_p s) (e_p e0) /\ p_otr (e_p e) = p_otr (e_p e0).
Proof.
  destruct (kit_new (N := NumR) 1 (2%R : R) "start" oneR oneR oneR ltac:(lia) (close_R 2) (usable_R 1 2 "start" ltac:(lra))) as (e & k & B & J & K & E1 & _ & W1 & W2 & W3 & KW & KF & KB & _).
  destruct (job_selected nextS showS readS seedS strS pidS (fun _ => eq_refl) e k None J) as [SG SW].
  assert (NZ : forall z : Z, z = 1 \/ z = -1 -> nonzero (rmul_c (@rofZ NumR z) oneR)). { intros z Hz [X _]. cbn in X. destruct Hz as [-> | ->]; lra. }
  assert (N1 : nonzero (@c1 NumR)) by (intros [X _]; cbn in X; lra). assert (N2 : nonzero oneR) by (intros [X _]; cbn in X; lra).
  assert (P0 : plainS e e k None).
  { apply (pl_new nextS showS readS seedS strS pidS e diagram_new (dk (@exp NumR 1 2%R "start") (wtf oneR oneR oneR)) k); [repeat split|exact B|exact (eo_u e K)|rewrite E1; cbn; lia| |].
    - intros g Hg. specialize (SG g Hg). cbv zeta in SG. destruct (g_meas (e_d e) g); [rewrite SG; exact N1|]. destruct SG as (x & X & ->). rewrite W1 in X. apply entry_one in X as ->. apply NZ. destruct (rltb _ _); auto.
    - intros w Hw. specialize (SW w Hw). cbv zeta in SW. destruct (w_meas (e_d e) w); [rewrite SW; exact N1|]. rewrite W2, W3 in SW. destruct (w_delta (e_d e) w); apply entry_one in SW; rewrite SW; exact N2. }
  destruct (hop_ok nextS 1000 e K) as (e1 & H1 & K1 & _ & C1). rewrite E1 in C1. pose proof (hop_frame nextS 1000 e e1 H1) as (F1 & F2 & (V1 & V2 & V3) & F3).
  assert (P1 : plainS e e1 k None) by (eapply pl_hop; [exact P0|exact H1|rewrite C1; cbn; lia]).
  assert (P2 : plainS e e1 (saved showS pidS e1 k) (Some e1)) by (eapply pl_save; [exact P1|exact (envSave_ok showS pidS e1 k K1)]).
  destruct (job_restart nextS showS readS seedS strS pidS (fun _ => eq_refl) e1 _ e1 diagram_new (wtf oneR oneR oneR) (ga oneR) (wa oneR) (wda oneR) (plain_job _ _ _ _ _ _ _ _ _ _ P2) ltac:(repeat split) KW) as (e3 & L & J4 & BK & G1 & G2 & G3).
  { destruct F1 as (_ & A1 & A2 & _ & _ & A3 & A4 & _). apply kit_load; rewrite ?A1, ?A2, ?A3, ?A4, E1; try reflexivity. apply kit_basis_R; [exact KF|exact KB]. }
  exists e, e3, (saved showS pidS e1 k), e1. split; [eapply pl_restart; [exact P2| |exact L|congruence|congruence|congruence]; repeat (split; [reflexivity|]); reflexivity|].
  pose proof (bk_p _ _ BK) as EP. destruct F1 as (Q1 & Q2 & Q3 & Q4 & Q5 & Q6 & Q7 & Q8 & Q9 & Q10 & Q11 & Q12 & Q).
  assert (ES : e_p e1 = e_p e3). { rewrite EP. symmetry. apply no_seed_id. rewrite Q10, E1. reflexivity. }
  rewrite <- ES. split; [exact C1|]. split; [exact E1|]. split; [exact F2|]. split; [rewrite Q2, E1; reflexivity|].
  split; [|split; [exact KW|split; [exact KF|split; [exact KB|split; [reflexivity|split; [|exact Q12]]]]]].
  - destruct (new_reads _ _ _ _ _ _ _ B) as (o & m & pm & w & GG & GW & F & _ & _ & _ & _ & _ & _ & _ & _ & Q'). rewrite Q'. reflexivity.
  - repeat split; congruence.
Qed.
Example C102_case : (forall x, readS (showS x) = Some x) /\ exists (e : @env NumR string) k s, jobS e k (Some s) /\ p_counter (e_p e) = 1000.
Proof. split; [reflexivity|]. destruct plain_case as (e0 & e & k & s & P & C & _). exists e, k, s. split; [exact (plain_job _ _ _ _ _ _ _ _ _ _ P)|exact C]. Qed.

(** ** C103 A job that takes no message performs, whatever restarts and changes of factors there have
    been, Metropolis steps for the distribution its parameters ask for: |Weight| times OrderReWeight
    of the order, WormSpaceReweight in worm space and PolarReweight when a W line measures
    ([jobTarget], JobSpec.v). Exact arithmetic. *)
Theorem C103_job_samples_its_parameters :
  forall (E : Type) (next : E -> Z * E) (show : E -> string) (read : string -> option E) (seedE : Z -> E)
    (strOf : @py NumR -> string) (pid : @py NumR),
  (forall x, read (show x) = Some x) ->
  forall (e0 e e' : @env NumR E) k s, plain next show read seedE strOf pid e0 e k s -> positive_para (e_p e) -> envHop next 1 e = Ok e' ->
  (0 < jobTarget (e_p e) (e_d e))%R /\
  ((e_d e' = e_d e /\ e_prop e' = e_prop e /\ e_accs e' = e_accs e) \/
  exists op d' r g,
    let ratio := ((jobTarget (e_p e) d' * jobDensity e (inverse op) d') / (jobTarget (e_p e) (e_d e) * jobDensity e op (e_d e)))%R in
    let u := @urn_of NumR (u32 (fst (next g))) in
    prop_rel (e_cfg e) (e_d e) op ratio d' r /\
    e_prop e' = bump (e_prop e) op (order (e_d e)) /\
    (((1 <= ratio)%R /\ p_rng (e_p e') = g \/ (u < ratio < 1)%R /\ p_rng (e_p e') = snd (next g)) /\ e_d e' = d' /\ e_accs e' = bump (e_accs e) op (order (e_d e)) \/
     (ratio < 1)%R /\ (ratio <= u)%R /\ p_rng (e_p e') = snd (next g) /\ e_accs e' = e_accs e /\
       (e_d e' = e_d e \/ exists x, e_d e' = s_uext (e_d e) x))).
Proof. exact @job_metropolis. Qed.
Print Assumptions C103_job_samples_its_parameters.
(** The parameters of the walk never change but for the factors, and the walk is a regular history
    (History.v) for the parameters of the start: C16, C17, C99 and the other theorems on histories apply. *)
Theorem C103_job_is_a_history :
  forall (N : Num) (E : Type) (next : E -> Z * E) (show : E -> string) (read : string -> option E) (seedE : Z -> E)
    (strOf : @py N -> string) (pid : @py N),
  (forall x, read (show x) = Some x) ->
  forall e0 e k s, plain next show read seedE strOf pid e0 e k s -> regular_history next (e_cfg e0) (e_s e) /\ retuned (e_cfg e0) (e_cfg e).
Proof. intros N E next show read seedE strOf pid RS e0 e k s H. exact (proj1 (plain_reg next show read seedE strOf pid RS e0 e k s H)). Qed.
Print Assumptions C103_job_is_a_history.
Example C103_case : (forall x, readS (showS x) = Some x) /\ exists (e0 e e' : @env NumR string) k s, plainS e0 e k (Some s) /\ p_counter (e_p e) = 1000 /\ positive_para (e_p e) /\ envHop nextS 1 e = Ok e'.
Proof.
  split; [reflexivity|]. destruct plain_case as (e0 & e & k & s & P & C & E0 & (F1 & F2 & F3 & F4 & F5) & EB & _).
  pose proof (job_ok nextS showS readS seedS strS pidS (fun _ => eq_refl) _ _ _ (plain_job _ _ _ _ _ _ _ _ _ _ P)) as [[K _] _].
  destruct (hop_ok nextS 1 e K) as (e' & H & _). exists e0, e, e', k, s. split; [exact P|]. split; [exact C|]. split; [|exact H].
  unfold positive_para. rewrite F1, F2, F3, F4, F5, EB, E0. cbn. repeat split; try lra. repeat constructor; lra.
Qed.

(** ** C104 Load without a parameter file: the parameters and the fresh diagram StartFromNew would have
    made, and the statistics of the last Save *)
Theorem C104_load_without_parameter_file :
  forall (N : Num) (E : Type) (next : E -> Z * E) (show : E -> string) (read : string -> option E) (seedE : Z -> E)
    (strOf : @py N -> string) (pid : @py N),
  (forall x, read (show x) = Some x) ->
  forall e1 k1 s d0 k (e : @env N E) k', job next show read seedE strOf pid e1 k1 (Some s) -> constructed d0 ->
  k_para k = FMissing -> k_stat k = k_stat k1 -> envBuildNew read seedE strOf d0 k = Ok (e, k') -> usable (e_p e) -> same_grid (e_p s) (e_p e) ->
  exists e', envLoad read seedE strOf d0 k = Ok e' /\ e_p e' = e_p e /\ e_gs e' = e_gs e /\ e_ws e' = e_ws e /\ e_wd e' = e_wd e /\ e_d e' = e_d e /\
    kept_stats (p_order (e_p e)) (e_m s) (e_m e').
Proof. exact @load_without_para. Qed.
Print Assumptions C104_load_without_parameter_file.
(** ** C105 A job that is started from new beside the statistics file of an earlier one and stopped before
    its first Save: Load gives its parameters and its fresh diagram, but the statistics of the earlier job *)
Theorem C105_restart_before_first_save :
  forall (N : Num) (E : Type) (next : E -> Z * E) (show : E -> string) (read : string -> option E) (seedE : Z -> E)
    (strOf : @py N -> string) (pid : @py N),
  (forall x, read (show x) = Some x) ->
  forall e1 k1 s d0 d1 k (e : @env N E) k', job next show read seedE strOf pid e1 k1 (Some s) -> constructed d0 -> constructed d1 ->
  k_stat k = k_stat k1 -> envBuildNew read seedE strOf d0 k = Ok (e, k') -> usable (e_p e) -> Z.of_nat (List.length (p_orw (e_p e))) < 2 ^ 63 -> same_grid (e_p s) (e_p e) ->
  exists e', envLoad read seedE strOf d1 k' = Ok e' /\ e_p e' = e_p e /\ e_gs e' = e_gs e /\ e_ws e' = e_ws e /\ e_wd e' = e_wd e /\
    (exists fv fg fw, same_diagram fv fg fw (e_d e) (e_d e') /\ order (e_d e') = order (e_d e) /\
      (forall g, bexist (gB (e_d e)) g = true -> g_W (e_d e') (fg g) = g_W (e_d e) g) /\
      (forall w, bexist (wB (e_d e)) w = true -> w_W (e_d e') (fw w) = w_W (e_d e) w)) /\
    kept_stats (p_order (e_p e)) (e_m s) (e_m e').
Proof. exact @new_then_load. Qed.
Print Assumptions C105_restart_before_first_save.
(** both: the files of the job above, with the parameter file lost *)
Example C104_case : (forall x, readS (showS x) = Some x) /\ exists (e1 : @env NumR string) k1 s k e k', jobS e1 k1 (Some s) /\ p_counter (e_p s) = 1000 /\ constructed (@diagram_new NumR) /\
  k_para k = FMissing /\ k_stat k = k_stat k1 /\ envBuildNew readS seedS strS diagram_new k = Ok (e, k') /\ usable (e_p e) /\ Z.of_nat (List.length (p_orw (e_p e))) < 2 ^ 63 /\ same_grid (e_p s) (e_p e).
Proof.
  split; [reflexivity|]. destruct plain_case as (e0 & e1 & k1 & s & P & C & E0 & _ & _ & KI & KW & KF & KB & ES & SGr & _).
  set (p := @exp NumR 1 2%R "start") in *. set (k := mkDisk (k_input k1) FMissing (k_weight k1) (k_stat k1) (k_msg k1) (k_fermi k1) (k_bose k1)).
  assert (U : usable p) by (apply usable_R; lra).
  destruct (load_dict (dOf [("Para", toDict (paraToDict showS p))])) as (m & L1 & L2).
  destruct (section_get "Para" m (paraToDict showS p)) as (pm & L3 & L4); [rewrite L2, dget_of; reflexivity|].
  pose proof (para_round showS readS seedS strS p pm (exp_ok (N := NumR) 1 2%R "start" ltac:(lia)) (fun _ => eq_refl) L4) as L5. change (no_seed p) with p in L5.
  assert (LG : loadGW p k (wtf oneR oneR oneR) = Ok (ga oneR, wa oneR, wda oneR)) by (apply kit_load; try reflexivity; apply kit_basis_R; [exact KF|exact KB]).
  destruct (envBuildNew_ok readS seedS strS diagram_new k _ m pm p (wtf oneR oneR oneR) _ _ _ ltac:(repeat split) KI L1 L3 L5 U (exp_ok (N := NumR) 1 2%R "start" ltac:(lia)) KW LG) as (e & k' & B & _ & E1 & _).
  exists e1, k1, s, k, e, k'. split; [exact (plain_job _ _ _ _ _ _ _ _ _ _ P)|]. split; [rewrite ES; exact C|]. split; [repeat split|]. split; [reflexivity|]. split; [reflexivity|]. split; [exact B|].
  rewrite E1. split; [exact U|]. split; [cbn; lia|]. rewrite E0 in SGr. exact SGr.
Qed.

(** ** C106 The parameters in use are those of the file: each is the entry of that name in its section;
    a switch must be a bool, and a bool passes as the integer 0 or 1 *)
Theorem C106_parameters_are_the_files :
  forall (N : Num) (E : Type) (read : string -> option E) (seedE : Z -> E) (strOf : @py N -> string) (m : @dict N) (p : @para N E),
  paraFromDict read seedE strOf m = Ok p ->
  exists tau lat mk tm seed,
    section "Tau" m tau /\ section "Lattice" m lat /\ section "Markov" m mk /\ section "Timer" mk tm /\
    optional "Version" m (wholeI (p_version p)) (p_version p = 0) /\
    entry "Beta" tau (number (p_beta p)) /\ entry "MaxTauBin" tau (wholeU (p_mtb p)) /\ entry "MaxTauBinTiny" tau (wholeU (p_mtbt p)) /\
    entry "NSublat" lat (wholeI (p_nsub p)) /\ entry "L" lat (each wholeI (p_L p)) /\
    entry "Toss" mk (wholeI (p_toss p)) /\ entry "Sweep" mk (wholeI (p_sweep p)) /\ entry "Order" mk (wholeI (p_order p)) /\
    entry "WormSpaceReweight" mk (number (p_wsr p)) /\ entry "PolarReweight" mk (number (p_pr p)) /\
    entry "runGamma3" mk (truth (p_g3 p)) /\ entry "GammaGReweight" mk (number (p_ggr p)) /\ entry "GammaWReweight" mk (number (p_gwr p)) /\
    entry "OrderReWeight" mk (each number (p_orw p)) /\ entry "OrderTimeRatio" mk (each number (p_otr p)) /\
    optional "Counter" mk (wholeL (p_counter p)) (p_counter p = 0) /\ optional "Seed" mk (wholeI seed) (seed = 0) /\
    optional "RNG" mk (fun v => match v with PStr s => read s = Some (p_rng p) | _ => read (strOf v) = Some (p_rng p) end) (p_rng p = seedE seed) /\
    entry "PrinterTimer" tm (wholeI (p_tprint p)) /\ entry "DiskWriterTimer" tm (wholeI (p_tdisk p)) /\
    entry "MessageTimer" tm (wholeI (p_tmsg p)) /\ entry "ReweightTimer" tm (wholeI (p_trew p)).
Proof. exact @para_reads. Qed.
Print Assumptions C106_parameters_are_the_files.
Example C106_case : exists m : @dict NumR, paraFromDict readS seedS strS m = Ok (@exp NumR 1 2%R "start").
Proof.
  destruct (load_dict (dOf [("Para", toDict (paraToDict showS (@exp NumR 1 2%R "start")))])) as (m & L1 & L2).
  destruct (section_get "Para" m (paraToDict showS (@exp NumR 1 2%R "start"))) as (pm & L3 & L4); [rewrite L2, dget_of; reflexivity|].
  exists pm. exact (para_round showS readS seedS strS _ pm (exp_ok (N := NumR) 1 2%R "start" ltac:(lia)) (fun _ => eq_refl) L4).
Qed.

(** ** C107 What the steps of the main loop leave alone: Hop the setup, the factors, the tables and the
    statistics; Measure the parameters, the tables and the diagram; PrintStatus all but
    WormSpaceReweight; AdjustOrderReWeight all but the factors, which become those of C74 *)
Theorem C107_frames :
  forall (N : Num) (E : Type) (next : E -> Z * E) (e e' : @env N E),
  (forall n, envHop next n e = Ok e' -> same_setup (e_p e) (e_p e') /\ same_factors (e_p e) (e_p e') /\ same_weights e e' /\ e_m e' = e_m e) /\
  (envMeasure e = Ok e' -> e_p e' = e_p e /\ same_weights e e' /\ e_d e' = e_d e /\ e_prop e' = e_prop e /\ e_accs e' = e_accs e) /\
  (envPrint e = Ok e' ->
    same_setup (e_p e) (e_p e') /\ same_weights e e' /\ e_d e' = e_d e /\ e_m e' = e_m e /\ p_rng (e_p e') = p_rng (e_p e) /\ p_counter (e_p e') = p_counter (e_p e) /\
    p_orw (e_p e') = p_orw (e_p e) /\ p_pr (e_p e') = p_pr (e_p e) /\ p_ggr (e_p e') = p_ggr (e_p e) /\ p_gwr (e_p e') = p_gwr (e_p e)) /\
  (envAdjust e = Ok e' ->
    same_setup (e_p e) (e_p e') /\ same_weights e e' /\ e_d e' = e_d e /\ e_m e' = e_m e /\ p_rng (e_p e') = p_rng (e_p e) /\ p_counter (e_p e') = p_counter (e_p e) /\
    (p_g3 (e_p e) = false -> p_ggr (e_p e') = p_ggr (e_p e) /\ p_gwr (e_p e') = p_gwr (e_p e)) /\
    exists b c, monAdjust (e_cfg e) (p_otr (e_p e)) (e_m e) = Ok (b, c) /\
      p_orw (e_p e') = c_orw c /\ p_wsr (e_p e') = c_wsr c /\ p_pr (e_p e') = c_pr c /\ p_ggr (e_p e') = c_ggr c /\ p_gwr (e_p e') = c_gwr c).
Proof.
  intros N E next e e'. split; [|split; [|split]].
  - intros n. exact (hop_frame next n e e').
  - exact (measure_frame e e').
  - exact (print_frame e e').
  - exact (adjust_frame e e').
Qed.
Print Assumptions C107_frames.
Example C107_case : exists (e e1 e2 e3 e4 : @env NumR string), p_counter (e_p e) = 1000 /\ envHop nextS 10 e = Ok e1 /\ envMeasure e = Ok e2 /\ envPrint e = Ok e3 /\ envAdjust e = Ok e4.
Proof.
  destruct plain_case as (e0 & e & k & s & P & C & E0 & _ & _ & _ & _ & _ & _ & ES & (O1 & _) & OT). pose proof (plain_job _ _ _ _ _ _ _ _ _ _ P) as J.
  destruct (C89_job_goes_on _ _ nextS showS readS seedS strS pidS (fun _ => eq_refl) e k (Some s) J) as (_ & H & (e2 & H2 & _) & (e3 & H3 & _) & H4 & _). destruct (H 10) as (e1 & H1 & _).
  destruct H4 as (e4 & H4 & _); [rewrite <- ES, <- O1, ES, OT, E0; cbn; lia|].
  exists e, e1, e2, e3, e4. auto.
Qed.
