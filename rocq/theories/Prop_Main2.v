(** * What the main loop does: work, files, timers, factors (C108-C112) *)
From Coq Require Import ZArith List Bool String Reals Lra Lia.
From Verif Require Import Base Num NumR RNG Complex Lattice Bundle Weights Diagram Markov DiagramIO History Life Estimator Monitor PyDict Param Env Job
  P_WP P_Param P_Monitor P_Env P_Job MainLoop P_Main JobSpec P_Env2 Clock MainSpec P_Main2 Prop_Param Prop_Env.
Import ListNotations.
Open Scope string_scope.
Open Scope Z_scope.

(** ** C108 The work done: a run of n iterations makes n times Sweep steps more, whatever messages it
    takes, and its two tables count the physical diagrams seen, by order and measuring line *)
Theorem C108_work_done :
  forall (N : Num) (E : Type) (next : E -> Z * E) (show : E -> string) (read : string -> option E) (seedE : Z -> E)
    (strOf : @py N -> string) (pid : @py N),
  (forall x, read (show x) = Some x) ->
  forall ts x xs x', trace next show pid ts x xs x' -> forall s, job next show read seedE strOf pid (l_e x) (l_k x) s ->
  p_counter (e_p (l_e x)) + Z.of_nat (List.length ts) * Z.max (p_sweep (e_p (l_e x))) 0 < 2 ^ 63 -> p_order (e_p (l_e x)) < Z.of_nat (List.length (p_otr (e_p (l_e x)))) -> benigns x xs ->
  steady (e_p (l_e x)) (e_p (l_e x')) /\ p_counter (e_p (l_e x')) = p_counter (e_p (l_e x)) + Z.of_nat (List.length ts) * Z.max (p_sweep (e_p (l_e x))) 0 /\
  (undisturbed x xs -> forall g o, tally x' g o = tally x g o + seen xs g o) /\
  exists s', job next show read seedE strOf pid (l_e x') (l_k x') s' /\ (unsaved ts x xs -> s' = s /\ k_para (l_k x') = k_para (l_k x) /\ k_stat (l_k x') = k_stat (l_k x)).
Proof. intros N E next show read seedE strOf pid RS ts x xs x'. exact (trace_job next show read seedE strOf pid RS ts x xs x'). Qed.
Print Assumptions C108_work_done.
Theorem C108_runs_are_traces :
  forall (N : Num) (E : Type) (next : E -> Z * E) (show : E -> string) (pid : @py N) ts x x',
  mainRun next show pid ts x = Ok x' <-> exists xs, trace next show pid ts x xs x'.
Proof. exact @runs_are_traces. Qed.
Print Assumptions C108_runs_are_traces.
(** the thermalisation before the loop: Toss, taken as an unsigned number, times Sweep steps, without a measurement. Toss = -1 means 2^32 - 1. *)
Theorem C108_thermalisation :
  forall (N : Num) (E : Type) (next : E -> Z * E) (show : E -> string) (read : string -> option E) (seedE : Z -> E)
    (strOf : @py N -> string) (pid : @py N),
  (forall x, read (show x) = Some x) ->
  forall k s e x, job next show read seedE strOf pid e k s -> envListen k e = Ok (false, e) -> mainStart next k e = Ok x ->
  let n := p_toss (e_p e) mod 2 ^ 32 in
  p_counter (e_p e) + n * Z.max (p_sweep (e_p e)) 0 < 2 ^ 63 ->
  p_counter (e_p (l_e x)) = p_counter (e_p e) + n * Z.max (p_sweep (e_p e)) 0 /\ same_setup (e_p e) (e_p (l_e x)) /\ same_factors (e_p e) (e_p (l_e x)) /\ same_weights e (l_e x) /\ e_m (l_e x) = e_m e /\
  l_k x = k /\ l_step x = 0 /\ forall g o, tally x g o = 0.
Proof. intros N E next show read seedE strOf pid RS k s e x. exact (start_counter next show read seedE strOf pid RS k s e x). Qed.
Print Assumptions C108_thermalisation.

(** ** C109 What is on disk: at any moment after a Save the files give back, on Load, the environment
    at the end of the iteration that saved last (up to what followed the Save in that iteration);
    all steps up to that iteration are kept, none after it *)
Theorem C109_restart_gives_last_save :
  forall (N : Num) (E : Type) (next : E -> Z * E) (show : E -> string) (read : string -> option E) (seedE : Z -> E)
    (strOf : @py N -> string) (pid : @py N),
  (forall x, read (show x) = Some x) ->
  forall ts1 t ts2 x xs1 x1 x2 xs2 x' s,
  trace next show pid ts1 x xs1 x1 -> mainIter next show pid t x1 = Ok x2 -> trace next show pid ts2 x2 xs2 x' -> t_disk t && checkpoint x1 = true -> unsaved ts2 x2 xs2 ->
  job next show read seedE strOf pid (l_e x) (l_k x) s -> benigns x (xs1 ++ x2 :: xs2) ->
  p_counter (e_p (l_e x)) + Z.of_nat (List.length ts1 + 1 + List.length ts2) * Z.max (p_sweep (e_p (l_e x))) 0 < 2 ^ 63 -> p_order (e_p (l_e x)) < Z.of_nat (List.length (p_otr (e_p (l_e x)))) ->
  exists e, snapshot t x1 x2 e /\ p_counter (e_p e) = p_counter (e_p (l_e x)) + Z.of_nat (List.length ts1 + 1) * Z.max (p_sweep (e_p (l_e x))) 0 /\
    forall d0 w gs ws wd, constructed d0 -> k_weight (l_k x') = FHas w -> loadGW (e_p e) (l_k x') w = Ok (gs, ws, wd) ->
    exists e', envLoad read seedE strOf d0 (l_k x') = Ok e' /\ job next show read seedE strOf pid e' (l_k x') (Some e) /\ back e e' /\ e_gs e' = gs /\ e_ws e' = ws /\ e_wd e' = wd.
Proof. intros N E next show read seedE strOf pid RS. exact (saved_run next show read seedE strOf pid RS). Qed.
Print Assumptions C109_restart_gives_last_save.

(** ** C110 The timers: each fires at a checkpoint exactly if at least its interval has passed since it
    fired last; n firings take at least n intervals; and the files on disk are those of the last firing *)
Theorem C110_not_too_often :
  forall (N : Num) (E : Type) (next : E -> Z * E) (show : E -> string) (pid : @py N) k bs xt ts xs xt',
  clocked next show pid bs xt ts xs xt' -> (forall b, In b bs -> r_now (readAt k b) <= r_again (readAt k b)) ->
  times k ts * interval k (e_p (l_e (fst xt))) <= started k (snd xt') - started k (snd xt).
Proof. exact @timer_rare. Qed.
Print Assumptions C110_not_too_often.
Theorem C110_not_too_late :
  forall (N : Num) (E : Type) k b (x : @mloop N E) tm t tm', tickOf b x tm = (t, tm') -> checkpoint x = true ->
  (fires k t = true <-> interval k (e_p (l_e x)) <= r_now (readAt k b) - started k tm) /\
  (r_now (readAt k b) - started k tm' < interval k (e_p (l_e x)) \/ started k tm' = r_again (readAt k b)).
Proof. exact @timer_prompt. Qed.
Print Assumptions C110_not_too_late.
Theorem C110_disk_timer_tells_last_save :
  forall (N : Num) (E : Type) (next : E -> Z * E) (show : E -> string) (pid : @py N) bs (x : @mloop N E) tm ts xs x' tm',
  clocked next show pid bs (x, tm) ts xs (x', tm') ->
  unsaved ts x xs /\ tm_disk tm' = tm_disk tm \/
  exists bs1 b bs2 ts1 t ts2 xs1 x1 tm1 x2 tm2 xs2, bs = (bs1 ++ b :: bs2)%list /\ ts = (ts1 ++ t :: ts2)%list /\ xs = (xs1 ++ x2 :: xs2)%list /\
    clocked next show pid bs1 (x, tm) ts1 xs1 (x1, tm1) /\ tickOf b x1 tm1 = (t, tm2) /\ mainIter next show pid t x1 = Ok x2 /\ clocked next show pid bs2 (x2, tm2) ts2 xs2 (x', tm') /\
    t_disk t && checkpoint x1 = true /\ unsaved ts2 x2 xs2 /\ tm_disk tm' = r_again (b_disk b).
Proof. exact @last_save. Qed.
Print Assumptions C110_disk_timer_tells_last_save.
Theorem C110_clocked_runs :
  forall (N : Num) (E : Type) (next : E -> Z * E) (show : E -> string) (pid : @py N) bs (x : @mloop N E) tm xt',
  clockRun next show pid bs (x, tm) = Ok xt' ->
  exists ts xs, clocked next show pid bs (x, tm) ts xs xt' /\ trace next show pid ts x xs (fst xt') /\ List.length ts = List.length bs.
Proof.
  intros N E next show pid bs x tm xt' H. destruct (run_clocked next show pid bs x tm xt' H) as (ts & xs & C). exists ts, xs. split; [exact C|]. exact (clocked_trace next show pid bs (x, tm) ts xs xt' C).
Qed.
Print Assumptions C110_clocked_runs.

(** ** C111 The factors of the sampled distribution: OrderReWeight and PolarReweight change only in
    iterations in which the reweighting timer fires, WormSpaceReweight also when the printing timer
    fires; then they become what MarkovMonitor::AdjustOrderReWeight (C74) makes of the factors before and of the
    statistics after the iteration *)
Theorem C111_factors :
  forall (N : Num) (E : Type) (next : E -> Z * E) (show : E -> string) (pid : @py N) t (x x' : @mloop N E), mainIter next show pid t x = Ok x' ->
  (t_rew t && checkpoint x = false -> p_orw (e_p (l_e x')) = p_orw (e_p (l_e x)) /\ p_pr (e_p (l_e x')) = p_pr (e_p (l_e x)) /\
     (t_print t && checkpoint x = false -> p_wsr (e_p (l_e x')) = p_wsr (e_p (l_e x)))) /\
  (t_rew t && checkpoint x = true -> exists c b c', monAdjust c (p_otr (e_p (l_e x))) (e_m (l_e x')) = Ok (b, c') /\
     c_order c = p_order (e_p (l_e x)) /\ c_gamma3 c = p_g3 (e_p (l_e x)) /\ c_orw c = p_orw (e_p (l_e x)) /\ c_pr c = p_pr (e_p (l_e x)) /\
     (t_print t = false -> c_wsr c = p_wsr (e_p (l_e x))) /\
     p_orw (e_p (l_e x')) = c_orw c' /\ p_wsr (e_p (l_e x')) = c_wsr c' /\ p_pr (e_p (l_e x')) = c_pr c').
Proof. exact @iter_factors. Qed.
Print Assumptions C111_factors.

(** ** C112 Every iteration of the loop measures once: the diagram it ends with, with the factors it began with
    ([effect] says what goes where, C69) ... *)
Theorem C112_every_iteration_measures :
  forall (N : Num) (E : Type) (next : E -> Z * E) (show : E -> string) (read : string -> option E) (seedE : Z -> E)
    (strOf : @py N -> string) (pid : @py N),
  (forall x, read (show x) = Some x) ->
  forall t x x' s, job next show read seedE strOf pid (l_e x) (l_k x) s -> mainIter next show pid t x = Ok x' ->
  p_counter (e_p (l_e x)) + Z.max (p_sweep (e_p (l_e x))) 0 < 2 ^ 63 -> p_version (e_p (l_e x')) = p_version (e_p (l_e x)) ->
  exists w, nth_error (p_orw (e_p (l_e x))) (Z.to_nat (order (e_d (l_e x')))) = Some w /\
    effect (e_cfg (l_e x)) 0 0 0 0 (e_d (l_e x')) (rdiv (rofZ 1) w) (e_m (l_e x)) (e_m (l_e x')).
Proof. intros N E next show read seedE strOf pid RS. exact (iter_measures next show read seedE strOf pid RS). Qed.
Print Assumptions C112_every_iteration_measures.
(** ... so that over any run the counts of each order in physical and in worm space grow by how often the loop saw them (exact arithmetic) *)
Theorem C112_counts :
  forall (E : Type) (next : E -> Z * E) (show : E -> string) (read : string -> option E) (seedE : Z -> E)
    (strOf : @py NumR -> string) (pid : @py NumR),
  (forall x, read (show x) = Some x) ->
  forall ts (x : @mloop NumR E) xs x', trace next show pid ts x xs x' -> forall s, job next show read seedE strOf pid (l_e x) (l_k x) s ->
  p_counter (e_p (l_e x)) + Z.of_nat (List.length ts) * Z.max (p_sweep (e_p (l_e x))) 0 < 2 ^ 63 -> p_order (e_p (l_e x)) < Z.of_nat (List.length (p_otr (e_p (l_e x)))) -> undisturbed x xs ->
  forall o r, (count_is (m_phy (e_m (l_e x))) o r -> count_is (m_phy (e_m (l_e x'))) o (r + IZR (seen xs true o + seen xs false o))%R) /\
    (count_is (m_worm (e_m (l_e x))) o r -> count_is (m_worm (e_m (l_e x'))) o (r + IZR (wormy xs o))%R).
Proof. intros E next show read seedE strOf pid RS. exact (run_counts next show read seedE strOf pid RS). Qed.
Print Assumptions C112_counts.

(** *** Cases: a fresh job at Step 98 with the timers started at second 1000; a quiet iteration, one at second 1600 in which the disk timer (600 s)
    and the reweighting timer (60 s) fire - the print and message clocks are read 59 s after the start - and a quiet one *)
Definition beat1 (k : @disk NumR) : @beat NumR := mkBeat k (mkRead 1059 1059) (mkRead 1600 1601) (mkRead 1059 1059) (mkRead 1600 1600).
Lemma go n t (x : @mloop NumR string) s : running nextS showS readS seedS strS pidS n x s -> n < 2 ^ 31 - 1 -> p_counter (e_p (l_e x)) <= 5 ->
  p_sweep (e_p (l_e x)) = 1 -> p_order (e_p (l_e x)) < Z.of_nat (List.length (p_otr (e_p (l_e x)))) -> t_print t = false -> t_msg t = false ->
  exists x' s', mainIter nextS showS pidS t x = Ok x' /\ running nextS showS readS seedS strS pidS (n + 1) x' s' /\
    p_version (e_p (l_e x')) = p_version (e_p (l_e x)) /\ p_counter (e_p (l_e x')) = p_counter (e_p (l_e x)) + 1 /\ steady (e_p (l_e x)) (e_p (l_e x')) /\ l_step x' = u32 (l_step x + 1).
Proof.
  intros R Hn C S O T1 T2. destruct (main_step nextS showS readS seedS strS pidS (fun _ => eq_refl) n t x s R Hn ltac:(rewrite S; lia) O) as [(x' & s' & H & R')|[_ [X|X]]]; [congruence| |congruence|congruence].
  exists x', s'. split; [exact H|]. split; [exact R'|]. pose proof (iter_version nextS showS pidS t x x' H T2) as V. split; [exact V|].
  destruct (iter_job nextS showS readS seedS strS pidS (fun _ => eq_refl) t x x' s (ru_job _ _ _ _ _ _ _ _ _ R) H ltac:(rewrite S; lia) O (or_introl V)) as (SS & CC & _). rewrite S in CC.
  split; [exact CC|]. split; [exact SS|]. destruct (iter_inv nextS showS pidS t x x' H) as (? & ? & _ & _ & ST & _). exact ST.
Qed.
Lemma main_case : exists (e : @env NumR string) k x1 x2 x3, let x := @mkL NumR string e k 98 (fun _ => 5) (fun _ => 7) in let b := beat1 k in let tm := mkTimers 1000 1000 1000 1000 in
  let q := mkTick k false false false false in let t := mkTick k false true false true in
  jobS e k None /\ e_p e = @exp NumR 1 2%R "start" /\ checkpoint x = false /\ checkpoint x1 = true /\
  mainIter nextS showS pidS q x = Ok x1 /\ mainIter nextS showS pidS t x1 = Ok x2 /\ mainIter nextS showS pidS q x2 = Ok x3 /\
  p_version (e_p (l_e x1)) = p_version (e_p e) /\ p_version (e_p (l_e x2)) = p_version (e_p (l_e x1)) /\ p_version (e_p (l_e x3)) = p_version (e_p (l_e x2)) /\
  clockRun nextS showS pidS [b; b; b] (x, tm) = Ok (x3, mkTimers 1000 1601 1000 1600) /\
  clocked nextS showS pidS [b; b; b] (x, tm) [q; t; q] [x1; x2; x3] (x3, mkTimers 1000 1601 1000 1600).
Proof.
  destruct (kit_new (N := NumR) 1 (2%R : R) "start" oneR oneR oneR ltac:(lia) (close_R 2) (usable_R 1 2 "start" ltac:(lra))) as (e & k & B & J & K & E1 & _).
  set (x := @mkL NumR string e k 98 (fun _ => 5) (fun _ => 7)). set (q := mkTick k false false false false). set (t := mkTick k false true false true).
  assert (R0 : running nextS showS readS seedS strS pidS 10 x None) by (constructor; [exact J| |]; intros i; cbn; lia).
  destruct (go 10 q x None R0) as (x1 & s1 & H1 & R1 & V1 & C1 & S1 & T1); try reflexivity; try (cbn [x l_e]; rewrite E1; cbn; lia).
  assert (G : forall y, steady (e_p e) (e_p (l_e y)) -> p_sweep (e_p (l_e y)) = 1 /\ p_order (e_p (l_e y)) < Z.of_nat (List.length (p_otr (e_p (l_e y)))) /\ forall k, interval k (e_p (l_e y)) = match k with Disk => 600 | _ => 60 end).
  { intros y (_ & _ & -> & _ & _ & _ & -> & _ & _ & -> & A & A1 & A2 & A3). rewrite E1. split; [reflexivity|]. split; [cbn; lia|]. intros []; cbn [interval]; rewrite ?A, ?A1, ?A2, ?A3, E1; reflexivity. }
  destruct (G x1 S1) as (G1 & G2 & G3).
  assert (C0 : p_counter (e_p (l_e x)) = 0) by (cbn [x l_e]; rewrite E1; reflexivity).
  destruct (go 11 t x1 s1 R1) as (x2 & s2 & H2 & R2 & V2 & C2 & S2 & T2); try reflexivity; try lia; auto.
  pose proof (steady_trans _ _ _ S1 S2) as S2'. destruct (G x2 S2') as (G4 & G5 & G6).
  destruct (go 12 q x2 s2 R2) as (x3 & s3 & H3 & R3 & V3 & C3 & S3 & T3); try reflexivity; try lia; auto.
  assert (CP0 : checkpoint x = false) by reflexivity.
  assert (CP1 : checkpoint x1 = true) by (unfold checkpoint; rewrite T1; reflexivity).
  assert (CP2 : checkpoint x2 = false) by (unfold checkpoint; rewrite T2, T1; reflexivity).
  assert (K0 : tickOf (beat1 k) x (mkTimers 1000 1000 1000 1000) = (q, mkTimers 1000 1000 1000 1000)) by reflexivity.
  assert (K1 : tickOf (beat1 k) x1 (mkTimers 1000 1000 1000 1000) = (t, mkTimers 1000 1601 1000 1600)).
  { unfold tickOf. fold (checkpoint x1). rewrite CP1. cbn [negb]. pose proof (G3 Print) as I1. pose proof (G3 Disk) as I2. pose proof (G3 Message) as I3. pose proof (G3 Reweight) as I4. cbn [interval] in I1, I2, I3, I4. rewrite I1, I2, I3, I4. reflexivity. }
  assert (K2 : tickOf (beat1 k) x2 (mkTimers 1000 1601 1000 1600) = (q, mkTimers 1000 1601 1000 1600)) by (unfold tickOf; fold (checkpoint x2); rewrite CP2; reflexivity).
  exists e, k, x1, x2, x3. cbv zeta. fold x q t. split; [exact J|]. split; [exact E1|]. repeat (split; [assumption|]). split.
  - cbn [clockRun]. unfold clockIter at 1. rewrite K0, H1. cbn [obind clockRun]. unfold clockIter at 1. rewrite K1, H2. cbn [obind clockRun]. unfold clockIter at 1. rewrite K2, H3. reflexivity.
  - econstructor; [exact K0|exact H1|]. econstructor; [exact K1|exact H2|]. econstructor; [exact K2|exact H3|]. constructor.
Qed.
Example C108_case : (forall x, readS (showS x) = Some x) /\ exists ts (x : @mloop NumR string) xs x', trace nextS showS pidS ts x xs x' /\ List.length ts = 3%nat /\ jobS (l_e x) (l_k x) None /\
  p_counter (e_p (l_e x)) + Z.of_nat (List.length ts) * Z.max (p_sweep (e_p (l_e x))) 0 < 2 ^ 63 /\ p_order (e_p (l_e x)) < Z.of_nat (List.length (p_otr (e_p (l_e x)))) /\ benigns x xs /\ undisturbed x xs.
Proof.
  split; [reflexivity|]. destruct main_case as (e & k & x1 & x2 & x3 & J & E1 & _ & _ & H1 & H2 & H3 & V1 & V2 & V3 & _ & _).
  eexists [_; _; _], (mkL e k 98 (fun _ => 5) (fun _ => 7)), [x1; x2; x3], x3. split; [econstructor; [exact H1|]; econstructor; [exact H2|]; econstructor; [exact H3|]; constructor|].
  split; [reflexivity|]. split; [exact J|]. cbn [l_e]. rewrite E1. split; [cbn; lia|]. split; [cbn; lia|]. split; cbn [benigns undisturbed]; unfold benign; auto.
Qed.
Example C108_thermalisation_case : (forall x, readS (showS x) = Some x) /\ exists (e : @env NumR string) k x, jobS e k None /\ envListen k e = Ok (false, e) /\ mainStart nextS k e = Ok x /\
  p_counter (e_p e) + p_toss (e_p e) mod 2 ^ 32 * Z.max (p_sweep (e_p e)) 0 < 2 ^ 63.
Proof.
  split; [reflexivity|]. destruct (kit_new (N := NumR) 1 (2%R : R) "start" oneR oneR oneR ltac:(lia) (close_R 2) (usable_R 1 2 "start" ltac:(lra))) as (e & k & B & J & K & E1 & _ & _ & _ & _ & KW & _ & _ & _ & KM).
  assert (L : envListen k e = Ok (false, e)) by (unfold envListen; rewrite KM, E1; reflexivity).
  exists e, k. unfold mainStart. rewrite L. cbn [obind]. rewrite E1. change (Z.to_nat (u32 (p_toss (@exp NumR 1 2%R "start")))) with 0%nat. cbn [toss obind]. eexists. split; [exact J|]. split; [reflexivity|]. split; [reflexivity|]. cbn. lia.
Qed.
Example C109_case : (forall x, readS (showS x) = Some x) /\ exists ts1 t ts2 (x : @mloop NumR string) xs1 x1 x2 xs2 x',
  trace nextS showS pidS ts1 x xs1 x1 /\ mainIter nextS showS pidS t x1 = Ok x2 /\ trace nextS showS pidS ts2 x2 xs2 x' /\ t_disk t && checkpoint x1 = true /\ unsaved ts2 x2 xs2 /\
  jobS (l_e x) (l_k x) None /\ benigns x (xs1 ++ x2 :: xs2) /\ List.length ts1 = 1%nat /\ List.length ts2 = 1%nat /\
  p_counter (e_p (l_e x)) + Z.of_nat (List.length ts1 + 1 + List.length ts2) * Z.max (p_sweep (e_p (l_e x))) 0 < 2 ^ 63 /\ p_order (e_p (l_e x)) < Z.of_nat (List.length (p_otr (e_p (l_e x)))).
Proof.
  split; [reflexivity|]. destruct main_case as (e & k & x1 & x2 & x3 & J & E1 & _ & CP & H1 & H2 & H3 & V1 & V2 & V3 & _ & _).
  eexists [_], _, [_], (mkL e k 98 (fun _ => 5) (fun _ => 7)), [x1], x1, x2, [x3], x3. split; [econstructor; [exact H1|constructor]|]. split; [exact H2|]. split; [econstructor; [exact H3|constructor]|].
  split; [cbn [t_disk]; rewrite CP; reflexivity|]. split; [cbn; auto|]. split; [exact J|]. split; [cbn [benigns app]; unfold benign; auto 8|]. split; [reflexivity|]. split; [reflexivity|]. cbn [l_e]. rewrite E1. cbn. split; lia.
Qed.
Example C110_case : exists bs (x : @mloop NumR string) tm ts xs x' tm', clockRun nextS showS pidS bs (x, tm) = Ok (x', tm') /\ clocked nextS showS pidS bs (x, tm) ts xs (x', tm') /\
  (forall k b, In b bs -> r_now (readAt k b) <= r_again (readAt k b)) /\ times Disk ts = 1 /\ times Reweight ts = 1 /\ times Print ts = 0 /\
  exists b x1 t, tickOf b x1 tm = (t, tm') /\ checkpoint x1 = true /\ In x1 xs.
Proof.
  destruct main_case as (e & k & x1 & x2 & x3 & J & E1 & _ & CP & H1 & H2 & H3 & V1 & V2 & V3 & CR & CK).
  do 7 eexists. split; [exact CR|]. split; [exact CK|]. split; [|split; [reflexivity|split; [reflexivity|split; [reflexivity|]]]].
  - intros kk b I. cbn [In] in I. assert (b = beat1 k) as -> by (destruct I as [<-|[<-|[<-|[]]]]; reflexivity). destruct kk; cbn; lia.
  - inversion CK as [|? ? ? ? ? ? ? ? ? ? A1 A2 A3]; subst. inversion A3 as [|? ? ? ? ? ? ? ? ? ? B1 B2 B3]; subst. injection A1 as <-. inversion B3 as [|? ? ? ? ? ? ? ? ? ? C1 C2 C3]; subst. inversion C3; subst.
    assert (CP2 : checkpoint x2 = false). { destruct (iter_inv _ _ _ _ _ _ H2) as (? & ? & _ & _ & ST2 & _). destruct (iter_inv _ _ _ _ _ _ H1) as (? & ? & _ & _ & ST1 & _). unfold checkpoint. rewrite ST2, ST1. reflexivity. }
    unfold tickOf in C1. fold (checkpoint x2) in C1. rewrite CP2 in C1. injection C1 as ->. eauto 8 with datatypes.
Qed.
Example C111_case : exists t (x x' : @mloop NumR string), mainIter nextS showS pidS t x = Ok x' /\ t_rew t && checkpoint x = true.
Proof. destruct main_case as (e & k & x1 & x2 & x3 & J & E1 & _ & CP & _ & H2 & _). do 3 eexists. split; [exact H2|]. cbn [t_rew]. rewrite CP. reflexivity. Qed.
Example C112_case : (forall x, readS (showS x) = Some x) /\ exists ts (x : @mloop NumR string) xs x', trace nextS showS pidS ts x xs x' /\ List.length ts = 3%nat /\ jobS (l_e x) (l_k x) None /\
  p_counter (e_p (l_e x)) + Z.of_nat (List.length ts) * Z.max (p_sweep (e_p (l_e x))) 0 < 2 ^ 63 /\ p_order (e_p (l_e x)) < Z.of_nat (List.length (p_otr (e_p (l_e x)))) /\ undisturbed x xs /\
  forall o, 0 <= o <= 3 -> (exists r, count_is (m_phy (e_m (l_e x))) o r) /\ exists r, count_is (m_worm (e_m (l_e x))) o r.
Proof.
  split; [reflexivity|]. destruct main_case as (e & k & x1 & x2 & x3 & J & E1 & _ & _ & H1 & H2 & H3 & V1 & V2 & V3 & _ & _).
  eexists [_; _; _], (mkL e k 98 (fun _ => 5) (fun _ => 7)), [x1; x2; x3], x3. split; [econstructor; [exact H1|]; econstructor; [exact H2|]; econstructor; [exact H3|]; constructor|].
  split; [reflexivity|]. split; [exact J|]. cbn [l_e]. split; [rewrite E1; cbn; lia|]. split; [rewrite E1; cbn; lia|]. split; [cbn [undisturbed]; auto|].
  intros o Ho. destruct (job_ok nextS showS readS seedS strS pidS (fun _ => eq_refl) _ _ _ J) as [[K _] _]. pose proof (eo_m e K) as M. pose proof (mo_w _ _ _ _ _ _ M) as M1. pose proof (mo_p _ _ _ _ _ _ M) as M2.
  change (c_order (e_cfg e)) with (p_order (e_p e)) in *. rewrite E1 in M1, M2. cbn in M1, M2.
  destruct (ebAt_ok o (m_phy (e_m e))) as (y & Y); [rewrite M2; lia|]. destruct (ebAt_ok o (m_worm (e_m e))) as (z & Z0); [rewrite M1; lia|].
  split; eexists; eexists; (split; [eassumption|reflexivity]).
Qed.
