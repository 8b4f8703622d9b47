(** * The main loop (C98) *)
From Coq Require Import ZArith List Bool String Reals Lra Lia.
From Verif Require Import Base Num NumF NumR RNG Momentum Complex Lattice Bundle IndexMap Weights Diagram Markov DiagramIO DiagramCheck
  Estimator WeightEstimator Gamma3 Monitor History Life PyDict Param ConfigPy Env MainLoop
  P_Bundle P_WP P_Inv P_IO P_History P_Promises P_IOProm P_Float P_FloatTau P_Param P_ParamIO P_Env Job P_Monitor P_Job P_JobR P_Main
  Prop_Check Prop_Float Prop_IO Prop_Param Prop_Life Prop_Env Prop_Job.
Import ListNotations.
Open Scope string_scope.
Open Scope Z_scope.

(** ** C98 One iteration of the main loop, from any job, fewer than 2^31 - 1 iterations after the start,
    with a factor in OrderTimeRatio for every order and polite messages: whatever timers fire it
    succeeds, or the program ends in an orderly way at the check made by PrintStatus or
    ListenToMessage. [running n] says that the job is a job and no counter exceeds [n]. *)
Theorem C98_iteration_succeeds :
  forall (N : Num) (E : Type) (next : E -> Z * E) (show : E -> string) (read : string -> option E) (seedE : Z -> E)
    (strOf : @py N -> string) (pid : @py N), (forall x, read (show x) = Some x) ->
  forall n t x s, running next show read seedE strOf pid n x s -> n < 2 ^ 31 - 1 ->
  p_counter (e_p (l_e x)) + Z.max (p_sweep (e_p (l_e x))) 0 < 2 ^ 63 -> p_order (e_p (l_e x)) < Z.of_nat (List.length (p_otr (e_p (l_e x)))) ->
  (t_msg t = true -> forall e1 e2 e3, envHop next (p_sweep (e_p (l_e x))) (l_e x) = Ok e1 -> envMeasure e1 = Ok e2 ->
     e3 = e2 \/ envPrint e2 = Ok e3 -> polite e3 (t_files t)) ->
  (exists x' s', mainIter next show pid t x = Ok x' /\ running next show read seedE strOf pid (n + 1) x' s') \/
  mainIter next show pid t x = Abort /\ (t_print t = true \/ t_msg t = true).
Proof. exact @main_step. Qed.
Print Assumptions C98_iteration_succeeds.
(** before the loop: the message, and the Toss thermalisation sweeps *)
Theorem C98_start_succeeds :
  forall (N : Num) (E : Type) (next : E -> Z * E) (show : E -> string) (read : string -> option E) (seedE : Z -> E)
    (strOf : @py N -> string) (pid : @py N), (forall x, read (show x) = Some x) ->
  forall e k s, job next show read seedE strOf pid e k s -> polite e k -> 0 <= p_toss (e_p e) ->
  p_counter (e_p e) + p_toss (e_p e) * Z.max (p_sweep (e_p e)) 0 < 2 ^ 63 ->
  (exists x, mainStart next k e = Ok x /\ running next show read seedE strOf pid 0 x s) \/ mainStart next k e = Abort.
Proof. exact @main_start. Qed.
Print Assumptions C98_start_succeeds.
(** a fresh job; a tick at which the first three timers fire and there is no message *)
Example C98_case : exists (e : @env NumR string) k, jobS e k None /\ polite e k /\ 0 <= p_toss (e_p e) /\ p_counter (e_p e) + p_toss (e_p e) * Z.max (p_sweep (e_p e)) 0 < 2 ^ 63 /\
  let t := mkTick k true true true true in let x := @mkL NumR string e k 99 (fun _ => 5) (fun _ => 7) in
  running nextS showS readS seedS strS pidS 10 x None /\ p_counter (e_p (l_e x)) + Z.max (p_sweep (e_p (l_e x))) 0 < 2 ^ 63 /\
  p_order (e_p (l_e x)) < Z.of_nat (List.length (p_otr (e_p (l_e x)))) /\ forall e3 : @env NumR string, polite e3 (t_files t).
Proof.
  destruct (kit_new (N := NumR) 1 (2 : R)%R "start" oneR oneR oneR ltac:(lia) (close_R 2) (usable_R 1 2 "start" ltac:(lra))) as (e & k & _ & J & _ & E1 & _ & _ & _ & _ & KW & _ & _ & _ & KM).
  assert (PO : forall e3 : @env NumR string, polite e3 k).
  { intros e3. split; [|intros o ms Q; rewrite KM in Q; discriminate]. intros w W. rewrite KW in W. injection W as <-. repeat split. }
  exists e, k. split; [exact J|]. split; [apply PO|]. rewrite E1. split; [cbn; lia|]. split; [cbn; lia|]. cbv zeta. cbn [l_e t_files]. rewrite E1.
  split; [constructor; cbn; [exact J|intros i; lia|intros i; lia]|]. split; [cbn; lia|]. split; [cbn; lia|exact PO].
Qed.

(** Claim: the program runs for as long as one lets it. False: the main loop counts measurements in [int
    sigma[MAX_ORDER]] and [int polar[MAX_ORDER]] (main.cpp:69-70, 89-94), and the 2^31st measurement at one order
    overflows. Here the engine always proposes DeleteWorm where there is no worm. *)
Definition next0 (s : string) : Z * string := (opw 1, s).
Lemma sums_F (c : @cfg NumF) : c_gamma3 c = false -> rltb (urn_of (u32 (opw 1))) (SumPc c 0) = false /\ rltb (urn_of (u32 (opw 1))) (SumPc c 1) = true.
Proof. intros G. unfold SumPc, Pc, nupd. rewrite G. split; vm_compute; reflexivity. Qed.
Lemma stay (c : @cfg NumF) (s : mstate) : c_gamma3 c = false -> wm_ex (md s) = false -> exists s', Hop next0 c 1 s = Ok (tt, s') /\ md s' = md s.
Proof.
  intros G W. destruct (sums_F c G) as [S0 S1]. unfold Hop. change (Z.to_nat 1) with 1%nat. cbn [hops]. unfold hop1, urn, word, bind, ret. cbn [next0].
  unfold ops. rewrite G. unfold mc_ops. cbn [dispatch]. rewrite S0, S1. unfold DeleteWorm, bind, getD, gets. cbn [md s_mrng]. rewrite W. rewrite orb_true_r. unfold ret, modify. eexists. split; [reflexivity|reflexivity].
Qed.
Definition quiet (k : @disk NumF) : tick := mkTick k false false false false.
Record idle (n : Z) (x : @mloop NumF string) : Prop := {
  id_ok : EnvOk (l_e x); id_sw : p_sweep (e_p (l_e x)) = 1; id_w : wm_ex (e_d (l_e x)) = false; id_o : order (e_d (l_e x)) = 1; id_g : measG (e_d (l_e x)) = true;
  id_n : l_sig x 1 = n }.
Lemma idle_step k n x : idle n x -> (n = 2 ^ 31 - 1 /\ mainIter next0 showS pidS (quiet k) x = UB) \/ (n <> 2 ^ 31 - 1 /\ exists x', mainIter next0 showS pidS (quiet k) x = Ok x' /\ idle (n + 1) x').
Proof.
  intros [K SW W O G NN]. unfold mainIter. cbn [quiet t_files t_print t_disk t_msg t_rew]. cbv zeta. rewrite SW.
  destruct (hop_ok next0 1 (l_e x) K) as (e1 & H1 & K1 & _).
  assert (Q1 : e_d e1 = e_d (l_e x) /\ p_sweep (e_p e1) = 1).
  { unfold envHop in H1. destruct (stay (e_cfg (l_e x)) (e_s (l_e x)) (proj1 (eo_u _ K)) W) as (s' & HS & HD). rewrite HS in H1. cbn [obind] in H1. injection H1 as <-. split; [exact HD|exact SW]. }
  destruct Q1 as [D1 S1]. rewrite H1. cbn [obind]. destruct (envMeasure_ok e1 K1) as (e2 & y & H2 & K2 & P2 & D2 & _). rewrite H2. cbn [obind]. rewrite D2, D1, W, G, O.
  unfold MainLoop.bump. change ((1 <? 0) || (10 <=? 1)) with false. cbn iota. rewrite NN. destruct (Z.eqb_spec n (2 ^ 31 - 1)) as [EN|NE]; cbn [obind]; [left; split; [exact EN|reflexivity]|].
  right. split; [exact NE|]. assert (I : forall stp, idle (n + 1) (mkL e2 (outside k (l_k x)) stp (fun i => if i =? 1 then l_sig x i + 1 else l_sig x i) (l_pol x))).
  { intros stp. constructor; cbn [l_e l_sig]; [exact K2|congruence|congruence|congruence|congruence|cbv beta; rewrite NN; reflexivity]. }
  destruct (negb _); cbn [obind]; (eexists; split; [reflexivity|apply I]).
Qed.
Lemma run_app a b (x : @mloop NumF string) : mainRun next0 showS pidS (a ++ b) x = obind (mainRun next0 showS pidS a x) (mainRun next0 showS pidS b).
Proof. revert x. induction a as [|t a IH]; intros x; cbn [mainRun app obind]; [reflexivity|]. destruct (mainIter next0 showS pidS t x) as [y| |]; cbn [obind]; [apply IH|reflexivity|reflexivity]. Qed.
Lemma idle_run k x m : idle 0 x -> Z.of_nat m <= 2 ^ 31 - 1 -> exists x', mainRun next0 showS pidS (repeat (quiet k) m) x = Ok x' /\ idle (Z.of_nat m) x'.
Proof.
  intros I. induction m as [|m IH]; intros B; [exists x; split; [reflexivity|exact I]|]. destruct IH as (x1 & R & I1); [lia|].
  replace (S m) with (m + 1)%nat by lia. rewrite repeat_app, run_app, R. cbn [obind repeat mainRun].
  destruct (idle_step k _ _ I1) as [[X _]|[_ (x2 & Q & I2)]]; [lia|]. rewrite Q. cbn [obind]. exists x2. split; [reflexivity|]. replace (Z.of_nat (m + 1)) with (Z.of_nat m + 1) by lia. exact I2.
Qed.
Theorem C98_runs_as_long_as_one_likes_refuted :
  exists (e : @env NumF string) k x n, job next0 showS readS seedS strS pidS e k None /\ mainStart next0 k e = Ok x /\ Z.of_nat n = 2 ^ 31 /\
    mainRun next0 showS pidS (repeat (quiet k) n) x = UB.
Proof.
  destruct (kit_new (N := NumF) 1 (fz 2) "" oneF oneF oneF ltac:(lia) (close_F 2 ltac:(auto)) (small_F 2 "" ltac:(auto))) as (e & k & B & _ & K & E1 & _ & _ & _ & _ & KW & _ & _ & _ & KM).
  assert (C0 : constructed (@diagram_new NumF)) by repeat split.
  assert (J : job next0 showS readS seedS strS pidS e k None) by (eapply (jb_new _ _ _ _ _ _ diagram_new); [exact C0|exact B|rewrite E1; apply small_F; auto|rewrite E1; cbn; lia]).
  destruct (Z_of_nat_complete (2 ^ 31 - 1)) as (m & M); [lia|].
  set (x := @mkL NumF string e k 0 (fun _ => 0) (fun _ => 0)).
  assert (I : idle 0 x).
  { pose proof (eo_u e K) as U. destruct (envBuildNew_fresh readS seedS strS diagram_new _ e k C0 B U) as (F1 & F2 & F3).
    constructor; cbn [x l_e l_sig]; auto. rewrite E1. reflexivity. }
  exists e, k, x, (m + 1)%nat. split; [exact J|]. split.
  { unfold mainStart, envListen. rewrite KM. destruct (_ && _); cbn [ftry obind]; rewrite E1; reflexivity. }
  split; [lia|]. rewrite repeat_app, run_app. destruct (idle_run k x m I ltac:(lia)) as (x1 & R & I1). rewrite R. cbn [obind repeat mainRun].
  destruct (idle_step k _ _ I1) as [[_ X]|[X _]]; [rewrite X; reflexivity|lia].
Qed.
Print Assumptions C98_runs_as_long_as_one_likes_refuted.
