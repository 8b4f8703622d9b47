(** * Messages, restarts and crashes of a job: where expectations fail (C91-C97) *)
From Coq Require Import ZArith List Bool String Reals Lra Lia.
From Verif Require Import Base Num NumF NumR RNG Momentum Complex Lattice Bundle IndexMap Weights Diagram Markov DiagramIO DiagramCheck
  Estimator WeightEstimator Gamma3 Monitor History Life PyDict Param ConfigPy Env
  P_Bundle P_WP P_Inv P_IO P_History P_Promises P_IOProm P_Float P_FloatTau P_Param P_ParamIO P_Env Job P_Monitor P_Job P_JobR
  Prop_Check Prop_Float Prop_IO Prop_Param Prop_Life Prop_Env.
Import ListNotations.
Open Scope string_scope.
Open Scope Z_scope.

Definition ok_and {A} (o : outcome A) (f : A -> bool) : bool := match o with Ok a => f a | _ => false end.
Lemma ok_and_true {A} (o : outcome A) f : ok_and o f = true -> exists a, o = Ok a /\ f a = true.
Proof. destruct o as [a| |]; cbn; intros H; try discriminate. eauto. Qed.
Definition aborts {A} (o : outcome A) : bool := match o with Abort => true | _ => false end.
Lemma aborts_true {A} (o : outcome A) : aborts o = true -> o = Abort.
Proof. destruct o; cbn; intros H; try discriminate. reflexivity. Qed.
Definition oneF : @cplx NumF := @mkC NumF (fz 1) (fz 0).
Definition tinyF : @cplx NumF := @mkC NumF (@eps10 NumF) (fz 0).
(** the environment of all cases, in doubles, at Beta = [z] *)
Definition expF (z : Z) (l : list Z) : @para NumF string := @exp NumF 1 (fz z) (enc l).
Definition startS (z : Z) (l : list Z) := envBuildNew readS seedS strS (@diagram_new NumF) (dk (expF z l) (wtf oneF oneF oneF)).
Lemma close_F z : (z = 1 \/ z = 2 \/ z = 4) -> @rltb NumF (e_abs (@rsub NumF (fz z) (fz z))) eps10 = true.
Proof. intros [->|[->| ->]]; vm_compute; reflexivity. Qed.
Lemma small_F z r : (z = 1 \/ z = 2 \/ z = 4) -> usable (@exp NumF 1 (fz z) r).
Proof.
  intros H. apply (usable_F 1 (fz z) (IZR z)); [destruct H as [->|[->| ->]]; apply Fin_Zx; lia|]. destruct H as [->|[->| ->]].
  - split; change 1%R with (Raux.bpow Zaux.radix2 0); apply Raux.bpow_le; lia.
  - exact two_moderate.
  - split; change 4%R with (Raux.bpow Zaux.radix2 2); apply Raux.bpow_le; lia.
Qed.
Lemma start_job z l e k : (z = 1 \/ z = 2 \/ z = 4) -> startS z l = Ok (e, k) -> jobS e k None /\ e_p e = expF z l /\ ends_settled (e_d e).
Proof.
  intros Z H. destruct (kit_new (N := NumF) 1 (fz z) (enc l) oneF oneF oneF ltac:(lia) (close_F z Z) (small_F z (enc l) Z)) as (e' & k' & B & J & _ & E1 & ES & _).
  unfold startS, expF in H. rewrite B in H. injection H as <- <-. auto.
Qed.

(** C91, the claim that a newer message never ends a job when all files are well formed: false. The new
    interaction is 1e-10 on every entry, the built-in check of ListenToMessage (envMonteCarlo.cpp:201) fails. *)
Definition msF (v z : Z) : @message NumF := @mkMsg NumF v (fz z) (fz 1).
Definition loads {A} (o : outcome A) : bool := match o with Ok _ => true | _ => false end.
Lemma loads_true {A} (o : outcome A) : loads o = true -> exists a, o = Ok a.
Proof. destruct o; cbn; intros H; try discriminate. eauto. Qed.
Definition scene91 : bool :=
  ok_and (startS 2 []) (fun '(e, k) =>
    let k' := send k (msF 2 2) (wtf oneF tinyF oneF) (fz 2) in
    loads (loadGW (updateWith (msF 2 2) (e_p e)) k' (wtf oneF tinyF oneF)) && aborts (envListen k' e)).
Theorem C91_wellformed_message_never_ends_job_refuted :
  exists (e : @env NumF string) k w a, jobS e k None /\ k_msg k = FHas (toDict (msgToDict (msF 2 2))) /\ p_version (e_p e) = 1 /\ p_beta (e_p e) = fz 2 /\
    k_weight k = FHas w /\ loadGW (updateWith (msF 2 2) (e_p e)) k w = Ok a /\ envListen k e = Abort.
Proof.
  assert (H : scene91 = true) by (vm_compute; reflexivity). unfold scene91 in H. apply ok_and_true in H as ([e k] & S & H). cbv zeta in H. apply andb_prop in H as [H1 H2].
  apply loads_true in H1 as (a & H1). apply aborts_true in H2. destruct (start_job 2 [] e k ltac:(auto) S) as (J & P & _).
  exists e, (send k (msF 2 2) (wtf oneF tinyF oneF) (fz 2)), (wtf oneF tinyF oneF), a. split; [eapply jb_files; [exact J|reflexivity|reflexivity]|].
  split; [reflexivity|]. rewrite P in *. split; [reflexivity|]. split; [reflexivity|]. split; [reflexivity|]. split; [exact H1|exact H2].
Qed.
Print Assumptions C91_wellformed_message_never_ends_job_refuted.

(** ** C92 Messages are gated by their version: one that is not taken changes nothing, one that is taken is
    newer and its Version and Beta become the job's; the same message is not taken again, also not
    after Save and restart. *)
Theorem C92_message_not_taken_changes_nothing :
  forall (N : Num) (E : Type) k (e e' : @env N E), envListen k e = Ok (false, e') -> e' = e.
Proof. exact @listen_false. Qed.
Print Assumptions C92_message_not_taken_changes_nothing.
Theorem C92_message_taken_once :
  forall (N : Num) (E : Type) k (e e' : @env N E), envListen k e = Ok (true, e') ->
  (exists o ms, k_msg k = FHas o /\ msgLoad o = Ok ms /\ p_version (e_p e) < ms_version ms /\ p_version (e_p e') = ms_version ms /\ p_beta (e_p e') = ms_beta ms) /\
  forall k2 (e2 : @env N E), k_msg k2 = k_msg k -> p_version (e_p e2) = p_version (e_p e') -> envListen k2 e2 = Ok (false, e2).
Proof. exact @listen_once. Qed.
Print Assumptions C92_message_taken_once.
Theorem C92_message_not_taken_after_restart :
  forall (N : Num) (E : Type) (next : E -> Z * E) (show : E -> string) (read : string -> option E) (seedE : Z -> E)
    (strOf : @py N -> string) (pid : @py N), (forall x, read (show x) = Some x) ->
  forall k (e e' e1 : @env N E) k2 e2 d0 e3, envListen k e = Ok (true, e') ->
  p_version (e_p e1) = p_version (e_p e') -> job next show read seedE strOf pid e2 k2 (Some e1) -> constructed d0 -> envLoad read seedE strOf d0 k2 = Ok e3 ->
  forall k3, k_msg k3 = k_msg k -> envListen k3 e3 = Ok (false, e3).
Proof. exact @restart_once. Qed.
Print Assumptions C92_message_not_taken_after_restart.
(** a job at Beta = 1, one measurement, a message raising Beta to 2, Save, restart, the next message *)
Definition settled (e : @env NumF string) : bool := negb (bexist (vB (e_d e)) (ira (e_d e))) && negb (bexist (vB (e_d e)) (masha (e_d e))).
Definition scene97 (start : outcome (@env NumF string * @disk NumF)) (ms : @message NumF) (w : @wtfile NumF) (b : @real NumF) (f : @env NumF string -> @disk NumF -> @env NumF string -> @disk NumF -> @env NumF string -> bool) : bool :=
  ok_and start (fun '(e, k) => ok_and (envHop nextS 1 e) (fun e => ok_and (envMeasure e) (fun e => settled e &&
  let k := send k ms w b in
  ok_and (envListen k e) (fun '(t, e1) => t &&
  ok_and (envSave showS pidS e1 k) (fun k1 => ok_and (envLoad readS seedS strS diagram_new k1) (fun e2 => f e k e1 k1 e2)))))).
Lemma calm_F (e e1 : @env NumF string) : fits (e_p e) -> p_beta (e_p e) = fz 1 -> e_p e1 = updateWith (msF 2 2) (e_p e) -> ends_settled (e_d e) -> usable (e_p e1) /\ calmly e e1.
Proof.
  intros F P EP ES. unfold calmly. rewrite EP. cbn [updateWith p_beta]. rewrite P. split; [|split; [vm_compute; reflexivity|split; [vm_compute; reflexivity|split; [vm_compute; reflexivity|exact ES]]]].
  apply (usable_double _ 2); [exact F|apply (Fin_Zx 2); lia|exact two_moderate].
Qed.
Lemma scene97_gen start ms w0 b c f : scene97 start ms w0 b f = true -> (forall e k, start = Ok (e, k) -> jobS e k None /\ fits (e_p e) /\ p_beta (e_p e) = c /\ p_counter (e_p e) = 0) ->
  msgLoad (toDict (msgToDict ms)) = Ok ms ->
  (forall e e1 : @env NumF string, fits (e_p e) -> p_beta (e_p e) = c -> e_p e1 = updateWith ms (e_p e) -> ends_settled (e_d e) -> usable (e_p e1) /\ calmly e e1) ->
  exists e k e1 k1 e2, f e k e1 k1 e2 = true /\ jobS e k None /\ k_msg k = FHas (toDict (msgToDict ms)) /\
  envListen k e = Ok (true, e1) /\ jobS e1 k None /\ envSave showS pidS e1 k = Ok k1 /\ jobS e1 k1 (Some e1) /\
  envLoad readS seedS strS diagram_new k1 = Ok e2 /\ jobS e2 k1 (Some e1).
Proof.
  intros H ST ML CF. unfold scene97 in H. apply ok_and_true in H as ([e k] & S & H). apply ok_and_true in H as (ea & HP & H). apply ok_and_true in H as (e0 & M & H). apply andb_prop in H as [SE H]. cbv zeta in H. apply ok_and_true in H as ([t e1] & L & H).
  apply andb_prop in H as [-> H]. apply ok_and_true in H as (k1 & SV & H). apply ok_and_true in H as (e2 & LO & H).
  destruct (ST e k S) as (Js & Fs & P & C0).
  destruct (C89_job_goes_on _ _ nextS showS readS seedS strS pidS (fun _ => eq_refl) e k _ Js) as (_ & HO & _). destruct (HO 1) as (e1' & HP' & C1 & J). rewrite HP in HP'. injection HP' as <-. rewrite C0 in C1, J. specialize (J ltac:(cbn; lia)).
  assert (Fa : fits (e_p ea) /\ p_beta (e_p ea) = c) by (unfold envHop in HP; apply obind_ok in HP as ([u s1] & _ & HP); injection HP as <-; split; [exact Fs|exact P]).
  assert (M2 : e_p e0 = e_p ea) by (unfold envMeasure in M; apply obind_ok in M as (m & _ & M); injection M as <-; reflexivity).
  set (k0 := send k ms w0 b) in *.
  assert (J0 : jobS e0 k0 None) by (eapply jb_files; [eapply jb_measure; [exact J|exact M]|reflexivity|reflexivity]).
  assert (J1 : jobS e1 k0 None).
  { eapply jb_listen; [exact J0|exact L|intros _]. destruct (listen_true _ _ _ L) as (o & ms' & w & gs & ws & wd & HM & HL & _ & _ & _ & EP & _).
    change (k_msg k0) with (FHas (toDict (msgToDict ms))) in HM. injection HM as <-. rewrite ML in HL. injection HL as <-.
    apply CF; [rewrite M2; apply Fa|rewrite M2; apply Fa|exact EP|]. unfold settled in SE. apply andb_prop in SE as [S1 S2]. apply negb_true_iff in S1, S2. intros _. auto. }
  assert (J2 : jobS e1 k1 (Some e1)) by (eapply jb_save; [exact J1|exact SV]).
  exists e0, k0, e1, k1, e2. split; [exact H|]. split; [exact J0|]. split; [reflexivity|]. split; [exact L|]. split; [exact J1|]. split; [exact SV|]. split; [exact J2|]. split; [exact LO|].
  eapply (jb_restart _ _ _ _ _ _ e1 k1 e1 diagram_new); [exact J2|repeat split|exact LO].
Qed.
Definition w97 : list Z := [opw 17; accw].
Lemma scene97_job f : scene97 (startS 1 w97) (msF 2 2) (wtf oneF oneF oneF) (fz 2) f = true -> exists e k e1 k1 e2, f e k e1 k1 e2 = true /\ jobS e k None /\ k_msg k = FHas (toDict (msgToDict (msF 2 2))) /\
  envListen k e = Ok (true, e1) /\ jobS e1 k None /\ envSave showS pidS e1 k = Ok k1 /\ jobS e1 k1 (Some e1) /\
  envLoad readS seedS strS diagram_new k1 = Ok e2 /\ jobS e2 k1 (Some e1).
Proof.
  intros H. apply (scene97_gen _ _ _ _ (fz 1) f H).
  - intros e k S. destruct (start_job 1 w97 e k ltac:(auto) S) as (J & P & _). rewrite P. split; [exact J|]. split; [apply exp_fits|]. split; reflexivity.
  - apply msg_round. change (- 2 ^ 31 <= 2 < 2 ^ 31). lia.
  - exact calm_F.
Qed.
Example C92_case : exists k (e e' : @env NumF string) k2 e3, envListen k e = Ok (true, e') /\ jobS e' k2 (Some e') /\ constructed (@diagram_new NumF) /\
  envLoad readS seedS strS diagram_new k2 = Ok e3 /\ (forall x, readS (showS x) = Some x).
Proof.
  destruct (scene97_job (fun _ _ _ _ _ => true)) as (e & k & e1 & k1 & e2 & _ & _ & _ & L & _ & _ & J & LO & _); [vm_compute; reflexivity|].
  exists k, e, e1, k1, e2. split; [exact L|]. split; [exact J|]. split; [repeat split|]. split; [exact LO|reflexivity].
Qed.

(** ** C93 A message is taken only if FermiBasis.dat was written for the message's Beta, to 1e-10. *)
Theorem C93_basis_must_match_message :
  forall (N : Num) (E : Type) k (e e' : @env N E), envListen k e = Ok (true, e') ->
  exists l v b, k_fermi k = FHas (PDict l) /\ dget "Beta" l = Some v /\ cvReal v = Some b /\ rltb (e_abs (rsub b (p_beta (e_p e')))) eps10 = true.
Proof. exact @listen_basis. Qed.
Print Assumptions C93_basis_must_match_message.
Example C93_case : exists k (e e' : @env NumF string), envListen k e = Ok (true, e').
Proof. destruct (scene97_job (fun _ _ _ _ _ => true)) as (e & k & e1 & k1 & e2 & _ & _ & _ & L & _); [vm_compute; reflexivity|]. eauto. Qed.
(** Claim: a message that raises Beta is taken when weights for the new Beta are there. False: the basis
    files are written once, when the job is set up (inlist.py:139-142), and the job ends. *)
Definition scene93 : bool := ok_and (startS 2 []) (fun '(e, k) => aborts (envListen (send k (msF 2 4) (wtf oneF oneF oneF) (fz 2)) e)).
Theorem C93_annealing_message_taken_refuted :
  exists (e : @env NumF string) k w, jobS e k None /\ k_msg k = FHas (toDict (msgToDict (msF 2 4))) /\ p_version (e_p e) = 1 /\ p_beta (e_p e) = fz 2 /\ usable (updateWith (msF 2 4) (e_p e)) /\
    k_weight k = FHas w /\ w = wtf oneF oneF oneF /\ k_fermi k = FHas (basis_file (N := NumF) (fz 2) (fz 1)) /\ k_bose k = FHas (basis_file (N := NumF) (fz 2) (fz 1)) /\ envListen k e = Abort.
Proof.
  assert (H : scene93 = true) by (vm_compute; reflexivity). unfold scene93 in H. apply ok_and_true in H as ([e k] & S & H). apply aborts_true in H.
  destruct (start_job 2 [] e k ltac:(auto) S) as (J & P & _). exists e, (send k (msF 2 4) (wtf oneF oneF oneF) (fz 2)), (wtf oneF oneF oneF). split; [eapply jb_files; [exact J|reflexivity|reflexivity]|].
  split; [reflexivity|]. rewrite P. split; [reflexivity|]. split; [reflexivity|]. split; [apply (usable_F 2 (fz 4) 4 ""); [apply (Fin_Zx 4); lia|split; change 4%R with (Raux.bpow Zaux.radix2 2); apply Raux.bpow_le; lia]|].
  split; [reflexivity|]. split; [reflexivity|]. split; [reflexivity|]. split; [reflexivity|exact H].
Qed.
Print Assumptions C93_annealing_message_taken_refuted.

(** ** C94 Load needs the statistics file, which StartFromNew neither writes nor removes. *)
Theorem C94_load_needs_files :
  forall (N : Num) (E : Type) (read : string -> option E) (seedE : Z -> E) (strOf : @py N -> string) d0 k (e : @env N E),
  envLoad read seedE strOf d0 k = Ok e ->
  (exists s, k_stat k = FHas s) /\ (exists w, k_weight k = FHas w) /\ (exists f, k_fermi k = FHas f) /\ (exists f, k_bose k = FHas f) /\ k_para k <> FBroken.
Proof. exact @load_files. Qed.
Print Assumptions C94_load_needs_files.
Theorem C94_start_keeps_statistics_file :
  forall (N : Num) (E : Type) (read : string -> option E) (seedE : Z -> E) (strOf : @py N -> string) d0 k (e : @env N E) k',
  envBuildNew read seedE strOf d0 k = Ok (e, k') -> k_stat k' = k_stat k /\ exists o, k_para k' = FHas o.
Proof. exact @new_keeps_stat. Qed.
Print Assumptions C94_start_keeps_statistics_file.
Example C94_case : (exists k (e : @env NumF string), envLoad readS seedS strS diagram_new k = Ok e) /\
  exists k (e : @env NumF string) k', envBuildNew readS seedS strS diagram_new k = Ok (e, k').
Proof.
  split.
  - destruct (scene97_job (fun _ _ _ _ _ => true)) as (e & k & e1 & k1 & e2 & _ & _ & _ & _ & _ & _ & _ & L & _); [vm_compute; reflexivity|]. eauto.
  - destruct (kit_new (N := NumF) 1 (fz 2) "" oneF oneF oneF ltac:(lia) (close_F 2 ltac:(auto)) (small_F 2 "" ltac:(auto))) as (e & k & B & _). eexists _, e, k. exact B.
Qed.
(** Claim: a job that has been started can be restarted. False before its first Save. *)
Definition scene94 : bool := ok_and (startS 2 []) (fun '(e, k) => aborts (envLoad readS seedS strS diagram_new k)).
Theorem C94_started_job_can_be_restarted_refuted :
  exists (e : @env NumF string) k, jobS e k None /\ envLoad readS seedS strS diagram_new k = Abort.
Proof.
  assert (H : scene94 = true) by (vm_compute; reflexivity). unfold scene94 in H. apply ok_and_true in H as ([e k] & S & H). apply aborts_true in H.
  destruct (start_job 2 [] e k ltac:(auto) S) as (J & _). eauto.
Qed.
Print Assumptions C94_started_job_can_be_restarted_refuted.

(** ** C95 Claim: a crash during Save leaves the state of this Save or of the one before. False: Save writes
    the parameter file in place and then the statistics file. A crash in between leaves parameters,
    engine and diagram of now with the statistics of the previous Save; a crash while the parameter
    file is written leaves a file that ends the restart. *)
Definition half : @real NumF := @rdiv NumF (fz 3) (fz 2).
Definition scene95 (start : outcome (@env NumF string * @disk NumF)) (f : @env NumF string -> @disk NumF -> @env NumF string -> @disk NumF -> @env NumF string -> bool) : bool :=
  ok_and start (fun '(e, k) => ok_and (envHop nextS 1 e) (fun e => ok_and (envMeasure e) (fun e => ok_and (envSave showS pidS e k) (fun k1 =>
  ok_and (envHop nextS 1 e) (fun e1 => ok_and (envMeasure e1) (fun e1 => ok_and (envSavePara showS pidS e1 k1) (fun k2 =>
  ok_and (envLoad readS seedS strS diagram_new k2) (fun e2 => f e k1 e1 k2 e2)))))))).
Lemma scene95_gen start f : scene95 start f = true -> (forall e k, start = Ok (e, k) -> jobS e k None /\ p_counter (e_p e) = 0) ->
  exists e k1 e1 k2 e2, f e k1 e1 k2 e2 = true /\ jobS e1 k1 (Some e) /\ envSavePara showS pidS e1 k1 = Ok k2 /\ envLoad readS seedS strS diagram_new k2 = Ok e2.
Proof.
  intros H ST. unfold scene95 in H. apply ok_and_true in H as ([ea k] & S & H). apply ok_and_true in H as (e & HPa & H). apply ok_and_true in H as (e0 & M & H). apply ok_and_true in H as (k1 & SV & H). apply ok_and_true in H as (e1 & HP & H).
  apply ok_and_true in H as (e2 & M2 & H). apply ok_and_true in H as (k2 & SP & H). apply ok_and_true in H as (e3 & LO & H). destruct (ST ea k S) as [Ja Ca].
  destruct (C89_job_goes_on _ _ nextS showS readS seedS strS pidS (fun _ => eq_refl) ea k _ Ja) as (_ & HOa & _). destruct (HOa 1) as (e' & HP' & C0 & J). rewrite HPa in HP'. injection HP' as <-. rewrite Ca in C0, J. specialize (J ltac:(cbn; lia)).
  assert (J1 : jobS e0 k1 (Some e0)) by (eapply jb_save; [eapply jb_measure; [exact J|exact M]|exact SV]).
  assert (M0 : e_p e0 = e_p e) by (unfold envMeasure in M; apply obind_ok in M as (m & _ & M); injection M as <-; reflexivity).
  destruct (C89_job_goes_on _ _ nextS showS readS seedS strS pidS (fun _ => eq_refl) e0 k1 _ J1) as (_ & HO & _). destruct (HO 1) as (e1' & HP' & C1 & J2). rewrite HP in HP'. injection HP' as <-. rewrite M0, C0 in C1, J2. specialize (J2 ltac:(cbn; lia)).
  exists e0, k1, e2, k2, e3. split; [exact H|]. split; [eapply jb_measure; [exact J2|exact M2]|]. split; [exact SP|exact LO].
Qed.
Definition mixed (e : @env NumF string) (k1 : @disk NumF) (e1 : @env NumF string) (k2 : @disk NumF) (e2 : @env NumF string) : bool :=
  (p_counter (e_p e) =? 1) && (p_counter (e_p e1) =? 2) && (p_counter (e_p e2) =? 2) &&
  rltb (we_nacc (m_S (e_m e2))) half && negb (rltb (we_nacc (m_S (e_m e1))) half).
Theorem C95_crash_during_save_is_atomic_refuted :
  exists (e e1 e2 : @env NumF string) k1 k2, jobS e1 k1 (Some e) /\ envSavePara showS pidS e1 k1 = Ok k2 /\ envLoad readS seedS strS diagram_new k2 = Ok e2 /\
    p_counter (e_p e2) <> p_counter (e_p e) /\ we_nacc (m_S (e_m e2)) <> we_nacc (m_S (e_m e1)).
Proof.
  destruct (scene95_gen (startS 1 ([opw 17; accw; opw 1])) mixed) as (e & k1 & e1 & k2 & e2 & H & J & SP & LO); [vm_compute; reflexivity|intros e k S; destruct (start_job 1 ([opw 17; accw; opw 1]) e k ltac:(auto) S) as (J & P & _); rewrite P; auto|].
  unfold mixed in H. apply andb_prop in H as [H H5]. apply andb_prop in H as [H H4]. apply andb_prop in H as [H H3]. apply andb_prop in H as [H1 H2]. apply Z.eqb_eq in H1, H2, H3. apply negb_true_iff in H5.
  exists e, e1, e2, k1, k2. split; [exact J|]. split; [exact SP|]. split; [exact LO|]. split; [lia|]. intros X. rewrite X, H5 in H4. discriminate.
Qed.
Print Assumptions C95_crash_during_save_is_atomic_refuted.
(** the crash while the parameter file is written *)
Theorem C95_broken_parameter_file_ends_restart :
  forall (N : Num) (E : Type) (read : string -> option E) (seedE : Z -> E) (strOf : @py N -> string) d0 k,
  k_para k = FBroken -> envLoad read seedE strOf d0 k = Abort.
Proof. intros N E read seedE strOf d0 k H. unfold envLoad. now rewrite H. Qed.
Print Assumptions C95_broken_parameter_file_ends_restart.
Example C95_case : k_para (mkDisk (N := NumF) FMissing FBroken FMissing FMissing FMissing FMissing FMissing) = FBroken.
Proof. reflexivity. Qed.

(** ** C96 Claim: a diagram that passed the check when a message was taken keeps passing it. False when the
    message arrives while there is no worm but the vertices the last one ended on are still there:
    Reset marks their line (C25), and after the next CreateWorm on another line the check that
    PrintStatus makes (main.cpp:103-105) ends the job. CreateWorm, AddInteraction, DeleteWorm, the message,
    CreateWorm. *)
Definition w96 : list Z := [opw 0; 0; 10100; 0] ++ [opw 5; 10500; 1; 0; 7; 2 ^ 30] ++ [opw 1; accw] ++ [opw 0; 1; 10300; 0].
Definition scene96 (start : outcome (@env NumF string * @disk NumF)) (ms : @message NumF) (w : @wtfile NumF) (b : @real NumF) (f : @env NumF string -> bool) : bool :=
  ok_and start (fun '(e, k) => ok_and (envHop nextS 3 e) (fun e => f e &&
  ok_and (envListen (send k ms w b) e) (fun '(t, e1) => t && ok_and (CheckDiagram (e_tab e1) (e_d e1)) (fun c => c &&
  ok_and (envHop nextS 1 e1) (fun e2 => aborts (CheckDiagram (e_tab e2) (e_d e2))))))).
Lemma scene96_gen start ms w0 b f : scene96 start ms w0 b f = true -> (forall e k, start = Ok (e, k) -> jobS e k None /\ p_counter (e_p e) = 0) ->
  exists e k e1 e2, jobS e k None /\ f e = true /\ k_msg k = FHas (toDict (msgToDict ms)) /\ envListen k e = Ok (true, e1) /\ CheckDiagram (e_tab e1) (e_d e1) = Ok true /\
    envHop nextS 1 e1 = Ok e2 /\ CheckDiagram (e_tab e2) (e_d e2) = Abort.
Proof.
  intros H ST. unfold scene96 in H. apply ok_and_true in H as ([e k] & S & H). apply ok_and_true in H as (e0 & HP & H). apply andb_prop in H as [HF H]. apply ok_and_true in H as ([t e1] & L & H). apply andb_prop in H as [-> H].
  apply ok_and_true in H as (c & C & H). apply andb_prop in H as [-> H]. apply ok_and_true in H as (e2 & HP2 & H). apply aborts_true in H. destruct (ST e k S) as [J C0].
  destruct (C89_job_goes_on _ _ nextS showS readS seedS strS pidS (fun _ => eq_refl) e k _ J) as (_ & HO & _). destruct (HO 3) as (e1' & HP' & C1 & J2). rewrite HP in HP'. injection HP' as <-. rewrite C0 in C1, J2. specialize (J2 ltac:(cbn; lia)).
  exists e0, (send k ms w0 b), e1, e2. split; [eapply jb_files; [exact J2|reflexivity|reflexivity]|]. split; [exact HF|]. split; [reflexivity|]. split; [exact L|]. split; [exact C|]. split; [exact HP2|exact H].
Qed.
Definition wormless (e : @env NumF string) : bool := negb (wm_ex (e_d e)) && (order (e_d e) =? 2).
Theorem C96_check_keeps_passing_refuted :
  exists (e : @env NumF string) k e1 e2, jobS e k None /\ wm_ex (e_d e) = false /\ order (e_d e) = 2 /\ k_msg k = FHas (toDict (msgToDict (msF 2 2))) /\
    envListen k e = Ok (true, e1) /\ CheckDiagram (e_tab e1) (e_d e1) = Ok true /\ envHop nextS 1 e1 = Ok e2 /\ CheckDiagram (e_tab e2) (e_d e2) = Abort.
Proof.
  destruct (scene96_gen (startS 2 w96) (msF 2 2) (wtf oneF oneF oneF) (fz 2) wormless) as (e & k & e1 & e2 & J & F & H); [vm_compute; reflexivity|intros e k S; destruct (start_job 2 w96 e k ltac:(auto) S) as (J & P & _); rewrite P; auto|].
  unfold wormless in F. apply andb_prop in F as [F1 F2]. apply negb_true_iff in F1. apply Z.eqb_eq in F2. exists e, k, e1, e2. split; [exact J|]. split; [exact F1|]. split; [exact F2|exact H].
Qed.
Print Assumptions C96_check_keeps_passing_refuted.

(** ** C97 Claim: Save and restart right after a message make no difference. False: the estimators of the
    running job remember the Beta they were created with, those of the restarted job have the new
    one, so that the next message scales their norms differently. Beta = 1, then 2, then 4. *)
Definition differ (e : @env NumF string) (k : @disk NumF) (e1 : @env NumF string) (k1 : @disk NumF) (e2 : @env NumF string) : bool :=
  let k' := send k1 (msF 3 4) (wtf oneF oneF oneF) (fz 4) in
  ok_and (envListen k' e1) (fun '(t1, f1) => t1 && ok_and (envListen k' e2) (fun '(t2, f2) => t2 &&
  rltb (we_nacc (m_S (e_m f2))) (rofZ 32) && negb (rltb (we_nacc (m_S (e_m f1))) (rofZ 32)))).
Theorem C97_restart_after_message_is_transparent_refuted :
  exists (e1 e2 f1 f2 : @env NumF string) k1 k2, jobS e1 k1 (Some e1) /\ envLoad readS seedS strS diagram_new k1 = Ok e2 /\
    k_msg k2 = FHas (toDict (msgToDict (msF 3 4))) /\ envListen k2 e1 = Ok (true, f1) /\ envListen k2 e2 = Ok (true, f2) /\
    we_nacc (m_S (e_m e1)) = we_nacc (m_S (e_m e2)) /\ we_nacc (m_S (e_m f1)) <> we_nacc (m_S (e_m f2)).
Proof.
  destruct (scene97_job differ) as (e & k & e1 & k1 & e2 & H & _ & _ & _ & _ & _ & J & LO & _); [vm_compute; reflexivity|].
  unfold differ in H. cbv zeta in H. apply ok_and_true in H as ([t1 f1] & L1 & H). apply andb_prop in H as [-> H]. apply ok_and_true in H as ([t2 f2] & L2 & H). apply andb_prop in H as [H H2]. apply andb_prop in H as [-> H1]. apply negb_true_iff in H2.
  destruct (job_ok nextS showS readS seedS strS pidS (fun _ => eq_refl) e1 k1 _ J) as [_ A]. destruct (A e1 eq_refl) as ((A1 & A2) & A3 & A4).
  destruct (load_needs showS readS seedS strS pidS e1 k1 diagram_new e2 A1 A2 (fun _ => eq_refl) A3 LO) as (w & gs & ws & wd & W & LG).
  destruct (job_restart nextS showS readS seedS strS pidS (fun _ => eq_refl) e1 k1 e1 diagram_new w gs ws wd J ltac:(repeat split) W LG) as (e2' & LO' & _ & BK & _). rewrite LO in LO'. injection LO' as <-.
  exists e1, e2, f1, f2, k1, (send k1 (msF 3 4) (wtf oneF oneF oneF) (fz 4)). split; [exact J|]. split; [exact LO|]. split; [reflexivity|]. split; [exact L1|]. split; [exact L2|].
  split; [pose proof (bk_S _ _ BK) as Q; unfold weToDict in Q; injection Q; intros; congruence|]. intros X. rewrite X, H1 in H2. discriminate.
Qed.
Print Assumptions C97_restart_after_message_is_transparent_refuted.
