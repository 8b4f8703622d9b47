(** Jobs keep their promises *)
From Coq Require Import ZArith List Bool Arith Lia String.
From Verif Require Import Base Num Complex Lattice Bundle IndexMap Weights Diagram Markov DiagramIO DiagramCheck History Life
  Estimator WeightEstimator Gamma3 Monitor PyDict Param ConfigPy Env
  P_RNG P_Bundle P_IndexMap P_WP P_Inv P_Hop P_Fix P_IO P_History P_Promises P_IOProm P_Estimator P_WeightEst P_Monitor P_Life P_Param P_ParamIO P_Env Job.
Import ListNotations.
Open Scope string_scope.
Open Scope Z_scope.

Section PJob.
Context {N : Num} {E : Type} (next : E -> Z * E).
Context (show : E -> string) (read : string -> option E) (seedE : Z -> E) (strOf : @py N -> string) (pid : @py N).
Notation para := (@para N E).
Notation env := (@env N E).
Notation job := (job next show read seedE strOf pid).

(** *** outcomes of ListenToMessage *)
Lemma listen_false k (e e' : env) : envListen k e = Ok (false, e') -> e' = e.
Proof.
  unfold envListen. destruct (_ && _); [intros H; now injection H|]. intros H. apply obind_ok in H as (fm & _ & H). destruct fm as [o|]; [|now injection H].
  apply obind_ok in H as (ms & _ & H). destruct (_ <=? _); [now injection H|]. apply obind_ok in H as (fw & _ & H). destruct fw as [w|]; [|now injection H]. cbv zeta in H.
  apply obind_ok in H as ([[gs ws] wd] & _ & H). apply obind_ok in H as ([GG GW] & _ & H). apply obind_ok in H as (d & _ & H). apply obind_ok in H as (m & _ & H). apply obind_ok in H as (b & _ & H). destruct b; discriminate H.
Qed.
Lemma squeeze_pos c f m m' : monSqueeze (N := N) c f m = Ok m' -> rltb (rofZ 0) f = true.
Proof. unfold monSqueeze, weSqueeze. destruct (rltb (rofZ 0) f); [reflexivity|discriminate]. Qed.
Lemma listen_true k (e e' : env) : envListen k e = Ok (true, e') ->
  exists o ms w gs ws wd, k_msg k = FHas o /\ msgLoad o = Ok ms /\ p_version (e_p e) < ms_version ms /\ k_weight k = FHas w /\
    loadGW (updateWith ms (e_p e)) k w = Ok (gs, ws, wd) /\ e_p e' = updateWith ms (e_p e) /\ rltb (rofZ 0) (ms_squeeze ms) = true /\
    e_gs e' = gs /\ e_ws e' = ws /\ e_wd e' = wd /\
    exists GG GW, DReset (tabOf (e_p e') gs ws wd GG GW) (e_d e) = Ok (e_d e') /\ CheckDiagram (tabOf (e_p e') gs ws wd GG GW) (e_d e') = Ok true.
Proof.
  unfold envListen. destruct (_ && _); [discriminate|]. intros H. apply obind_ok in H as (fm & HM & H). destruct fm as [o|]; [|discriminate].
  apply obind_ok in H as (ms & HL & H). destruct (Z.leb_spec (ms_version ms) (p_version (e_p e))) as [_|HV]; [discriminate|].
  apply obind_ok in H as (fw & HW & H). destruct fw as [w|]; [|discriminate]. cbv zeta in H.
  apply obind_ok in H as ([[gs ws] wd] & LG & H). apply obind_ok in H as ([GG GW] & _ & H). apply obind_ok in H as (d & DR & H). apply obind_ok in H as (m & SM & H). apply obind_ok in H as (b & CD & H). destruct b; [|discriminate H].
  injection H as <-. destruct (k_msg k) as [| |o'] eqn:KM; try discriminate. injection HM as ->. destruct (k_weight k) as [| |w'] eqn:KW; try discriminate. injection HW as ->.
  exists o, ms, w, gs, ws, wd. repeat (split; [first [reflexivity|assumption|exact (squeeze_pos _ _ _ _ SM)]|]). exists GG, GW. auto.
Qed.
Lemma listen_keeps k (e e' : env) : EnvOk e -> envListen k e = Ok (true, e') -> usable (e_p e') -> calmly e e' -> EnvOk e'.
Proof.
  intros K H U (C1 & C2 & C3 & C4). destruct (listen_true k e e' H) as (o & ms & w & gs & ws & wd & HM & HL & HV & HW & LG & EP & SQ & _).
  rewrite EP in U, C3. destruct (envListen_ok k e o ms w gs ws wd K HM HL HV HW LG U (Logic.conj C1 (Logic.conj C2 (Logic.conj C3 C4))) SQ) as (e2 & K2 & _ & _ & _ & _ & _ & _ & Q).
  rewrite H in Q. symmetry in Q. apply obind_ok in Q as (b & _ & Q). destruct b; [|discriminate]. injection Q as <-. exact K2.
Qed.
Lemma load_needs (e : env) k d0 e' : EnvOk e -> is_ll (p_counter (e_p e)) -> (forall x, read (show x) = Some x) ->
  k_para k = k_para (saved show pid e k) -> envLoad read seedE strOf d0 k = Ok e' ->
  exists w gs ws wd, k_weight k = FHas w /\ loadGW (e_p e) k w = Ok (gs, ws, wd).
Proof.
  intros K CN RS HP H. pose proof (para_counter _ (eo_p e K) CN) as PK. unfold envLoad in H. rewrite HP in H. cbn [saved s_k_stat s_k_para k_para ftry obind] in H.
  match type of H with context [dLoad (toDict ?m) []] => destruct (load_dict m) as (m' & E1 & M) end. rewrite E1 in H. cbn [obind] in H.
  destruct (section_get "Para" m' (paraToDict show (e_p e))) as (pm & E2 & PM); [rewrite M, dget_of; reflexivity|]. rewrite E2 in H. cbn [obind] in H.
  rewrite (para_round show read seedE strOf (e_p e) pm PK RS PM) in H. cbn [obind] in H. apply obind_ok in H as (w & HW & H). apply obind_ok in H as (s & _ & H). apply obind_ok in H as ([[gs ws] wd] & LG & _).
  destruct (k_weight k) as [| |w'] eqn:KW; try discriminate. injection HW as ->. exists w, gs, ws, wd. split; [reflexivity|exact LG].
Qed.

(** *** the invariant *)
Lemma job_ok (RS : forall x, read (show x) = Some x) e k s : job e k s -> (EnvOk e /\ is_ll (p_counter (e_p e))) /\
  forall e1, s = Some e1 -> (EnvOk e1 /\ is_ll (p_counter (e_p e1))) /\ k_para k = k_para (saved show pid e1 k) /\ k_stat k = k_stat (saved show pid e1 k).
Proof.
  induction 1 as [d0 k0 e k D0 B U L|n e k s e' H [[IH1 IH2] IH3] HH HC|e k s e' H [[IH1 IH2] IH3] HH|e k s e' H [[IH1 IH2] IH3] HH|e k s e' H [[IH1 IH2] IH3] HO HH|e k s k' H [[IH1 IH2] IH3] HH
    |e k s k' H [[IH1 IH2] IH3] H1 H2|e k s b e' H [[IH1 IH2] IH3] HH HB|e k s d0 e' H [[IH1 IH2] IH3] D0 HH].
  - split; [exact (envBuildNew_inv read seedE strOf d0 k0 e k D0 B U L)|discriminate].
  - destruct (hop_ok next n e IH1) as (e2 & B & K & _ & C). rewrite HH in B. injection B as <-. split; [split; [exact K|unfold is_ll in *; lia]|exact IH3].
  - destruct (envMeasure_ok e IH1) as (e2 & x & B & K & C & _). rewrite HH in B. injection B as <-. rewrite C. auto.
  - destruct (envPrint_ok e IH1) as (e2 & B & K & _). rewrite HH in B. injection B as <-. split; [split; [exact K|]|exact IH3].
    unfold envPrint in HH. apply obind_ok in HH as (c & _ & HH). injection HH as <-. exact IH2.
  - destruct (envAdjust_ok e IH1 HO) as (e2 & B & K & _). rewrite HH in B. injection B as <-. split; [split; [exact K|]|exact IH3].
    unfold envAdjust in HH. apply obind_ok in HH as ([b c] & _ & HH). injection HH as <-. exact IH2.
  - split; [auto|]. rewrite (envSave_ok show pid e k IH1) in HH. injection HH as <-. intros e1 Q. injection Q as <-. auto.
  - split; [auto|]. intros e1 Q. destruct (IH3 e1 Q) as (A & B & C). split; [exact A|]. rewrite H1, H2. split; [exact B|exact C].
  - destruct b; [|apply listen_false in HH as ->; auto]. destruct (HB eq_refl) as [U C]. split; [split; [exact (listen_keeps k e e' IH1 HH U C)|]|exact IH3].
    destruct (listen_true k e e' HH) as (o & ms & w & gs & ws & wd & _ & _ & _ & _ & _ & EP & _). rewrite EP. exact IH2.
  - destruct (IH3 s eq_refl) as ((A1 & A2) & A3 & A4). split; [|exact IH3].
    destruct (load_needs s k d0 e' A1 A2 RS A3 HH) as (w & gs & ws & wd & W & LG).
    destruct (envLoad_ok show read seedE strOf pid s k d0 w gs ws wd A1 A2 RS D0 W LG A3 A4) as (e2 & B & K & Q & _). rewrite HH in B. injection B as <-. split; [exact K|]. rewrite (bk_p _ _ Q). exact A2.
Qed.

(** every action is possible *)
Theorem job_goes_on (RS : forall x, read (show x) = Some x) e k s : job e k s ->
  structural (e_cfg e) (e_d e) /\
  (forall n, exists e', envHop next n e = Ok e' /\ p_counter (e_p e') = p_counter (e_p e) + Z.max n 0 /\ (p_counter (e_p e) + Z.max n 0 < 2 ^ 63 -> job e' k s)) /\
  (exists e', envMeasure e = Ok e' /\ job e' k s) /\ (exists e', envPrint e = Ok e' /\ job e' k s) /\
  (p_order (e_p e) < Z.of_nat (List.length (p_otr (e_p e))) -> exists e', envAdjust e = Ok e' /\ job e' k s) /\
  (exists k', envSave show pid e k = Ok k' /\ job e k' (Some e)).
Proof.
  intros H. destruct (job_ok RS e k s H) as [[K C] _]. split; [exact (structural_ok (e_cfg e) (e_d e) (eo_i e K) (ok_cfg e K))|].
  split; [|split; [|split; [|split]]].
  - intros n. destruct (hop_ok next n e K) as (e2 & B & _ & _ & Q). exists e2. split; [exact B|]. split; [exact Q|]. intros L. eapply jb_hop; eauto. lia.
  - destruct (envMeasure_ok e K) as (e2 & x & B & _). exists e2. split; [exact B|]. eapply jb_measure; eauto.
  - destruct (envPrint_ok e K) as (e2 & B & _). exists e2. split; [exact B|]. eapply jb_print; eauto.
  - intros O. destruct (envAdjust_ok e K O) as (e2 & B & _). exists e2. split; [exact B|]. eapply jb_adjust; eauto.
  - eexists. split; [exact (envSave_ok show pid e k K)|]. eapply jb_save; [exact H|]. exact (envSave_ok show pid e k K).
Qed.
(** a restart brings back what was saved *)
Theorem job_restart (RS : forall x, read (show x) = Some x) e k s d0 w gs ws wd : job e k (Some s) -> constructed d0 -> k_weight k = FHas w -> loadGW (e_p s) k w = Ok (gs, ws, wd) ->
  exists e', envLoad read seedE strOf d0 k = Ok e' /\ job e' k (Some s) /\ back s e' /\ e_gs e' = gs /\ e_ws e' = ws /\ e_wd e' = wd.
Proof.
  intros H D0 W LG. destruct (job_ok RS e k (Some s) H) as [_ A]. destruct (A s eq_refl) as ((A1 & A2) & A3 & A4).
  destruct (envLoad_ok show read seedE strOf pid s k d0 w gs ws wd A1 A2 RS D0 W LG A3 A4) as (e2 & B & K & Q & R1 & R2 & R3). exists e2. split; [exact B|]. split; [|auto]. eapply jb_restart; eauto.
Qed.
Theorem job_restart_full (RS : forall x, read (show x) = Some x) e k s d0 w gs ws wd : job e k (Some s) -> constructed d0 ->
  k_weight k = FHas w -> loadGW (e_p s) k w = Ok (gs, ws, wd) ->
  exists e', envLoad read seedE strOf d0 k = Ok e' /\ job e' k (Some s) /\
    e_p e' = no_seed (e_p s) /\ e_gs e' = gs /\ e_ws e' = ws /\ e_wd e' = wd /\
    (exists fv fg fw, same_diagram fv fg fw (e_d s) (e_d e') /\ order (e_d e') = Z.max 1 (order (e_d s)) /\
      (e_gs e' = e_gs s -> e_ws e' = e_ws s -> e_wd e' = e_wd s ->
       (forall g, bexist (gB (e_d s)) g = true -> g_W (e_d e') (fg g) = g_W (e_d s) g) /\
       (forall w, bexist (wB (e_d s)) w = true -> w_W (e_d e') (fw w) = w_W (e_d s) w))) /\
    weToDict (m_S (e_m e')) = weToDict (m_S (e_m s)) /\ weToDict (m_P (e_m e')) = weToDict (m_P (e_m s)) /\
    (forall i, 0 <= i <= p_order (e_p s) -> exists x x' y y', ebAt i (m_worm (e_m s)) = Ok x /\ ebAt i (m_worm (e_m e')) = Ok x' /\
       ebAt i (m_phy (e_m s)) = Ok y /\ ebAt i (m_phy (e_m e')) = Ok y' /\
       e_acc x' = e_acc x /\ e_norm x' = e_norm x /\ e_acc y' = e_acc y /\ e_norm y' = e_norm y) /\
    e_acc (m_sig (e_m e')) = e_acc (m_sig (e_m s)) /\ e_norm (m_sig (e_m e')) = e_norm (m_sig (e_m s)) /\
    e_acc (m_pol (e_m e')) = e_acc (m_pol (e_m s)) /\ e_norm (m_pol (e_m e')) = e_norm (m_pol (e_m s)).
Proof.
  intros H D0 W LG. destruct (job_restart RS e k s d0 w gs ws wd H D0 W LG) as (e' & L & J & [B1 B2 B3 B4 [B5 B6] B7] & G1 & G2 & G3).
  exists e'. split; [exact L|]. split; [exact J|]. split; [exact B1|]. split; [exact G1|]. split; [exact G2|]. split; [exact G3|]. split; [exact B2|]. split; [exact B3|]. split; [exact B4|]. split; [|exact B7].
  intros i Hi. specialize (B5 (Z.to_nat i) ltac:(lia)). specialize (B6 (Z.to_nat i) ltac:(lia)). rewrite Z2Nat.id in B5, B6 by lia.
  destruct B5 as (x' & X' & B5). destruct B6 as (y' & Y' & B6).
  destruct (Nat.leb_spec (Z.to_nat i) (Z.to_nat (p_order (e_p s)))); [|lia].
  destruct B5 as (x & X & A1 & A2). destruct B6 as (y & Y & A3 & A4). exists x, x', y, y'. auto 10.
Qed.
(** *** the version of a message *)
Theorem listen_once k (e e' : env) : envListen k e = Ok (true, e') ->
  (exists o ms, k_msg k = FHas o /\ msgLoad o = Ok ms /\ p_version (e_p e) < ms_version ms /\ p_version (e_p e') = ms_version ms /\ p_beta (e_p e') = ms_beta ms) /\
  forall k2 (e2 : env), k_msg k2 = k_msg k -> p_version (e_p e2) = p_version (e_p e') -> envListen k2 e2 = Ok (false, e2).
Proof.
  intros H. destruct (listen_true k e e' H) as (o & ms & w & gs & ws & wd & HM & HL & HV & _ & _ & EP & _). split.
  - exists o, ms. rewrite EP. auto.
  - intros k2 e2 M V. unfold envListen. destruct (_ && _); [reflexivity|]. rewrite M, HM. cbn [ftry obind]. rewrite HL. cbn [obind]. rewrite V, EP. cbn [updateWith p_version]. now rewrite Z.leb_refl.
Qed.
(** *** the basis file at a message *)
Theorem listen_basis k (e e' : env) : envListen k e = Ok (true, e') ->
  exists l v b, k_fermi k = FHas (PDict l) /\ dget "Beta" l = Some v /\ cvReal v = Some b /\ rltb (e_abs (rsub b (p_beta (e_p e')))) eps10 = true.
Proof.
  intros H. destruct (listen_true k e e' H) as (o & ms & w & gs & ws & wd & _ & _ & _ & _ & LG & EP & _). rewrite <- EP in LG.
  destruct (loadGW_basis _ _ _ _ LG) as (n & Q). unfold diskBasis in Q. apply obind_ok in Q as (f & F & Q). apply obind_ok in Q as (q & _ & Q). apply obind_ok in Q as (x & Q & _).
  unfold loadBasis in Q. apply obind_ok in Q as (m & LM & Q). apply obind_ok in Q as (fb & RB & _). unfold readBasis in RB. apply obind_ok in RB as (b & GB & RB).
  destruct (rltb (e_abs (rsub b (p_beta (e_p e')))) eps10) eqn:C; cbn [negb] in RB; [|discriminate].
  destruct (load_get _ _ _ "Beta" LM) as (l & -> & DG). unfold dGet in GB. rewrite DG in GB. cbn [dget] in GB. destruct (dget "Beta" l) as [v|] eqn:DV; [|discriminate]. destruct (cvReal v) as [b'|] eqn:CV; [|discriminate]. injection GB as ->.
  destruct (k_fermi k) as [| |f'] eqn:KF; try discriminate. injection F as ->. exists l, v, b. auto.
Qed.
(** *** Load needs all files *)
Theorem load_files d0 k (e : env) : envLoad read seedE strOf d0 k = Ok e ->
  (exists s, k_stat k = FHas s) /\ (exists w, k_weight k = FHas w) /\ (exists f, k_fermi k = FHas f) /\ (exists f, k_bose k = FHas f) /\ k_para k <> FBroken.
Proof.
  unfold envLoad. intros H. apply obind_ok in H as (f & FP & H). apply obind_ok in H as (o & _ & H). apply obind_ok in H as (m & _ & H). apply obind_ok in H as (pm & _ & H). apply obind_ok in H as (p & _ & H).
  apply obind_ok in H as (w & W & H). apply obind_ok in H as (s & S & H). apply obind_ok in H as ([[gs ws] wd] & LG & H). destruct (loadGW_basis _ _ _ _ LG) as (n & Q).
  unfold diskBasis in Q. apply obind_ok in Q as (f1 & F1 & Q). apply obind_ok in Q as (f2 & F2 & _).
  destruct (k_stat k); try discriminate S. destruct (k_weight k); try discriminate W. destruct (k_fermi k); try discriminate F1. destruct (k_bose k); try discriminate F2.
  repeat split; eauto. intros X. rewrite X in FP. discriminate.
Qed.
Theorem new_keeps_stat d0 k (e : env) k' : envBuildNew read seedE strOf d0 k = Ok (e, k') -> k_stat k' = k_stat k /\ exists o, k_para k' = FHas o.
Proof.
  unfold envBuildNew. intros H. apply obind_ok in H as (o & _ & H). apply obind_ok in H as (m & _ & H). apply obind_ok in H as (pm & _ & H). apply obind_ok in H as (p & _ & H).
  apply obind_ok in H as (w & _ & H). apply obind_ok in H as ([[gs ws] wd] & _ & H). apply obind_ok in H as ([GG GW] & _ & H). apply obind_ok in H as ([eS eP] & _ & H). cbv zeta in H.
  apply obind_ok in H as (d & _ & H). apply obind_ok in H as (mn & _ & H). apply obind_ok in H as (F & _ & H). injection H as _ <-. cbn. eauto.
Qed.
(** a message taken before a Save is not taken again after a restart *)
Theorem restart_once (RS : forall x, read (show x) = Some x) k (e e' e1 : env) k2 e2 d0 e3 : envListen k e = Ok (true, e') ->
  p_version (e_p e1) = p_version (e_p e') -> job e2 k2 (Some e1) -> constructed d0 -> envLoad read seedE strOf d0 k2 = Ok e3 ->
  forall k3, k_msg k3 = k_msg k -> envListen k3 e3 = Ok (false, e3).
Proof.
  intros L V J D0 LO k3 M. destruct (job_ok RS e2 k2 (Some e1) J) as [_ A]. destruct (A e1 eq_refl) as ((A1 & A2) & A3 & A4).
  destruct (load_needs e1 k2 d0 e3 A1 A2 RS A3 LO) as (w & gs & ws & wd & W & LG).
  destruct (job_restart RS e2 k2 e1 d0 w gs ws wd J D0 W LG) as (e4 & L4 & _ & BK & _). rewrite LO in L4. injection L4 as <-.
  apply (proj2 (listen_once k e e' L)); [exact M|]. rewrite (bk_p _ _ BK). exact V.
Qed.
End PJob.
