(** * The life of a Monte Carlo job: files, messages, restarts (C89-C95) *)
From Coq Require Import ZArith List Bool String Reals Lra Lia.
From Verif Require Import Base Num NumF NumR RNG Momentum Complex Lattice Bundle IndexMap Weights Diagram Markov DiagramIO DiagramCheck
  Estimator WeightEstimator Gamma3 Monitor History Life PyDict Param ConfigPy Env
  P_Bundle P_WP P_Inv P_IO P_History P_Promises P_IOProm P_Float P_FloatTau P_Param P_ParamIO P_Env Job P_Monitor P_Job P_JobR
  Prop_Check Prop_Float Prop_IO Prop_Param Prop_Life.
Import ListNotations.
Open Scope string_scope.
Open Scope Z_scope.

(** ** C89 A job started from new, whatever sequence of Hop, Measure, PrintStatus,
    AdjustOrderReWeight, Save, calmly taken messages and restarts: the structural promises hold and
    every next action succeeds. The engine must survive being written as text. *)
Theorem C89_job_goes_on :
  forall (N : Num) (E : Type) (next : E -> Z * E) (show : E -> string) (read : string -> option E) (seedE : Z -> E)
    (strOf : @py N -> string) (pid : @py N),
  (forall x, read (show x) = Some x) ->
  forall e k s, job next show read seedE strOf pid e k s ->
  structural (e_cfg e) (e_d e) /\
  (forall n, exists e', envHop next n e = Ok e' /\ p_counter (e_p e') = p_counter (e_p e) + Z.max n 0 /\
     (p_counter (e_p e) + Z.max n 0 < 2 ^ 63 -> job next show read seedE strOf pid e' k s)) /\
  (exists e', envMeasure e = Ok e' /\ job next show read seedE strOf pid e' k s) /\
  (exists e', envPrint e = Ok e' /\ job next show read seedE strOf pid e' k s) /\
  (p_order (e_p e) < Z.of_nat (List.length (p_otr (e_p e))) -> exists e', envAdjust e = Ok e' /\ job next show read seedE strOf pid e' k s) /\
  (exists k', envSave show pid e k = Ok k' /\ job next show read seedE strOf pid e k' (Some e)).
Proof. exact @job_goes_on. Qed.
Print Assumptions C89_job_goes_on.
(** what [usable] in [job] asks of the parameters, in exact arithmetic and in doubles: no three-point
    functions, Order 1 to 9 with a factor for each order, two extents of which the first is at least
    2, positive numbers of sublattices and time bins with tables of less than 2^32 entries, and a
    positive (moderate) Beta *)
Theorem C89_usable_exact :
  forall (E : Type) (p : @para NumR E), fits p -> (0 < (p_beta p : R))%R -> usable p.
Proof. exact @usable_exact. Qed.
Print Assumptions C89_usable_exact.
Theorem C89_usable_double :
  forall (E : Type) (p : @para NumF E) b, fits p -> Fin (p_beta p) b -> moderate b -> usable p.
Proof. exact @usable_double. Qed.
Print Assumptions C89_usable_double.

(** *** The setup of the cases: a 2x2 lattice, two time bins, Order 3; the files as inlist.py and the
    Dyson process leave them, every array constant; engines that are words of text. *)
Definition exp {N : Num} (v : Z) (b : real) (r : string) : @para N string :=
  let o := rofZ 1 in mkPara v b 2 2 3 1 [2; 2] 0 0 1 0 r o o false o o [o; o; o; o] [o; o; o; o] 60 600 60 60.
Definition wtf {N : Num} (g w d : cplx) : @wtfile N :=
  mkWT ([2; 1; 2; 1; 4; 2], repeat g 32) ([4; 1; 4; 1; 4; 2], repeat w 128) ([4; 1; 4; 1; 4], repeat d 64) None None.
Definition showS (s : string) : string := s.
Definition readS (s : string) : option string := Some s.
Definition seedS (z : Z) : string := "".
Definition strS {N : Num} (x : @py N) : string := "".
Definition pidS {N : Num} : @py N := PInt 1.
Definition dk {N : Num} (p : @para N string) (w : @wtfile N) : @disk N :=
  mkDisk (FHas (toDict (dOf [("Para", toDict (paraToDict showS p))]))) FMissing (FHas w) FMissing FMissing
    (FHas (basis_file (p_beta p) (rofZ 1))) (FHas (basis_file (p_beta p) (rofZ 1))).
(** four characters for one word of the engine *)
Fixpoint word4 (n : nat) (s : string) (a : Z) : Z * string :=
  match n with O => (a, s) | S n => match s with EmptyString => (a, s) | String c s => word4 n s (256 * a + Z.of_nat (Ascii.nat_of_ascii c)) end end.
Definition nextS (s : string) : Z * string := word4 4 s 0.
Definition chr (z : Z) : Ascii.ascii := Ascii.ascii_of_nat (Z.to_nat (z mod 256)).
Fixpoint enc (l : list Z) : string :=
  match l with
  | [] => ""
  | z :: l => String (chr (z / 2 ^ 24)) (String (chr (z / 2 ^ 16)) (String (chr (z / 2 ^ 8)) (String (chr z) (enc l))))
  end.
Definition jobS {N : Num} := @job N string nextS showS readS seedS strS pidS.

Lemma exp_fits {N : Num} v b r : fits (@exp N v b r).
Proof. unfold fits. cbn. repeat split; try lia; repeat constructor; lia. Qed.
Lemma exp_ok {N : Num} v b r : - 2 ^ 31 <= v < 2 ^ 31 -> para_ok (@exp N v b r).
Proof. intros V. constructor; cbn; unfold is_int, is_uint, is_ll; try lia; repeat constructor; lia. Qed.
Definition ga {N : Num} (g : cplx) : @warray N := mkWA [2; 1; 2; 1; 4; 2] (repeat g 32).
Definition wa {N : Num} (g : cplx) : @warray N := mkWA [4; 1; 4; 1; 4; 2] (repeat g 128).
Definition wda {N : Num} (g : cplx) : @warray N := mkWA [4; 1; 4; 1; 4] (repeat g 64).
Lemma kit_load {N : Num} (p : @para N string) (k : @disk N) g w d : p_mtb p = 2 -> p_L p = [2; 2] -> p_nsub p = 1 ->
  (exists n, diskBasis (p_beta p) k = Ok n) -> loadGW p k (wtf g w d) = Ok (ga g, wa w, wda d).
Proof.
  intros E1 E2 E3 (n & Q). unfold loadGW. rewrite Q. cbn [obind].
  assert (S1 : shape (gmapOf p) = [2; 1; 2; 1; 4; 2]) by (unfold gmapOf, p_lat; rewrite E1, E2, E3; reflexivity).
  assert (S2 : shape (wmapOf p) = [4; 1; 4; 1; 4; 2]) by (unfold wmapOf, p_lat; rewrite E1, E2, E3; reflexivity).
  rewrite S1, S2. reflexivity.
Qed.
Lemma kit_basis {N : Num} (b : real) (k : @disk N) x y : rltb (e_abs (rsub b b)) eps10 = true ->
  k_fermi k = FHas (basis_file b x) -> k_bose k = FHas (basis_file b y) -> exists n, diskBasis b k = Ok n.
Proof. intros Q F B. unfold diskBasis. rewrite F, B. cbn [fmust obind]. rewrite basis_loads by exact Q. cbn [obind]. eauto. Qed.
Lemma kit_new {N : Num} v b r g w d : - 2 ^ 31 <= v < 2 ^ 31 -> rltb (e_abs (rsub b b)) eps10 = true -> usable (@exp N v b r) ->
  exists e k, envBuildNew readS seedS strS diagram_new (dk (exp v b r) (wtf g w d)) = Ok (e, k) /\ jobS e k None /\ EnvOk e /\ e_p e = exp v b r /\
    ends_settled (e_d e) /\ e_gs e = ga g /\ e_ws e = wa w /\ e_wd e = wda d /\
    k_weight k = FHas (wtf g w d) /\ k_fermi k = FHas (basis_file b (rofZ 1)) /\ k_bose k = FHas (basis_file b (rofZ 1)) /\ k_stat k = FMissing /\ k_msg k = FMissing.
Proof.
  intros V Q U. set (p := exp v b r) in *. set (k := dk p (wtf g w d)).
  assert (K0 : constructed (@diagram_new N)) by repeat split.
  destruct (load_dict (dOf [("Para", toDict (paraToDict showS p))])) as (m & L1 & L2).
  destruct (section_get "Para" m (paraToDict showS p)) as (pm & L3 & L4); [rewrite L2, dget_of; reflexivity|].
  pose proof (para_round showS readS seedS strS p pm (exp_ok v b r V) (fun _ => eq_refl) L4) as L5.
  change (no_seed p) with p in L5.
  assert (LG : loadGW p k (wtf g w d) = Ok (ga g, wa w, wda d)) by (apply kit_load; try reflexivity; apply (kit_basis _ _ (rofZ 1) (rofZ 1)); [exact Q|reflexivity|reflexivity]).
  destruct (envBuildNew_ok readS seedS strS diagram_new k _ m pm p (wtf g w d) _ _ _ K0 eq_refl L1 L3 L5 U (exp_ok v b r V) eq_refl LG) as (e & k' & B & K & E1 & E2 & E3 & E4 & BN & _).
  exists e, k'. split; [exact B|]. split.
  { apply (jb_new nextS showS readS seedS strS pidS diagram_new k e k'); [exact K0|exact B|rewrite E1; exact U|rewrite E1; cbn; lia]. }
  split; [exact K|]. split; [exact E1|].
  destruct (BuildNew_inv (e_cfg e) diagram_new (ok_cfg e K)) as (co & d1 & d' & _ & BN' & _ & _ & _ & _ & ND); [cbn [e_cfg cfgWith c_lat]; rewrite E1; cbn; lia|cbn [e_cfg cfgWith c_lat]; rewrite E1; cbn; auto|exact K0|].
  change (c_lat (e_cfg e)) with (p_lat (e_p e)) in BN'. rewrite E1 in BN'. rewrite BN in BN'. injection BN' as <-.
  split; [intros X; destruct (ND X) as [-> ->]; split; reflexivity|].
  split; [exact E2|]. split; [exact E3|]. split; [exact E4|].
  unfold envBuildNew in B. change (k_input k) with (FHas (toDict (dOf [("Para", toDict (paraToDict showS p))]))) in B. cbn [fmust obind] in B. rewrite L1 in B. cbn [obind] in B. rewrite L3 in B. cbn [obind] in B. rewrite L5 in B. cbn [obind] in B.
  change (k_weight k) with (FHas (wtf g w d)) in B. cbn [fmust obind] in B. rewrite LG in B. cbn [obind] in B.
  apply obind_ok in B as ([GG GW] & _ & B). apply obind_ok in B as ([eS eP] & _ & B). cbv zeta in B. apply obind_ok in B as (x1 & _ & B). apply obind_ok in B as (x2 & _ & B). apply obind_ok in B as (x3 & _ & B).
  injection B as _ <-. cbn. auto.
Qed.

Lemma usable_R v (b : R) r : (0 < b)%R -> usable (@exp NumR v b r).
Proof. intros H. apply usable_exact; [apply exp_fits|exact H]. Qed.
Lemma usable_F v (b : F64) x r : Fin b x -> moderate x -> usable (@exp NumF v b r).
Proof. intros F M. apply (usable_double _ x); [apply exp_fits|exact F|exact M]. Qed.
Lemma kit_basis_R (b : R) (k : @disk NumR) : k_fermi k = FHas (@basis_file NumR b 1%R) -> k_bose k = FHas (@basis_file NumR b 1%R) -> exists n, @diskBasis NumR b k = Ok n.
Proof. exact (kit_basis (N := NumR) b k 1%R 1%R (close_R b)). Qed.
Definition oneR : @cplx NumR := @mkC NumR 1%R 0%R.
(** after starting, 1000 steps, a measurement, Save and a restart *)
Example C89_case : (forall x, readS (showS x) = Some x) /\
  exists (e : @env NumR string) k s, jobS e k s /\ p_counter (e_p e) = 1000 /\ s <> None /\ p_order (e_p e) < Z.of_nat (List.length (p_otr (e_p e))).
Proof.
  split; [reflexivity|].
  destruct (kit_new (N := NumR) 1 (2 : R)%R "start" oneR oneR oneR ltac:(lia) (close_R 2) (usable_R 1 2 "start" ltac:(lra))) as (e & k & _ & J & _ & E1 & _ & _ & _ & _ & KW & KF & KB & _).
  destruct (C89_job_goes_on _ _ nextS showS readS seedS strS pidS (fun _ => eq_refl) e k None J) as (_ & H & _).
  destruct (H 1000) as (e1 & H1 & C1 & J1). rewrite E1 in C1, J1. specialize (J1 ltac:(cbn; lia)).
  assert (P1 : p_otr (e_p e1) = p_otr (e_p e) /\ p_order (e_p e1) = p_order (e_p e) /\ p_beta (e_p e1) = p_beta (e_p e) /\ p_mtb (e_p e1) = p_mtb (e_p e) /\ p_L (e_p e1) = p_L (e_p e) /\ p_nsub (e_p e1) = p_nsub (e_p e)).
  { unfold envHop in H1. apply obind_ok in H1 as ([u s1] & _ & H1). injection H1 as <-. repeat split. }
  destruct (C89_job_goes_on _ _ nextS showS readS seedS strS pidS (fun _ => eq_refl) e1 k None J1) as (_ & _ & (e2 & H2 & J2) & _).
  assert (P2 : e_p e2 = e_p e1) by (unfold envMeasure in H2; apply obind_ok in H2 as (m & _ & H2); injection H2 as <-; reflexivity).
  destruct (C89_job_goes_on _ _ nextS showS readS seedS strS pidS (fun _ => eq_refl) e2 k None J2) as (_ & _ & _ & _ & _ & (k2 & H3 & J3)).
  destruct (job_ok nextS showS readS seedS strS pidS (fun _ => eq_refl) e2 k None J2) as [[K2 _] _].
  rewrite (envSave_ok showS pidS e2 k K2) in H3. injection H3 as <-.
  destruct P1 as (P1 & P3 & P4 & P5 & P6 & P7).
  destruct (job_restart nextS showS readS seedS strS pidS (fun _ => eq_refl) e2 _ e2 diagram_new (wtf oneR oneR oneR) (ga oneR) (wa oneR) (wda oneR) J3 ltac:(repeat split) KW) as (e3 & L & J4 & BK & _).
  { apply kit_load; rewrite P2; rewrite ?P4, ?P5, ?P6, ?P7, E1; try reflexivity. apply kit_basis_R; [exact KF|exact KB]. }
  eexists e3, _, (Some e2). split; [exact J4|]. rewrite (bk_p _ _ BK). cbn [no_seed p_counter p_order p_otr]. rewrite P2, C1, P1, P3, E1. split; [reflexivity|]. split; [discriminate|]. cbn. lia.
Qed.
Example C89_exact_case : fits (@exp NumR 1 2%R "start") /\ (0 < 2)%R.
Proof. split; [apply exp_fits|lra]. Qed.
Example C89_double_case : fits (@exp NumF 1 (fz 2) "start") /\ Fin (fz 2) 2 /\ moderate 2.
Proof. split; [apply exp_fits|]. split; [apply (Fin_Zx 2); lia|exact two_moderate]. Qed.

(** ** C90 Restarting after any Save, whatever happened since, with weight and basis files that load:
    the saved parameters (Seed aside), engine and counter, the same diagram up to storage, the same
    accumulated estimates. Line weights are those of the weight file found then. *)
Theorem C90_restart_restores_saved_state :
  forall (N : Num) (E : Type) (next : E -> Z * E) (show : E -> string) (read : string -> option E) (seedE : Z -> E)
    (strOf : @py N -> string) (pid : @py N),
  (forall x, read (show x) = Some x) ->
  forall e k s d0 w gs ws wd, job next show read seedE strOf pid e k (Some s) -> constructed d0 ->
  k_weight k = FHas w -> loadGW (e_p s) k w = Ok (gs, ws, wd) ->
  exists e', envLoad read seedE strOf d0 k = Ok e' /\ job next show read seedE strOf pid e' k (Some s) /\
    e_p e' = no_seed (e_p s) /\ e_gs e' = gs /\ e_ws e' = ws /\ e_wd e' = wd /\
    (exists fv fg fw, same_diagram fv fg fw (e_d s) (e_d e') /\ order (e_d e') = Z.max 1 (order (e_d s)) /\
      (e_gs e' = e_gs s -> e_ws e' = e_ws s -> e_wd e' = e_wd s ->
       (forall g, bexist (gB (e_d s)) g = true -> g_W (e_d e') (fg g) = g_W (e_d s) g) /\
       (forall w, bexist (wB (e_d s)) w = true -> w_W (e_d e') (fw w) = w_W (e_d s) w))) /\
    weToDict (m_S (e_m e')) = weToDict (m_S (e_m s)) /\ weToDict (m_P (e_m e')) = weToDict (m_P (e_m s)) /\
    (forall i, 0 <= i <= p_order (e_p s) -> exists x x' y y', ebAt i (m_worm (e_m s)) = Ok x /\ ebAt i (m_worm (e_m e')) = Ok x' /\
       ebAt i (m_phy (e_m s)) = Ok y /\ ebAt i (m_phy (e_m e')) = Ok y' /\
       e_acc x' = e_acc x /\ e_norm x' = e_norm x /\ e_acc y' = e_acc y /\ e_norm y' = e_norm y) /\
    e_acc (m_sig (e_m e')) = e_acc (m_sig (e_m s)) /\ e_norm (m_sig (e_m e')) = e_norm (m_sig (e_m s)) /\
    e_acc (m_pol (e_m e')) = e_acc (m_pol (e_m s)) /\ e_norm (m_pol (e_m e')) = e_norm (m_pol (e_m s)).
Proof. exact @job_restart_full. Qed.
Print Assumptions C90_restart_restores_saved_state.
(** the same job as in C89 *)
Example C90_case : (forall x, readS (showS x) = Some x) /\ exists (e : @env NumR string) k s w gs ws wd, jobS e k (Some s) /\ constructed (@diagram_new NumR) /\
  p_counter (e_p s) = 1000 /\ p_counter (e_p e) = 1500 /\ k_weight k = FHas w /\ loadGW (e_p s) k w = Ok (gs, ws, wd).
Proof.
  split; [reflexivity|].
  destruct (kit_new (N := NumR) 1 (2 : R)%R "start" oneR oneR oneR ltac:(lia) (close_R 2) (usable_R 1 2 "start" ltac:(lra))) as (e & k & _ & J & _ & E1 & _ & _ & _ & _ & KW & KF & KB & _).
  destruct (C89_job_goes_on _ _ nextS showS readS seedS strS pidS (fun _ => eq_refl) e k None J) as (_ & H & _).
  destruct (H 1000) as (e1 & H1 & C1 & J1). rewrite E1 in C1, J1. specialize (J1 ltac:(cbn; lia)).
  assert (P1 : p_beta (e_p e1) = p_beta (e_p e) /\ p_mtb (e_p e1) = p_mtb (e_p e) /\ p_L (e_p e1) = p_L (e_p e) /\ p_nsub (e_p e1) = p_nsub (e_p e)).
  { unfold envHop in H1. apply obind_ok in H1 as ([u s1] & _ & H1). injection H1 as <-. repeat split. }
  destruct (C89_job_goes_on _ _ nextS showS readS seedS strS pidS (fun _ => eq_refl) e1 k None J1) as (_ & _ & _ & _ & _ & (k2 & H3 & J3)).
  destruct (job_ok nextS showS readS seedS strS pidS (fun _ => eq_refl) e1 k None J1) as [[K2 _] _].
  rewrite (envSave_ok showS pidS e1 k K2) in H3. injection H3 as <-.
  destruct (C89_job_goes_on _ _ nextS showS readS seedS strS pidS (fun _ => eq_refl) e1 _ (Some e1) J3) as (_ & H4 & _).
  destruct (H4 500) as (e2 & _ & C2 & J4). rewrite C1 in C2, J4. specialize (J4 ltac:(cbn; lia)).
  destruct P1 as (P4 & P5 & P6 & P7).
  eexists e2, _, e1, (wtf oneR oneR oneR), (ga oneR), (wa oneR), (wda oneR). split; [exact J4|]. split; [repeat split|]. split; [exact C1|]. split; [exact C2|]. split; [exact KW|].
  apply kit_load; rewrite ?P4, ?P5, ?P6, ?P7, E1; try reflexivity. apply kit_basis_R; [exact KF|exact KB].
Qed.

(** ** C91 What a newer message does, in exact arithmetic, when the weight and basis files load for the
    message's Beta, Beta is not lowered and the worm ends are settled: the diagram is kept, line
    weights are those of the new files, and the message is taken if and only if the two times on
    every delta line agree and no new line weight is below 1e-9 in modulus of real and imaginary part;
    otherwise the job ends. *)
Theorem C91_outcome_of_a_message :
  forall (E : Type) (next : E -> Z * E) (show : E -> string) (read : string -> option E) (seedE : Z -> E)
    (strOf : @py NumR -> string) (pid : @py NumR),
  (forall x, read (show x) = Some x) ->
  forall (e : @env NumR E) k s o ms w gs ws wd, job next show read seedE strOf pid e k s ->
  k_msg k = FHas o -> msgLoad o = Ok ms -> p_version (e_p e) < ms_version ms -> k_weight k = FHas w ->
  loadGW (updateWith ms (e_p e)) k w = Ok (gs, ws, wd) -> (0 < (p_beta (e_p e) : R))%R -> (p_beta (e_p e) <= ms_beta ms)%R -> rleb beta_min (p_beta (e_p e)) = true ->
  (0 < (ms_squeeze ms : R))%R -> ends_settled (e_d e) -> usable (updateWith ms (e_p e)) ->
  exists e', structural (e_cfg e') (e_d e') /\ e_p e' = updateWith ms (e_p e) /\ e_gs e' = gs /\ e_ws e' = ws /\ e_wd e' = wd /\
    same_diagram (fun v => v) (fun g => g) (fun w => w) (e_d e) (e_d e') /\ order (e_d e') = Z.max 1 (order (e_d e)) /\
    let d := e_d e' in
    let good := (forall w, bexist (wB d) w = true -> w_delta d w = true -> v_T d (w_ver d w IN) = v_T d (w_ver d w OUT)) /\
      (forall g, bexist (gB d) g = true -> ~ below (g_W d g)) /\ (forall w, bexist (wB d) w = true -> ~ below (w_W d w)) in
    (good -> envListen k e = Ok (true, e') /\ job next show read seedE strOf pid e' k s) /\ (~ good -> forall r, envListen k e <> Ok r).
Proof. exact @job_message. Qed.
Print Assumptions C91_outcome_of_a_message.
Definition send {N : Num} (k : @disk N) (ms : @message N) (w : @wtfile N) (b : real) : disk :=
  mkDisk (k_input k) (k_para k) (FHas w) (k_stat k) (FHas (toDict (msgToDict ms))) (FHas (basis_file b (rofZ 1))) (FHas (basis_file b (rofZ 1))).
(** right after the start; a message raising Beta from 2 to 3 *)
Example C91_case : (forall x, readS (showS x) = Some x) /\ exists (e : @env NumR string) k o ms w gs ws wd, jobS e k None /\
  k_msg k = FHas o /\ msgLoad o = Ok ms /\ p_version (e_p e) < ms_version ms /\ k_weight k = FHas w /\
  loadGW (updateWith ms (e_p e)) k w = Ok (gs, ws, wd) /\ (0 < (p_beta (e_p e) : R))%R /\ (p_beta (e_p e) < ms_beta ms)%R /\ rleb beta_min (p_beta (e_p e)) = true /\
  (0 < (ms_squeeze ms : R))%R /\ ends_settled (e_d e) /\ usable (updateWith ms (e_p e)).
Proof.
  split; [reflexivity|].
  destruct (kit_new (N := NumR) 1 (2 : R)%R "start" oneR oneR oneR ltac:(lia) (close_R 2) (usable_R 1 2 "start" ltac:(lra))) as (e & k & _ & J & _ & E1 & ES & _).
  set (ms := @mkMsg NumR 2 3%R 1%R). set (k' := send k ms (wtf oneR oneR oneR) (3 : R)%R).
  assert (U : usable (updateWith ms (e_p e))) by (rewrite E1; apply usable_exact; [apply (exp_fits (N := NumR) 2 3%R "start")|cbn; lra]).
  exists e, k', (toDict (msgToDict ms)), ms, (wtf oneR oneR oneR), (ga oneR), (wa oneR), (wda oneR).
  split; [eapply jb_files; [exact J|reflexivity|reflexivity]|]. split; [reflexivity|]. split; [apply msg_round; change (- 2 ^ 31 <= 2 < 2 ^ 31); lia|].
  rewrite E1 in *. split; [cbn; lia|]. split; [reflexivity|].
  split; [apply kit_load; try reflexivity; apply kit_basis_R; reflexivity|].
  split; [change (0 < 2)%R; lra|]. split; [change (2 < 3)%R; lra|]. split; [change (Rleb (1 / 4294967296) 2 = true); apply Rleb_spec; lra|]. split; [change (0 < 1)%R; lra|]. split; [exact ES|exact U].
Qed.
