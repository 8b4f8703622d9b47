(** What the parameters and files of a job mean for what it does *)
From Coq Require Import ZArith List Bool Arith Lia String Reals.
From Verif Require Import Base Num NumR RNG Complex Lattice Bundle IndexMap Weights Diagram Markov DiagramIO DiagramCheck History Life
  Estimator WeightEstimator Gamma3 Monitor PyDict Param ConfigPy Env Target
  P_RNG P_Bundle P_IndexMap P_WP P_Inv P_Rel P_Hop P_Fix P_IO P_Sem1 P_History P_Promises P_IOProm P_Estimator P_WeightEst P_Monitor P_Life P_Param P_ParamIO P_Env Job P_Job P_Loop P_Weight P_Step P_MH JobSpec.
Import ListNotations.
Open Scope string_scope.
Open Scope Z_scope.

Section PEnv2.
Context {N : Num} {E : Type} (next : E -> Z * E).
Context (show : E -> string) (read : string -> option E) (seedE : Z -> E) (strOf : @py N -> string) (pid : @py N).
Notation para := (@para N E).
Notation env := (@env N E).

(** *** what StartFromNew and Load read *)
Lemma new_reads d0 k (e : env) k' : envBuildNew read seedE strOf d0 k = Ok (e, k') ->
  exists o m pm w GG GW F, k_input k = FHas o /\ dLoad o [] = Ok m /\ dGet cvDict "Para" m = Ok pm /\ paraFromDict read seedE strOf pm = Ok (e_p e) /\
    k_weight k = FHas w /\ loadGW (e_p e) k w = Ok (e_gs e, e_ws e, e_wd e) /\
    BuildNew (tabOf (e_p e) (e_gs e) (e_ws e) (e_wd e) GG GW) (p_lat (e_p e)) d0 = Ok (e_d e) /\ ToDict (e_d e) = Ok F /\
    k' = s_k_para k (FHas (toDict (dset "Config" (toDict (confToPy F)) m))).
Proof.
  intros H. unfold envBuildNew in H. apply obind_ok in H as (o & H1 & H). apply obind_ok in H as (m & H2 & H). apply obind_ok in H as (pm & H3 & H). apply obind_ok in H as (p & H4 & H).
  apply obind_ok in H as (w & H5 & H). apply obind_ok in H as ([[gs ws] wd] & H6 & H). apply obind_ok in H as ([GG GW] & H7 & H). apply obind_ok in H as ([eS eP] & H8 & H). cbv zeta in H.
  apply obind_ok in H as (d & H9 & H). apply obind_ok in H as (mn & H10 & H). apply obind_ok in H as (F & H11 & H). injection H as <- <-.
  destruct (k_input k) as [| |o'] eqn:KI; try discriminate. injection H1 as ->. destruct (k_weight k) as [| |w'] eqn:KW; try discriminate. injection H5 as ->.
  exists o, m, pm, w, GG, GW, F. repeat (split; [first [reflexivity|assumption]|]). reflexivity.
Qed.
Lemma load_reads d0 k (e : env) : envLoad read seedE strOf d0 k = Ok e ->
  exists o m pm w s GG GW, (k_para k = FHas o \/ k_para k = FMissing /\ k_input k = FHas o) /\ dLoad o [] = Ok m /\ dGet cvDict "Para" m = Ok pm /\ paraFromDict read seedE strOf pm = Ok (e_p e) /\
    k_weight k = FHas w /\ loadGW (e_p e) k w = Ok (e_gs e, e_ws e, e_wd e) /\ k_stat k = FHas s /\
    let T := tabOf (e_p e) (e_gs e) (e_ws e) (e_wd e) GG GW in
    (exists eS eP, loadSP (e_p e) k s = Ok (eS, eP) /\ monFromDict (cfgWith (e_p e) T) (sf_mon s) eS eP GG GW = Ok (e_m e)) /\
    match k_para k with
    | FHas _ => exists cm F, dGet cvDict "Config" m = Ok cm /\ confOfPy cm = Ok F /\ FromDict4 T F d0 = Ok (e_d e)
    | _ => BuildNew T (p_lat (e_p e)) d0 = Ok (e_d e)
    end.
Proof.
  unfold envLoad. intros H. apply obind_ok in H as (f & FP & H). apply obind_ok in H as (o & HO & H). apply obind_ok in H as (m & H2 & H). apply obind_ok in H as (pm & H3 & H). apply obind_ok in H as (p & H4 & H).
  apply obind_ok in H as (w & W & H). apply obind_ok in H as (s & S & H). apply obind_ok in H as ([[gs ws] wd] & LG & H). apply obind_ok in H as ([eS eP] & LS & H). apply obind_ok in H as ([GG GW] & _ & H). cbv zeta in H.
  apply obind_ok in H as (d & HD & H). apply obind_ok in H as (mn & HM & H). injection H as <-. cbn [e_p e_gs e_ws e_wd e_d e_m].
  destruct (k_stat k) as [| |s'] eqn:KS; try discriminate S. injection S as ->. destruct (k_weight k) as [| |w'] eqn:KW; try discriminate W. injection W as ->.
  exists o, m, pm, w, s, GG, GW. split; [|do 6 (split; [first [reflexivity|assumption]|])].
  - destruct (k_para k); [|discriminate|]; injection FP as <-; [right|left]; [split; [reflexivity|]|injection HO as ->; reflexivity]. destruct (k_input k); try discriminate HO. injection HO as ->. reflexivity.
  - cbv zeta. split; [eauto|]. destruct (k_para k); [|discriminate|]; injection FP as <-; [exact HD|].
    apply obind_ok in HD as (cm & C1 & HD). apply obind_ok in HD as (F & C2 & HD). eauto.
Qed.

(** *** C102: the weights in use are those of the weight file *)
Lemma waLoad_data shp data a b : waLoad shp data a = Ok b -> wa_data b = firstn (List.length (wa_data a)) data /\ (List.length (wa_data a) <= List.length data)%nat.
Proof. unfold waLoad. intros H. apply obind_ok in H as (x & _ & H). destruct x; [|discriminate]. destruct (Nat.ltb_spec (List.length data) (List.length (wa_data a))); [discriminate|]. injection H as <-. auto. Qed.
Lemma firstn_entry {A} n (l : list A) : (n <= List.length l)%nat -> forall i, (i < List.length (firstn n l))%nat -> nth_error (firstn n l) i = nth_error l i.
Proof.
  intros L i H. rewrite <- (firstn_skipn n l) at 2. symmetry. now apply nth_error_app1.
Qed.
Lemma loadGW_data (p : para) k w (e : env) : loadGW p k w = Ok (e_gs e, e_ws e, e_wd e) -> holds e w.
Proof.
  unfold loadGW. intros H. apply obind_ok in H as (n & _ & H). apply obind_ok in H as (a & A & H). apply obind_ok in H as (b & B & H). apply obind_ok in H as (c & C & H). injection H as -> -> ->.
  apply waLoad_data in A as [A A']. apply waLoad_data in B as [B B']. apply waLoad_data in C as [C C']. unfold holds. rewrite A, B, C. split; [|split]; apply firstn_entry; assumption.
Qed.
Theorem new_holds d0 k (e : env) k' : envBuildNew read seedE strOf d0 k = Ok (e, k') -> exists w, k_weight k = FHas w /\ holds e w.
Proof. intros H. destruct (new_reads _ _ _ _ H) as (o & m & pm & w & GG & GW & F & _ & _ & _ & _ & W & L & _). exists w. split; [exact W|exact (loadGW_data _ _ _ _ L)]. Qed.
Theorem load_holds d0 k (e : env) : envLoad read seedE strOf d0 k = Ok e -> exists w, k_weight k = FHas w /\ holds e w.
Proof. intros H. destruct (load_reads _ _ _ H) as (o & m & pm & w & s & GG & GW & _ & _ & _ & _ & W & L & _). exists w. split; [exact W|exact (loadGW_data _ _ _ _ L)]. Qed.
Theorem listen_holds k (e e' : env) : envListen k e = Ok (true, e') -> exists w, k_weight k = FHas w /\ holds e' w.
Proof. intros H. destruct (listen_true _ _ _ H) as (o & ms & w & gs & ws & wd & _ & _ & _ & W & L & _ & _ & <- & <- & <- & _). exists w. split; [exact W|exact (loadGW_data _ _ _ _ L)]. Qed.

Lemma smooth_place (p : para) f nsp a b r1 r2 t1 t2 i : imap_ok (mkIM (p_beta p) (p_mtb p) (p_lat p) f nsp) -> args_ok (mkIM (p_beta p) (p_mtb p) (p_lat p) f nsp) a b r1 r2 ->
  0 <= binOf p t1 t2 < p_mtb p -> GetIndexSmooth (mkIM (p_beta p) (p_mtb p) (p_lat p) f nsp) a b r1 r2 t1 t2 = Ok i ->
  i = placeT p nsp a b r1 r2 t1 t2 /\ 0 <= i < nsp * SublatVol (p_lat p) * nsp * SublatVol (p_lat p) * Vol (p_lat p) * p_mtb p.
Proof.
  intros K A T H. destruct (GetIndexSmooth_ok _ a b r1 r2 t1 t2 K A T) as [Q R]. rewrite H in Q. injection Q as Q. cbn [im_lat im_maxtau im_nsp] in Q. split; [|rewrite Q; exact R].
  rewrite Q. unfold placeT, place. change (TauIndex (mkIM (p_beta p) (p_mtb p) (p_lat p) f nsp) t1 t2) with (binOf p t1 t2). change (SublatVol (p_lat p)) with (p_nsub p). ring.
Qed.
Lemma delta_place (p : para) f nsp a b r1 r2 i : imap_ok (mkIM (p_beta p) (p_mtb p) (p_lat p) f nsp) -> args_ok (mkIM (p_beta p) (p_mtb p) (p_lat p) f nsp) a b r1 r2 ->
  GetIndexDelta (mkIM (p_beta p) (p_mtb p) (p_lat p) f nsp) a b r1 r2 = Ok i ->
  i = place p nsp a b r1 r2 /\ 0 <= i < nsp * SublatVol (p_lat p) * nsp * SublatVol (p_lat p) * Vol (p_lat p).
Proof.
  intros K A H. destruct (GetIndexDelta_ok _ a b r1 r2 K A) as [Q R]. rewrite H in Q. injection Q as Q. cbn [im_lat im_maxtau im_nsp] in Q. split; [|rewrite Q; exact R].
  rewrite Q. unfold place. change (SublatVol (p_lat p)) with (p_nsub p). ring.
Qed.
(** the arrays have as many entries as the index maps count *)
Definition sized (e : env) : Prop :=
  Z.of_nat (List.length (wa_data (e_gs e))) = tabsize (gmapOf (e_p e)) /\ Z.of_nat (List.length (wa_data (e_ws e))) = tabsize (wmapOf (e_p e)) /\
  Z.of_nat (List.length (wa_data (e_wd e))) = tabsizeD (wmapOf (e_p e)).
Lemma waLoad_len shp data s a : Forall (fun x => 0 < x) s -> prodz s < 2 ^ 32 -> waLoad shp data (waAllocate s) = Ok a -> Z.of_nat (List.length (wa_data a)) = prodz s.
Proof.
  intros P L H. apply waLoad_data in H as [-> H]. rewrite firstn_length, Nat.min_l by exact H. cbn [waAllocate wa_data]. rewrite repeat_length, (prod32_spec s P L).
  apply Z2Nat.id. pose proof (prodz_pos s P). lia.
Qed.
Lemma loadGW_len (p : para) k w gs ws wd : usable p -> loadGW p k w = Ok (gs, ws, wd) ->
  Z.of_nat (List.length (wa_data gs)) = tabsize (gmapOf p) /\ Z.of_nat (List.length (wa_data ws)) = tabsize (wmapOf p) /\ Z.of_nat (List.length (wa_data wd)) = tabsizeD (wmapOf p).
Proof.
  intros (_ & _ & (G & _) & (W & _) & _) H. unfold loadGW in H. apply obind_ok in H as (n & _ & H). apply obind_ok in H as (a & A & H). apply obind_ok in H as (b & B & H). apply obind_ok in H as (c & C & H). injection H as <- <- <-.
  assert (ET : forall m : imap, prodz (shape m) = tabsize m) by (intros m; unfold shape, tabsize, prodz; cbn [fold_right]; ring).
  assert (ED : prodz (firstn 5 (shape (wmapOf p))) = tabsizeD (wmapOf p)) by (unfold shape, tabsizeD, prodz; cbn [fold_right firstn]; ring).
  pose proof (mo_fit _ G) as FG. pose proof (mo_fit _ W) as FW. pose proof (shape_pos _ W) as SW. pose proof (mo_tau _ W) as TW.
  assert (SD : Forall (fun x => 0 < x) (firstn 5 (shape (wmapOf p)))). { apply Forall_forall. intros x I. eapply Forall_forall in SW; [exact SW|]. rewrite <- (firstn_skipn 5 (shape (wmapOf p))). apply in_or_app. now left. }
  assert (LD : tabsizeD (wmapOf p) <= tabsize (wmapOf p)). { pose proof (prodz_pos _ SD) as Q. rewrite ED in Q. change (tabsize (wmapOf p)) with (tabsizeD (wmapOf p) * im_maxtau (wmapOf p)). nia. }
  rewrite <- ED, <- (ET (gmapOf p)), <- (ET (wmapOf p)). split; [|split].
  - apply (waLoad_len _ _ _ _ (shape_pos _ G)) in A; [exact A|]. rewrite ET. exact FG.
  - apply (waLoad_len _ _ _ _ SW) in B; [exact B|]. rewrite ET. exact FW.
  - apply (waLoad_len _ _ _ _ SD) in C; [exact C|]. rewrite ED. lia.
Qed.
Notation job := (job next show read seedE strOf pid).
Lemma job_sized (RS : forall x, read (show x) = Some x) e k s : job e k s -> sized e.
Proof.
  intros H. pose proof (job_ok next show read seedE strOf pid RS e k s H) as [[K _] _].
  induction H as [d0 k0 e k D0 B U L|n e k s e' H IH HH HC|e k s e' H IH HH|e k s e' H IH HH|e k s e' H IH HO HH|e k s k' H IH HH
    |e k s k' H IH H1 H2|e k s b e' H IH HH HB|e k s d0 e' H IH D0 HH];
    try (pose proof (job_ok next show read seedE strOf pid RS _ _ _ H) as [[K0 _] _]; specialize (IH K0)).
  - destruct (new_reads _ _ _ _ B) as (o & m & pm & w & GG & GW & F & _ & _ & _ & _ & W & LG & _). exact (loadGW_len _ _ _ _ _ _ U LG).
  - unfold envHop in HH. apply obind_ok in HH as ([u s'] & _ & HH). injection HH as <-. exact IH.
  - unfold envMeasure in HH. apply obind_ok in HH as (m & _ & HH). injection HH as <-. exact IH.
  - unfold envPrint in HH. apply obind_ok in HH as (c & _ & HH). injection HH as <-. exact IH.
  - unfold envAdjust in HH. apply obind_ok in HH as ([b c] & _ & HH). injection HH as <-. exact IH.
  - exact IH.
  - exact IH.
  - destruct b; [|apply listen_false in HH as ->; exact IH].
    destruct (listen_true _ _ _ HH) as (o & ms & w & gs & ws & wd & _ & _ & _ & W & LG & EP & _ & <- & <- & <- & _). rewrite <- EP in LG. exact (loadGW_len _ _ _ _ _ _ (eo_u _ K) LG).
  - destruct (load_reads _ _ _ HH) as (o & m & pm & w & s2 & GG & GW & _ & _ & _ & _ & W & LG & _). exact (loadGW_len _ _ _ _ _ _ (eo_u _ K) LG).
Qed.
Lemma arr_entry (a : warray) n i : Z.of_nat (List.length (wa_data a)) = n -> 0 <= i < n -> nth_error (wa_data a) (Z.to_nat i) = Some (arr a i).
Proof. intros L H. unfold arr. apply nth_error_nth'. lia. Qed.
Lemma env_selected (e : env) : EnvOk e -> sized e -> selected e.
Proof.
  intros K (S1 & S2 & S3).
  pose proof (eo_i e K) as HI. pose proof (ok_cfg e K) as C. pose proof (ok_gamma e K) as G0. unfold selected. split.
  - intros g Hg. apply live_exist in Hg. cbv zeta. pose proof (i_sG _ _ HI g Hg) as S. rewrite (f_gg0 HI g Hg G0) in S. unfold GWeight in S. apply obind_ok in S as (i & EI & S).
    destruct (g_meas (e_d e) g); [injection S as <-; reflexivity|]. injection S as S.
    pose proof (f_gv HI g IN Hg) as V1. pose proof (f_gv HI g OUT Hg) as V2.
    assert (A : args_ok (gmapOf (e_p e)) (spinZ (v_S (e_d e) (g_ver (e_d e) g IN) OUT)) (spinZ (v_S (e_d e) (g_ver (e_d e) g OUT) IN)) (v_R (e_d e) (g_ver (e_d e) g IN)) (v_R (e_d e) (g_ver (e_d e) g OUT))).
    { split; [|split; [|split]]; [| |exact (f_site HI _ V1)|exact (f_site HI _ V2)]; cbn [gmapOf im_nsp]; match goal with |- context [spinZ ?x] => destruct x end; cbn; lia. }
    destruct (smooth_place (e_p e) (-1) 2 _ _ _ _ _ _ i (co_gmap _ C) A (co_gtau _ C _ _ (f_tau HI _ V1) (f_tau HI _ V2)) EI) as [Q R].
    rewrite <- Q. eexists. split; [exact (arr_entry _ _ _ S1 R)|]. rewrite <- S. reflexivity.
  - intros w Hw. apply live_exist in Hw. cbv zeta. pose proof (i_sW _ _ HI w Hw) as S. rewrite (f_ww0 HI w Hw G0) in S. unfold WWeight in S.
    pose proof (f_delta HI w Hw) as DM. pose proof (f_wv HI w IN Hw) as V1. pose proof (f_wv HI w OUT Hw) as V2.
    assert (EP : forall v, spin4 (if w_worm (e_d e) w then upup else v_S (e_d e) v) = pairOf (w_worm (e_d e) w) (v_S (e_d e) v)) by (intros v; destruct (w_worm (e_d e) w); reflexivity).
    rewrite !EP in S.
    assert (A : args_ok (wmapOf (e_p e)) (pairOf (w_worm (e_d e) w) (v_S (e_d e) (w_ver (e_d e) w IN))) (pairOf (w_worm (e_d e) w) (v_S (e_d e) (w_ver (e_d e) w OUT))) (v_R (e_d e) (w_ver (e_d e) w IN)) (v_R (e_d e) (w_ver (e_d e) w OUT))).
    { split; [|split; [|split]]; [| |exact (f_site HI _ V1)|exact (f_site HI _ V2)]; cbn [wmapOf im_nsp]; rewrite <- EP; apply spin4_range. }
    destruct (w_delta (e_d e) w).
    + rewrite andb_true_r in DM. rewrite DM. apply obind_ok in S as (i & EI & S). injection S as <-.
      destruct (delta_place (e_p e) 1 4 _ _ _ _ i (co_wmap _ C) A EI) as [Q R]. rewrite <- Q. exact (arr_entry _ _ _ S3 R).
    + apply obind_ok in S as (i & EI & S). destruct (w_meas (e_d e) w); injection S as <-; [reflexivity|].
      destruct (smooth_place (e_p e) 1 4 _ _ _ _ _ _ i (co_wmap _ C) A (co_wtau _ C _ _ (f_tau HI _ V1) (f_tau HI _ V2)) EI) as [Q R]. rewrite <- Q. exact (arr_entry _ _ _ S2 R).
Qed.
Theorem job_selected (RS : forall x, read (show x) = Some x) e k s : job e k s -> selected e.
Proof. intros J. exact (env_selected e (proj1 (proj1 (job_ok next show read seedE strOf pid RS e k s J))) (job_sized RS e k s J)). Qed.

(** *** C104, C105: the statistics file outlives the parameter file *)
Lemma restored_spec (a b : ebundle) n : restored a b n n -> forall i, 0 <= i <= Z.of_nat n -> exists x x', ebAt i a = Ok x /\ ebAt i b = Ok x' /\ e_acc x' = e_acc x /\ e_norm x' = e_norm x.
Proof.
  intros R i Hi. specialize (R (Z.to_nat i) ltac:(lia)). rewrite Z2Nat.id in R by lia. destruct R as (x' & X' & R). destruct (Nat.leb_spec (Z.to_nat i) n); [|lia].
  destruct R as (x & X & A1 & A2). exists x, x'. auto.
Qed.
Lemma stats_load (s : env) (p : para) k T sf : EnvOk s -> usable p -> same_grid (e_p s) p -> (exists n, diskBasis (p_beta p) k = Ok n) -> gmap T = gmapOf p -> wmap T = wmapOf p ->
  k_stat (saved show pid s k) = FHas sf ->
  exists eS eP m, loadSP p k sf = Ok (eS, eP) /\ monFromDict (cfgWith p T) (sf_mon sf) eS eP PWild PWild = Ok m /\ kept_stats (p_order p) (e_m s) m.
Proof.
  intros K U (G1 & G2 & G3 & G4) LB T1 T2 Q. cbn [saved s_k_stat k_stat] in Q. injection Q as <-. destruct (eo_m s K) as [M1 M2 M3 M4 M5 M6].
  set (sf := mkSF _ _ _ _ _).
  assert (EL : p_lat p = p_lat (e_p s)) by (unfold p_lat; congruence).
  assert (W3 : WEok (gmapOf p) (p_order p) (m_S (e_m s))). { rewrite G1. eapply WEok_beta; [| | |exact M3]; cbn; congruence. }
  assert (W4 : WEok (wmapOf p) (p_order p) (m_P (e_m s))). { rewrite G1. eapply WEok_beta; [| | |exact M4]; cbn; congruence. }
  destruct (loadSP_ok p k sf U LB (m_S (e_m s)) (m_P (e_m s)) W3 W4 eq_refl eq_refl) as (eS & eP & L & S1 & S2 & S3 & S4 & _ & _).
  pose proof (co_order _ (proj2 (proj2 (proj2 (proj2 U))) T T1 T2)) as OO.
  assert (NM : named (cfgWith p T) (e_m s)). { unfold named. cbn [cfgWith c_order]. rewrite G1. exact (eo_n s K). }
  destruct (mon_reload (cfgWith p T) (e_m s) eS eP PWild PWild OO NM (eo_h s K) (proj1 U)) as (m & LM & R1 & R2 & R3 & R4).
  assert (EM : sf_mon sf = monToDict (cfgWith p T) (e_m s)).
  { cbn [sf sf_mon]. unfold monToDict. cbn [cfgWith c_gamma3 e_cfg]. now rewrite (proj1 U), (proj1 (eo_u s K)). }
  exists eS, eP, m. split; [exact L|]. rewrite EM. split; [exact LM|]. destruct (fromDict_shape _ _ _ _ _ _ _ OO LM) as (_ & _ & B3 & B4 & _).
  split; [rewrite B3; exact S3|]. split; [rewrite B4; exact S4|]. cbn [cfgWith c_order] in R1, R2. split; [|destruct R3, R4; auto].
  cbn [cfgWith c_order] in OO. intros i Hi. destruct (restored_spec _ _ _ R1 i ltac:(lia)) as (x & x' & X1 & X2 & X3 & X4). destruct (restored_spec _ _ _ R2 i ltac:(lia)) as (y & y' & Y1 & Y2 & Y3 & Y4).
  exists x, x', y, y'. auto 10.
Qed.
Theorem load_without_para (RS : forall x, read (show x) = Some x) e1 k1 s d0 k (e : env) k' : job e1 k1 (Some s) -> constructed d0 ->
  k_para k = FMissing -> k_stat k = k_stat k1 -> envBuildNew read seedE strOf d0 k = Ok (e, k') -> usable (e_p e) -> same_grid (e_p s) (e_p e) ->
  exists e', envLoad read seedE strOf d0 k = Ok e' /\ e_p e' = e_p e /\ e_gs e' = e_gs e /\ e_ws e' = e_ws e /\ e_wd e' = e_wd e /\ e_d e' = e_d e /\ kept_stats (p_order (e_p e)) (e_m s) (e_m e').
Proof.
  intros J D0 KP KS B U SG. destruct (job_ok next show read seedE strOf pid RS _ _ _ J) as [_ A]. destruct (A s eq_refl) as ((K & _) & _ & A4).
  destruct (new_reads _ _ _ _ B) as (o & m & pm & w & GG & GW & F & H1 & H2 & H3 & H4 & H5 & H6 & H7 & _).
  set (T := tabOf (e_p e) (e_gs e) (e_ws e) (e_wd e) PWild PWild).
  assert (A5 : exists sf, k_stat (saved show pid s k) = FHas sf /\ k_stat k = FHas sf) by (rewrite KS, A4; cbn [saved s_k_stat k_stat]; eauto). destruct A5 as (sf & A5 & A6).
  destruct (stats_load s (e_p e) k T sf K U SG (loadGW_basis _ _ _ _ H6) eq_refl eq_refl A5) as (eS & eP & mn & L & LM & KM).
  unfold envLoad. rewrite KP. cbn [ftry obind]. rewrite H1. cbn [fmust obind]. rewrite H2. cbn [obind]. rewrite H3. cbn [obind]. rewrite H4. cbn [obind]. rewrite H5. cbn [fmust obind]. rewrite A6. cbn [fmust obind]. rewrite H6. cbn [obind]. rewrite L. cbn [obind].
  rewrite (proj1 U). cbn [obind]. fold T. rewrite (tab_none _ _ _ _ GG GW PWild PWild (proj1 U)) in H7. fold T in H7. rewrite H7. cbn [obind]. rewrite LM. cbn [obind]. eexists. split; [reflexivity|]. auto 10.
Qed.
Theorem new_then_load (RS : forall x, read (show x) = Some x) e1 k1 s d0 d1 k (e : env) k' : job e1 k1 (Some s) -> constructed d0 -> constructed d1 ->
  k_stat k = k_stat k1 -> envBuildNew read seedE strOf d0 k = Ok (e, k') -> usable (e_p e) -> Z.of_nat (List.length (p_orw (e_p e))) < 2 ^ 63 -> same_grid (e_p s) (e_p e) ->
  exists e', envLoad read seedE strOf d1 k' = Ok e' /\ e_p e' = e_p e /\ e_gs e' = e_gs e /\ e_ws e' = e_ws e /\ e_wd e' = e_wd e /\
    (exists fv fg fw, same_diagram fv fg fw (e_d e) (e_d e') /\ order (e_d e') = order (e_d e) /\
      (forall g, bexist (gB (e_d e)) g = true -> g_W (e_d e') (fg g) = g_W (e_d e) g) /\
      (forall w, bexist (wB (e_d e)) w = true -> w_W (e_d e') (fw w) = w_W (e_d e) w)) /\
    kept_stats (p_order (e_p e)) (e_m s) (e_m e').
Proof.
  intros J D0 D1 KS B U LN SG. destruct (job_ok next show read seedE strOf pid RS _ _ _ J) as [_ A]. destruct (A s eq_refl) as ((K & _) & _ & A4).
  destruct (envBuildNew_inv read seedE strOf d0 k e k' D0 B U LN) as [KE CN]. destruct (envBuildNew_fresh read seedE strOf d0 k e k' D0 B U) as (_ & O1 & _).
  destruct (new_reads _ _ _ _ B) as (o & m & pm & w & GG & GW & F & H1 & H2 & H3 & H4 & H5 & H6 & H7 & H8 & H9).
  set (T := tabOf (e_p e) (e_gs e) (e_ws e) (e_wd e) PWild PWild).
  assert (A5 : exists sf, k_stat (saved show pid s k) = FHas sf /\ k_stat k = FHas sf) by (rewrite KS, A4; cbn [saved s_k_stat k_stat]; eauto). destruct A5 as (sf & A5 & A6).
  destruct (stats_load s (e_p e) k T sf K U SG (loadGW_basis _ _ _ _ H6) eq_refl eq_refl A5) as (eS & eP & mn & L & LM & KM).
  assert (CE : e_tab e = T) by (apply tab_none; exact (proj1 U)).
  assert (CO : cfg_ok (cfgWith (e_p e) T)) by (apply U; reflexivity). pose proof (eo_i e KE) as HI.
  rewrite (ToDict_spec _ _ (Inv_Pre _ _ HI)) in H8. injection H8 as <-.
  unfold envLoad. rewrite H9. cbn [s_k_para k_para ftry obind].
  match goal with |- context [dLoad (toDict ?m) []] => destruct (load_dict m) as (m' & -> & M) end. cbn [obind].
  assert (PM : dGet cvDict "Para" m' = Ok pm). { rewrite <- H3. unfold dGet. rewrite M, dget_set. reflexivity. }
  rewrite PM. cbn [obind]. rewrite H4. cbn [obind k_weight k_stat s_k_para]. rewrite H5. cbn [fmust obind]. rewrite A6. cbn [fmust obind].
  match goal with |- context [loadGW (e_p e) ?k2 w] => change (loadGW (e_p e) k2 w) with (loadGW (e_p e) k w); change (loadSP (e_p e) k2 sf) with (loadSP (e_p e) k sf) end.
  rewrite H6. cbn [obind]. rewrite L. cbn [obind]. rewrite (proj1 U). cbn [obind]. fold T.
  destruct (section_get "Config" m' (confToPy (tconf (e_d e)))) as (cm & -> & CM); [rewrite M, dget_set; reflexivity|]. cbn [obind].
  rewrite (conf_round (tconf (e_d e)) cm); [|apply (tconf_fits (e_cfg e)); [exact (small_ok _ (para_counter _ (eo_p e KE) CN))|exact HI]|exact CM]. cbn [obind].
  set (c := cfgWith (e_p e) T) in *.
  destruct (load_inv c (e_d e) d1 CO (Pre_tab (e_cfg e) c _ eq_refl eq_refl eq_refl (Inv_Pre _ _ HI)) D1) as (d2 & d' & LD & Y & FX & HI' & G0 & _).
  change (c_tab c) with T in LD. rewrite LD. cbn [obind]. rewrite LM. cbn [obind]. eexists. split; [reflexivity|]. do 4 (split; [reflexivity|]). split; [|exact KM].
  destruct (copy_same2 (e_cfg e) c _ _ _ HI Y FX HI') as (SD & OD & SW). cbn [e_d]. do 3 eexists. split; [exact SD|]. split; [rewrite OD, O1; reflexivity|].
  apply SW; [symmetry; exact CE|exact (ok_gamma e KE)|exact G0].
Qed.

(** *** C107: what the steps of the main loop leave alone *)
Theorem hop_frame n (e e' : env) : envHop next n e = Ok e' -> same_setup (e_p e) (e_p e') /\ same_factors (e_p e) (e_p e') /\ same_weights e e' /\ e_m e' = e_m e.
Proof. unfold envHop. intros H. apply obind_ok in H as ([u s] & _ & H). injection H as <-. repeat split. Qed.
Theorem measure_frame (e e' : env) : envMeasure e = Ok e' -> e_p e' = e_p e /\ same_weights e e' /\ e_d e' = e_d e /\ e_prop e' = e_prop e /\ e_accs e' = e_accs e.
Proof. unfold envMeasure. intros H. apply obind_ok in H as (m & _ & H). injection H as <-. repeat split. Qed.
Theorem print_frame (e e' : env) : envPrint e = Ok e' ->
  same_setup (e_p e) (e_p e') /\ same_weights e e' /\ e_d e' = e_d e /\ e_m e' = e_m e /\ p_rng (e_p e') = p_rng (e_p e) /\ p_counter (e_p e') = p_counter (e_p e) /\
  p_orw (e_p e') = p_orw (e_p e) /\ p_pr (e_p e') = p_pr (e_p e) /\ p_ggr (e_p e') = p_ggr (e_p e) /\ p_gwr (e_p e') = p_gwr (e_p e).
Proof.
  unfold envPrint. intros H. apply obind_ok in H as (c & P & H). injection H as <-. unfold monPrint in P. apply obind_ok in P as (a & _ & P). apply obind_ok in P as (b & _ & P). apply obind_ok in P as ([x y] & _ & P). injection P as <-.
  repeat split.
Qed.
Theorem adjust_frame (e e' : env) : envAdjust e = Ok e' ->
  same_setup (e_p e) (e_p e') /\ same_weights e e' /\ e_d e' = e_d e /\ e_m e' = e_m e /\ p_rng (e_p e') = p_rng (e_p e) /\ p_counter (e_p e') = p_counter (e_p e) /\
  (p_g3 (e_p e) = false -> p_ggr (e_p e') = p_ggr (e_p e) /\ p_gwr (e_p e') = p_gwr (e_p e)) /\
  exists b c, monAdjust (e_cfg e) (p_otr (e_p e)) (e_m e) = Ok (b, c) /\
    p_orw (e_p e') = c_orw c /\ p_wsr (e_p e') = c_wsr c /\ p_pr (e_p e') = c_pr c /\ p_ggr (e_p e') = c_ggr c /\ p_gwr (e_p e') = c_gwr c.
Proof.
  unfold envAdjust. intros H. apply obind_ok in H as ([b c] & A & H). injection H as <-. do 6 (split; [repeat split|]). split; [|exists b, c; repeat (split; [first [exact A|reflexivity]|]); reflexivity].
  intros G. cbn [withFactors e_p p_ggr p_gwr]. unfold monAdjust in A. apply obind_ok in A as (few & _ & A). destruct few; [injection A as _ <-; split; reflexivity|].
  destruct (rltb _ _); [injection A as _ <-; split; reflexivity|]. destruct (_ || _); [injection A as _ <-; split; reflexivity|]. change (c_gamma3 (e_cfg e)) with (p_g3 (e_p e)) in A. rewrite G in A. cbn [andb] in A.
  apply obind_ok in A as (x & _ & A). apply obind_ok in A as (y & _ & A). apply obind_ok in A as ([[o w] q] & _ & A). apply obind_ok in A as (z & _ & A). cbv zeta in A. destruct (isZero w); [injection A as _ <-; split; reflexivity|].
  cbn [s_orw s_wsr s_pr c_gamma3 e_cfg cfgWith] in A. rewrite G in A. injection A as _ <-. split; reflexivity.
Qed.

(** *** C103: a job without messages is a regular history of the walk *)
Notation plain := (plain next show read seedE strOf pid).
Lemma plain_job e0 e k s : plain e0 e k s -> job e k s.
Proof.
  induction 1.
  - eapply jb_new; eauto.
  - eapply jb_hop; eauto.
  - eapply jb_measure; eauto.
  - eapply jb_print; eauto.
  - eapply jb_adjust; eauto.
  - eapply jb_save; eauto.
  - eapply jb_files; eauto.
  - eapply jb_listen; eauto. discriminate.
  - eapply jb_restart; eauto.
Qed.
Definition reg (e0 e : env) : Prop := regular_history next (e_cfg e0) (e_s e) /\ retuned (e_cfg e0) (e_cfg e).
Lemma retuned_same (e0 e e' : env) : p_g3 (e_p e) = false -> same_setup (e_p e) (e_p e') -> same_weights e e' -> List.length (p_orw (e_p e')) = List.length (p_orw (e_p e)) ->
  retuned (e_cfg e0) (e_cfg e) -> retuned (e_cfg e0) (e_cfg e').
Proof.
  intros G (_ & S1 & S2 & _ & S3 & S4 & S5 & _ & _ & _ & S6 & _) (W1 & W2 & W3) LN (R1 & R2 & R3 & R4 & R5 & R6).
  assert (EL : p_lat (e_p e') = p_lat (e_p e)) by (unfold p_lat; congruence).
  assert (ET : e_tab e' = e_tab e).
  { unfold e_tab. rewrite W1, W2, W3. unfold tabOf, gmapOf, wmapOf, normOf. rewrite S6, G, S1, S2, EL. reflexivity. }
  unfold retuned. cbn [e_cfg cfgWith c_tab c_lat c_beta c_order c_gamma3 c_orw] in *. rewrite ET, EL, S1, S3, S6, LN. auto 10.
Qed.
Lemma load_config (s : env) k d0 e' : EnvOk s -> is_ll (p_counter (e_p s)) -> (forall x, read (show x) = Some x) ->
  k_para k = k_para (saved show pid s k) -> envLoad read seedE strOf d0 k = Ok e' ->
  exists GG GW, e_p e' = no_seed (e_p s) /\ FromDict4 (tabOf (e_p e') (e_gs e') (e_ws e') (e_wd e') GG GW) (tconf (e_d s)) d0 = Ok (e_d e').
Proof.
  intros K CN RS HP H. pose proof (para_counter _ (eo_p s K) CN) as PK. destruct (load_reads _ _ _ H) as (o & m & pm & w & sf & GG & GW & HO & LM & HPM & HR & _ & _ & _ & _ & HC). rewrite HP in HO, HC.
  cbn [saved s_k_stat s_k_para k_para] in HO, HC. destruct HO as [HO|[HO _]]; [injection HO as <-|discriminate]. destruct HC as (cm & F & C1 & C2 & C3).
  match type of LM with dLoad (toDict ?m0) [] = _ => destruct (load_dict m0) as (m' & E1 & M) end. rewrite E1 in LM. injection LM as <-.
  destruct (section_get "Para" m' (paraToDict show (e_p s))) as (pm' & E2 & PM); [rewrite M, dget_of; reflexivity|]. rewrite E2 in HPM. injection HPM as <-.
  rewrite (para_round show read seedE strOf (e_p s) pm' PK RS PM) in HR. injection HR as HR.
  destruct (section_get "Config" m' (confToPy (tconf (e_d s)))) as (cm' & E3 & CM); [rewrite M, dget_of; reflexivity|]. rewrite E3 in C1. injection C1 as <-.
  rewrite (conf_round (tconf (e_d s)) cm') in C2; [|apply (tconf_fits (e_cfg s)); [exact (small_ok _ PK)|exact (eo_i s K)]|exact CM]. injection C2 as <-.
  exists GG, GW. auto.
Qed.
Lemma plain_reg (RS : forall x, read (show x) = Some x) e0 e k s : plain e0 e k s -> reg e0 e /\ forall e1, s = Some e1 -> reg e0 e1.
Proof.
  intros H. induction H as [d0 k0 k D0 B U L NG NW|n e k s e' H [[I1 I2] IS] HH HC|e k s e' H [[I1 I2] IS] HH|e k s e' H [[I1 I2] IS] HH|e k s e' H [[I1 I2] IS] HO HH|e k s k' H [[I1 I2] IS] HH
    |e k s k' H [[I1 I2] IS] H1 H2|e k s e' H [[I1 I2] IS] HH|e k s d0 e' H [[I1 I2] IS] D0 HH W1 W2 W3];
    try (pose proof (job_ok next show read seedE strOf pid RS _ _ _ (plain_job _ _ _ _ H)) as [[K CN] KS]; pose proof (eo_u _ K) as UU).
  - split; [|discriminate]. destruct (new_reads _ _ _ _ B) as (o & m & pm & w & GG & GW & F & _ & _ & _ & _ & _ & _ & BN & _). split.
    + eapply rh_new with (d0 := d0); [exact D0| |exact NG|exact NW]. cbn [e_s md e_cfg cfgWith c_tab c_lat]. rewrite <- BN. f_equal. apply tab_none. exact (proj1 U).
    + repeat (split; [reflexivity|]). apply (co_orw _ (proj2 (proj2 (proj2 (proj2 U))) (e_tab e0) eq_refl eq_refl)).
  - split; [|exact IS]. pose proof (hop_frame n e e' HH) as (F1 & (F2 & _) & F3 & _). split; [|apply (retuned_same e0 e e' (proj1 UU) F1 F3); [now rewrite F2|exact I2]].
    unfold envHop in HH. apply obind_ok in HH as ([[] s2] & HH & Q). injection Q as <-. assert (ES : e_s (withState e s2) = s2) by (destruct s2; reflexivity). rewrite ES. exact (rh_hop next _ _ _ _ n I1 I2 HH).
  - split; [|exact IS]. pose proof (measure_frame e e' HH) as (F1 & F2 & F3 & F4 & F5). split.
    + assert (ES : e_s e' = e_s e) by (unfold e_s; congruence). rewrite ES. exact I1.
    + apply (retuned_same e0 e e' (proj1 UU)); [rewrite F1; repeat split|exact F2|now rewrite F1|exact I2].
  - split; [|exact IS]. pose proof (print_frame e e' HH) as (F1 & F2 & F3 & F4 & F5 & F6 & F7 & _). split; [|apply (retuned_same e0 e e' (proj1 UU) F1 F2); [now rewrite F7|exact I2]].
    unfold envPrint in HH. apply obind_ok in HH as (c & _ & HH). injection HH as <-. exact I1.
  - split; [|exact IS]. pose proof (adjust_frame e e' HH) as (F1 & F2 & _). destruct (envAdjust_ok e K HO) as (e2 & Q & K2 & _). rewrite HH in Q. injection Q as <-. split.
    + unfold envAdjust in HH. apply obind_ok in HH as ([b c] & _ & HH). injection HH as <-. exact I1.
    + destruct (ok_cfg e' K2) as [_ OW _ _ _ _ _ _ _ _ _ _]. destruct I2 as (R1 & R2 & R3 & R4 & R5 & R6).
      pose proof F1 as (_ & S1 & S2 & _ & S3 & S4 & S5 & _ & _ & _ & S6 & _). destruct F2 as (V1 & V2 & V3).
      assert (EL : p_lat (e_p e') = p_lat (e_p e)) by (unfold p_lat; congruence).
      assert (ET : e_tab e' = e_tab e). { unfold e_tab. rewrite V1, V2, V3. unfold tabOf, gmapOf, wmapOf, normOf. rewrite S6, (proj1 UU), S1, S2, EL. reflexivity. }
      unfold retuned. cbn [e_cfg cfgWith c_tab c_lat c_beta c_order c_gamma3 c_orw] in *. rewrite ET, EL, S1, S3, S6. repeat (split; [assumption|]). rewrite <- R4, <- S3. exact OW.
  - split; [split; assumption|]. intros e1 Q. injection Q as <-. split; assumption.
  - split; [split; assumption|exact IS].
  - apply listen_false in HH as ->. split; [split; assumption|exact IS].
  - split; [|exact IS]. destruct (IS s eq_refl) as [J1 J2]. destruct (KS s eq_refl) as ((A1 & A2) & A3 & A4). destruct (load_config s k d0 e' A1 A2 RS A3 HH) as (GG & GW & EP & FD).
    assert (G3 : p_g3 (e_p s) = false) by apply (eo_u s A1).
    assert (ET : forall g w, tabOf (e_p e') (e_gs e') (e_ws e') (e_wd e') g w = e_tab s).
    { intros g w. rewrite EP, W1, W2, W3. change (tabOf (no_seed (e_p s))) with (tabOf (e_p s)). apply tab_none. exact G3. }
    destruct J2 as (R1 & R2 & R3 & R4 & R5 & R6). cbn [e_cfg cfgWith c_tab] in R1. split.
    + eapply rh_load with (s1 := e_s s) (d0 := d0) (F := tconf (e_d s)); [exact J1|exact (ok_gamma s A1)|exact (ToDict_spec _ _ (Inv_Pre _ _ (eo_i s A1)))|exact D0|].
      cbn [e_cfg cfgWith c_tab e_s md]. rewrite <- R1, <- (ET GG GW). exact FD.
    + unfold retuned. cbn [e_cfg cfgWith c_tab c_lat c_beta c_order c_gamma3 c_orw] in *. unfold e_tab at 1. rewrite ET, EP. auto 10.
Qed.
End PEnv2.

(** *** the step of a job in exact arithmetic *)
Section Metro.
Context {E : Type} (next : E -> Z * E).
Context (show : E -> string) (read : string -> option E) (seedE : Z -> E) (strOf : @py NumR -> string) (pid : @py NumR).
Notation para := (@para NumR E).
Notation env := (@env NumR E).
Definition positive_para (p : para) : Prop :=
  (Forall (fun x : R => 0 < x) (p_orw p) /\ 0 < (p_wsr p : R) /\ 0 < (p_pr p : R) /\ 0 < (p_ggr p : R) /\ 0 < (p_gwr p : R) /\ 0 < (p_beta p : R))%R.
Lemma job_positive (e : env) : EnvOk e -> positive_para (e_p e) -> positive (e_cfg e).
Proof.
  intros K (P1 & P2 & P3 & P4 & P5 & P6). unfold positive. repeat (split; [assumption|]). unfold sites. apply (IZR_lt 0).
  pose proof (co_gmap _ (ok_cfg e K)) as G. pose proof (mo_sub _ G) as S. pose proof (Vol_pos _ (mo_size _ G) (mo_pos _ G)) as V. cbn in S, V |- *. apply Z.mul_pos_pos; assumption.
Qed.
Lemma jobTarget_eq (e : env) (d : diagramR) : gamma d = 0 -> target (e_cfg e) d = jobTarget (e_p e) d.
Proof. intros G. unfold target, jobTarget. rewrite G. cbn [Z.eqb]. cbn [e_cfg cfgWith c_orw c_wsr c_pr]. rewrite Rmult_1_r. reflexivity. Qed.
Lemma g3_gamma (c : @cfg NumR) (d : diagramR) : c_gamma3 c = false -> Inv c d -> gamma d = 0.
Proof. intros G3 HI. pose proof (i_gam _ _ HI) as G. rewrite G3 in G. destruct G as [(G & _)|[(_ & _ & G & _)|(_ & _ & G & _)]]; [exact G|discriminate|discriminate]. Qed.
Theorem job_metropolis (RS : forall x, read (show x) = Some x) (e0 e e' : env) k s : plain next show read seedE strOf pid e0 e k s -> positive_para (e_p e) -> envHop next 1 e = Ok e' ->
  (0 < jobTarget (e_p e) (e_d e))%R /\
  ((e_d e' = e_d e /\ e_prop e' = e_prop e /\ e_accs e' = e_accs e) \/
  exists op d' r g,
    let ratio := ((jobTarget (e_p e) d' * jobDensity e (inverse op) d') / (jobTarget (e_p e) (e_d e) * jobDensity e op (e_d e)))%R in
    let u := @urn_of NumR (u32 (fst (next g))) in
    prop_rel (e_cfg e) (e_d e) op ratio d' r /\
    e_prop e' = bump (e_prop e) op (order (e_d e)) /\
    (((1 <= ratio)%R /\ p_rng (e_p e') = g \/ (u < ratio < 1)%R /\ p_rng (e_p e') = snd (next g)) /\ e_d e' = d' /\ e_accs e' = bump (e_accs e) op (order (e_d e)) \/
     (ratio < 1)%R /\ (ratio <= u)%R /\ p_rng (e_p e') = snd (next g) /\ e_accs e' = e_accs e /\
       (e_d e' = e_d e \/ exists x, e_d e' = s_uext (e_d e) x))).
Proof.
  intros H PP HH. destruct (plain_reg next show read seedE strOf pid RS e0 e k s H) as [[R1 R2] _].
  pose proof (job_ok next show read seedE strOf pid RS _ _ _ (plain_job next show read seedE strOf pid _ _ _ _ H)) as [[K CN] _].
  pose proof (job_positive e K PP) as PS. pose proof (ok_cfg e K) as CK. pose proof (ok_gamma e K) as G0.
  assert (LK : new_ok (c_lat (e_cfg e0))). { destruct R2 as (_ & R2 & _). rewrite <- R2. apply (eo_u e K). }
  assert (C0 : cfg_ok (e_cfg e0)).
  { apply (retuned_ok (e_cfg e)); [exact CK|]. clear - R2 H RS. destruct R2 as (A1 & A2 & A3 & A4 & A5 & A6). repeat (split; [congruence|]). rewrite A4.
    assert (Q : (Z.to_nat (c_order (e_cfg e0)) < List.length (c_orw (e_cfg e0)))%nat); [|exact Q].
    clear A1 A2 A3 A4 A5 A6. induction H; auto. apply (co_orw _ (proj2 (proj2 (proj2 (proj2 H1))) (e_tab e0) eq_refl eq_refl)). }
  unfold envHop in HH. apply obind_ok in HH as ([[] s2] & HH & Q). injection Q as <-.
  split.
  - rewrite <- jobTarget_eq by exact G0. destruct (regular_w next (e_cfg e0) _ C0 LK R1) as (Hh & HW).
    assert (HW' : WInv (e_cfg e) (e_d e)) by (destruct R2 as (ET & _); destruct HW as [H1 H2 H3 H4 H5]; constructor; rewrite ?ET; auto).
    exact (target_pos (e_cfg e) CK PS _ (eo_i e K) (history_sign next (e_cfg e0) _ sign_lawR C0 LK Hh) HW').
  - destruct (step_mh next (e_cfg e0) (e_cfg e) (e_s e) s2 C0 LK R1 R2 PS HH) as [A|(op & d' & r & g & P & B & C)]; [left; exact A|right].
    cbn [e_s md mprop macc] in *. exists op, d', r, g. cbv zeta in *.
    pose proof (prop_pres (e_cfg e) (e_d e) op _ d' r CK (eo_i e K) P) as [HI' _]. pose proof (g3_gamma (e_cfg e) d' (proj1 (eo_u e K)) HI') as G1.
    assert (DE : forall o d, density (e_cfg e) o d = jobDensity e o d). { intros o d. unfold density, jobDensity. change (c_gamma3 (e_cfg e)) with (p_g3 (e_p e)). now rewrite (proj1 (eo_u e K)). }
    rewrite (jobTarget_eq e d' G1), (jobTarget_eq e (e_d e) G0), !DE in P, C. split; [exact P|]. split; [exact B|].
    cbn [withState e_p p_rng e_accs e_d]. destruct C as [C|(C1 & C2 & C3 & C4 & C5)]; [left; exact C|right]. repeat (split; [assumption|]). destruct C5 as [C5|[_ C5]]; auto.
Qed.
End Metro.
