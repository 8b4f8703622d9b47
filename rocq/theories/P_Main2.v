(** What the main loop does *)
From Coq Require Import ZArith List Bool Arith Lia String.
From Verif Require Import Base Num Complex Lattice Bundle IndexMap Weights Diagram Markov DiagramIO DiagramCheck History Life
  Estimator WeightEstimator Gamma3 Monitor PyDict Param ConfigPy Env
  P_RNG P_Bundle P_IndexMap P_WP P_Inv P_Hop P_Fix P_IO P_History P_Promises P_IOProm P_Estimator P_WeightEst P_Monitor P_Life P_Param P_ParamIO P_Check P_Sem1 P_Env Job P_Job MainLoop P_Main
  JobSpec P_Env2 Clock MainSpec.
Import ListNotations.
Open Scope string_scope.
Open Scope Z_scope.

Section Ticks.
Context {N : Num} {E : Type}.
Notation mloop := (@mloop N E).
(** one tick, for each timer *)
Lemma tick_spec b (x : mloop) tm t tm' k : tickOf b x tm = (t, tm') ->
  (fires k t = true -> checkpoint x = true /\ interval k (e_p (l_e x)) <= r_now (readAt k b) - started k tm /\ started k tm' = r_again (readAt k b)) /\
  (fires k t = false -> started k tm' = started k tm /\ (checkpoint x = true -> r_now (readAt k b) - started k tm < interval k (e_p (l_e x)))).
Proof.
  unfold tickOf. fold (checkpoint x). destruct (checkpoint x); cbn [negb].
  - unfold check. destruct (Z.ltb_spec (r_now (b_print b) - tm_print tm) (p_tprint (e_p (l_e x)))), (Z.ltb_spec (r_now (b_disk b) - tm_disk tm) (p_tdisk (e_p (l_e x)))),
      (Z.ltb_spec (r_now (b_msg b) - tm_msg tm) (p_tmsg (e_p (l_e x)))), (Z.ltb_spec (r_now (b_rew b) - tm_rew tm) (p_trew (e_p (l_e x))));
    intros X; injection X as <- <-; destruct k; cbn [fires started interval readAt t_print t_disk t_msg t_rew tm_print tm_disk tm_msg tm_rew]; split; intros Y; try discriminate; auto.
  - intros X. injection X as <- <-. destruct k; cbn [fires started interval readAt t_print t_disk t_msg t_rew tm_print tm_disk tm_msg tm_rew]; split; intros Y; try discriminate; split; auto; discriminate.
Qed.
(** ... nor too late *)
Theorem timer_prompt k b (x : mloop) tm t tm' : tickOf b x tm = (t, tm') -> checkpoint x = true ->
  (fires k t = true <-> interval k (e_p (l_e x)) <= r_now (readAt k b) - started k tm) /\
  (r_now (readAt k b) - started k tm' < interval k (e_p (l_e x)) \/ started k tm' = r_again (readAt k b)).
Proof.
  intros TK CP. destruct (tick_spec b x tm t tm' k TK) as [A B]. destruct (fires k t).
  - destruct (A eq_refl) as (_ & A1 & A2). split; [tauto|auto].
  - destruct (B eq_refl) as (B1 & B2). specialize (B2 CP). rewrite B1. split; [split; [discriminate|lia]|auto].
Qed.
End Ticks.

Section Main.
Context {N : Num} {E : Type} (next : E -> Z * E).
Context (show : E -> string) (read : string -> option E) (seedE : Z -> E) (strOf : @py N -> string) (pid : @py N).
Notation env := (@env N E).
Notation mloop := (@mloop N E).
Notation job := (job next show read seedE strOf pid).
Notation mainIter := (mainIter next show pid).
Notation mainRun := (mainRun next show pid).
Notation trace := (trace next show pid).

Lemma run_trace : forall ts x x', mainRun ts x = Ok x' -> exists xs, trace ts x xs x'.
Proof.
  induction ts as [|t ts IH]; intros x x' H; cbn [MainLoop.mainRun] in H; [injection H as <-; exists []; constructor|].
  apply obind_ok in H as (x1 & H1 & H). destruct (IH _ _ H) as (xs & T). exists (x1 :: xs). econstructor; eauto.
Qed.
Lemma trace_run ts x xs x' : trace ts x xs x' -> mainRun ts x = Ok x'.
Proof. induction 1 as [|t ts x x1 xs x' H _ IH]; cbn [MainLoop.mainRun]; [reflexivity|]. rewrite H. exact IH. Qed.
Theorem runs_are_traces ts x x' : mainRun ts x = Ok x' <-> exists xs, trace ts x xs x'.
Proof. split; [apply run_trace|]. intros (xs & T). exact (trace_run _ _ _ _ T). Qed.

(** one iteration taken apart *)
Definition tallied (d : diagram) (x x' : mloop) : Prop :=
  forall g o, tally x' g o = tally x g o + (if negb (wm_ex d) && Bool.eqb (measG d) g && (order d =? o) then 1 else 0).
Definition middle (t : @tick N) (k : @disk N) (e2 : env) (x' : mloop) : Prop :=
  exists e3 k4 b e5,
    (t_print t = false /\ e3 = e2 \/ t_print t = true /\ envPrint e2 = Ok e3) /\
    (t_disk t = false /\ k4 = k \/ t_disk t = true /\ envSave show pid e3 k = Ok k4) /\
    (t_msg t = false /\ b = false /\ e5 = e3 \/ t_msg t = true /\ envListen k4 e3 = Ok (b, e5)) /\
    (t_rew t = false /\ l_e x' = e5 \/ t_rew t = true /\ envAdjust e5 = Ok (l_e x')) /\ l_k x' = k4.
Lemma bump_inv o f f' : bump o f = Ok f' -> forall i, f' i = f i + (if o =? i then 1 else 0).
Proof.
  unfold bump. destruct (_ || _); [discriminate|]. destruct (f o =? _); [discriminate|]. intros H i. injection H as <-. cbv beta. rewrite (Z.eqb_sym o i). destruct (i =? o); lia.
Qed.
Lemma iter_inv t (x x' : mloop) : mainIter t x = Ok x' ->
  exists e1 e2, envHop next (p_sweep (e_p (l_e x))) (l_e x) = Ok e1 /\ envMeasure e1 = Ok e2 /\ l_step x' = u32 (l_step x + 1) /\ tallied (e_d e2) x x' /\
    let k := outside (t_files t) (l_k x) in
    (checkpoint x = false /\ l_e x' = e2 /\ l_k x' = k \/ checkpoint x = true /\ middle t k e2 x').
Proof.
  unfold MainLoop.mainIter. intros H. apply obind_ok in H as (e1 & H1 & H). apply obind_ok in H as (e2 & H2 & H). cbv zeta in H. apply obind_ok in H as ([sg pl] & H3 & H).
  exists e1, e2. split; [exact H1|]. split; [exact H2|]. fold (checkpoint x) in H.
  assert (TL : forall y, l_sig y = sg -> l_pol y = pl -> tallied (e_d e2) x y).
  { intros y <- <- g o. unfold tally. destruct (wm_ex (e_d e2)); cbn [negb andb].
    - injection H3 as <- <-. destruct g; lia.
    - destruct (measG (e_d e2)).
      + apply obind_ok in H3 as (f & H3 & X). injection X as <- <-. pose proof (bump_inv _ _ _ H3 o) as B. destruct g; cbn [Bool.eqb andb]; lia.
      + apply obind_ok in H3 as (f & H3 & X). injection X as <- <-. pose proof (bump_inv _ _ _ H3 o) as B. destruct g; cbn [Bool.eqb andb]; lia. }
  destruct (checkpoint x); cbn [negb] in H.
  - apply obind_ok in H as (e3 & A3 & H). apply obind_ok in H as (k4 & A4 & H). apply obind_ok in H as ([b e5] & A5 & H). apply obind_ok in H as (e6 & A6 & H). injection H as <-.
    split; [reflexivity|]. split; [now apply TL|]. right. split; [reflexivity|]. exists e3, k4, b, e5. cbn [l_e l_k].
    split; [|split; [|split; [|split; [|reflexivity]]]].
    + destruct (t_print t); [right|left; split; [reflexivity|congruence]]. apply obind_ok in A3 as (bb & _ & A3). destruct bb; [auto|discriminate].
    + destruct (t_disk t); [right; auto|left; split; [reflexivity|congruence]].
    + destruct (t_msg t); [right; auto|left; injection A5 as <- <-; auto].
    + destruct (t_rew t); [right; auto|left; split; [reflexivity|congruence]].
  - injection H as <-. split; [reflexivity|]. split; [now apply TL|]. left. auto.
Qed.
Lemma steady_refl (p : @para N E) : steady p p.
Proof. repeat split. Qed.
Lemma steady_trans (p q r : @para N E) : steady p q -> steady q r -> steady p r.
Proof. unfold steady. intros H1 H2. repeat match goal with H : _ /\ _ |- _ => destruct H end. repeat split; congruence. Qed.
Lemma setup_steady (p q : @para N E) : same_setup p q -> steady p q.
Proof. unfold same_setup, steady. intros H. repeat match goal with H : _ /\ _ |- _ => destruct H end. repeat split; assumption. Qed.
(** [e_p], counter and diagram of the pieces *)
Lemma listen_inv k (e e' : env) b : envListen k e = Ok (b, e') -> steady (e_p e) (e_p e') /\ p_counter (e_p e') = p_counter (e_p e) /\
  p_orw (e_p e') = p_orw (e_p e) /\ p_wsr (e_p e') = p_wsr (e_p e) /\ p_pr (e_p e') = p_pr (e_p e) /\ p_rng (e_p e') = p_rng (e_p e) /\
  (b = false /\ e' = e \/ b = true /\ p_version (e_p e) < p_version (e_p e')).
Proof.
  destruct b; intros H.
  - destruct (listen_true k e e' H) as (o & ms & w & gs & ws & wd & _ & _ & V & _ & _ & EP & _). rewrite EP. repeat (split; [solve [repeat split | reflexivity]|]). right. split; [reflexivity|exact V].
  - apply listen_false in H as ->. repeat (split; [solve [repeat split | reflexivity]|]). auto.
Qed.
(** Reset leaves bundles, worm and measuring kind *)
Definition kept (d d' : @diagram N) : Prop := wm_ex d' = wm_ex d /\ vB d' = vB d /\ ira d' = ira d /\ masha d' = masha d /\ measG d' = measG d.
Lemma kept_trans d1 d2 d3 : kept d1 d2 -> kept d2 d3 -> kept d1 d3.
Proof. unfold kept. intuition congruence. Qed.
Lemma upto_kept (body : nat -> diagram -> outcome diagram) : (forall i d d', body i d = Ok d' -> kept d d') -> forall n i d d', for_upto body i n d = Ok d' -> kept d d'.
Proof.
  intros B. induction n as [|n IH]; intros i d d' H; cbn [for_upto] in H; [injection H as <-; repeat split|]. apply obind_ok in H as (d1 & H1 & H). exact (kept_trans _ _ _ (B _ _ _ H1) (IH _ _ _ H)).
Qed.
Lemma fixg_kept T i d d' : fix_g T i d = Ok d' -> kept d d'.
Proof.
  unfold fix_g. intros H. apply obind_ok in H as (g & _ & H). cbv zeta in H. destruct (negb _); [discriminate|]. apply obind_ok in H as (w & _ & H). injection H as <-. repeat split.
Qed.
Lemma fixw_kept T i d d' : fix_w T i d = Ok d' -> kept d d'.
Proof.
  unfold fix_w. intros H. apply obind_ok in H as (g & _ & H). cbv zeta in H. destruct (negb _); [discriminate|]. apply obind_ok in H as (w & _ & H). injection H as <-. repeat split.
Qed.
Lemma reset_kept T d d' : DReset T d = Ok d' -> kept d d'.
Proof.
  unfold DReset, FixDiagram. destruct (negb _); [discriminate|]. cbv zeta. destruct (_ && _); [discriminate|]. intros H. apply obind_ok in H as (d1 & H1 & H). apply obind_ok in H as (d2 & H2 & H). injection H as <-.
  pose proof (upto_kept _ (fixg_kept T) _ _ _ _ H1) as K1. pose proof (upto_kept _ (fixw_kept T) _ _ _ _ H2) as K2.
  assert (K0 : kept d d1) by (destruct (wm_ex _); exact K1). exact (kept_trans _ _ _ K0 K2).
Qed.
Lemma iter_job (RS : forall x, read (show x) = Some x) t x x' s : job (l_e x) (l_k x) s -> mainIter t x = Ok x' ->
  p_counter (e_p (l_e x)) + Z.max (p_sweep (e_p (l_e x))) 0 < 2 ^ 63 -> p_order (e_p (l_e x)) < Z.of_nat (List.length (p_otr (e_p (l_e x)))) -> benign x x' ->
  steady (e_p (l_e x)) (e_p (l_e x')) /\ p_counter (e_p (l_e x')) = p_counter (e_p (l_e x)) + Z.max (p_sweep (e_p (l_e x))) 0 /\
  (p_version (e_p (l_e x')) = p_version (e_p (l_e x)) -> tallied (e_d (l_e x')) x x') /\
  exists s', job (l_e x') (l_k x') s' /\
    (t_disk t && checkpoint x = false -> s' = s /\ k_para (l_k x') = k_para (l_k x) /\ k_stat (l_k x') = k_stat (l_k x)) /\
    (t_disk t && checkpoint x = true -> exists e, s' = Some e /\ snapshot t x x' e).
Proof.
  intros J H C O B. destruct (iter_inv t x x' H) as (e1 & e2 & H1 & H2 & ST & TL & M). cbv zeta in M. set (k := outside (t_files t) (l_k x)) in *.
  destruct (job_ok next show read seedE strOf pid RS _ _ _ J) as [[K _] _].
  pose proof (hop_frame next _ _ _ H1) as (F1 & F1' & _). pose proof (measure_frame _ _ H2) as (P2 & _ & D2 & _).
  assert (C1 : p_counter (e_p e1) = p_counter (e_p (l_e x)) + Z.max (p_sweep (e_p (l_e x))) 0).
  { destruct (hop_ok next (p_sweep (e_p (l_e x))) (l_e x) K) as (e & X & _ & _ & Y). rewrite H1 in X. injection X as <-. exact Y. }
  pose proof (setup_steady _ _ F1) as S1.
  assert (J2 : job e2 k s). { eapply jb_measure; [|exact H2]. eapply jb_hop; [|exact H1|lia]. eapply jb_files; [exact J|reflexivity|reflexivity]. }
  destruct M as [(CP & EX & KX)|(CP & M)].
  { rewrite EX, KX, CP, andb_false_r, P2. split; [exact S1|]. split; [exact C1|]. split; [intros _; exact TL|]. exists s. split; [exact J2|]. split; [auto|discriminate]. }
  destruct M as (e3 & k4 & b & e5 & M3 & M4 & M5 & M6 & KX). rewrite CP, andb_true_r.
  assert (Q3 : job e3 k s /\ same_setup (e_p e2) (e_p e3) /\ p_counter (e_p e3) = p_counter (e_p e2) /\ e_d e3 = e_d e2).
  { destruct M3 as [[_ ->]|[_ M3]]; [repeat split; assumption|]. pose proof (print_frame _ _ M3) as (A1 & _ & A2 & _ & _ & A3 & _). split; [eapply jb_print; eauto|auto]. }
  destruct Q3 as (J3 & SS3 & C3 & D3). pose proof (setup_steady _ _ SS3) as S3.
  destruct (job_ok next show read seedE strOf pid RS _ _ _ J3) as [[K3 _] _].
  assert (Q4 : exists s4, job e3 k4 s4 /\ (t_disk t = false -> s4 = s /\ k4 = k) /\ (t_disk t = true -> s4 = Some e3)).
  { destruct M4 as [[-> ->]|[-> M4]]; [exists s; split; [exact J3|]; split; [auto|discriminate]|]. exists (Some e3). split; [eapply jb_save; eauto|]. split; [discriminate|auto]. }
  destruct Q4 as (s4 & J4 & Q4a & Q4b).
  assert (Q5 : steady (e_p e3) (e_p e5) /\ p_counter (e_p e5) = p_counter (e_p e3) /\ p_orw (e_p e5) = p_orw (e_p e3) /\ p_rng (e_p e5) = p_rng (e_p e3) /\
    (b = false /\ e5 = e3 \/ b = true /\ t_msg t = true /\ p_version (e_p e3) < p_version (e_p e5))).
  { destruct M5 as [(_ & -> & ->)|[-> M5]]; [repeat (split; [solve [repeat split | reflexivity]|]); auto|]. destruct (listen_inv _ _ _ _ M5) as (A1 & A2 & A3 & _ & _ & A4 & A5). repeat (split; [assumption|]). tauto. }
  destruct Q5 as (S5 & C5 & W5 & R5 & V5).
  assert (Q6 : same_setup (e_p e5) (e_p (l_e x')) /\ p_counter (e_p (l_e x')) = p_counter (e_p e5) /\ p_rng (e_p (l_e x')) = p_rng (e_p e5) /\ e_d (l_e x') = e_d e5 /\ e_m (l_e x') = e_m e5).
  { destruct M6 as [[_ ->]|[_ M6]]; [repeat split|]. pose proof (adjust_frame _ _ M6) as (A1 & _ & A2 & A3 & A4 & A5 & _). auto. }
  destruct Q6 as (SS6 & C6 & R6 & D6 & E6). pose proof (setup_steady _ _ SS6) as S6.
  assert (V3 : p_version (e_p e3) = p_version (e_p (l_e x))) by (destruct SS3 as [-> _]; rewrite P2; apply F1).
  assert (V6 : p_version (e_p (l_e x')) = p_version (e_p e5)) by apply SS6.
  assert (B3 : p_beta (e_p e3) = p_beta (e_p (l_e x))) by (destruct SS3 as (_ & -> & _); rewrite P2; apply F1).
  assert (B6 : p_beta (e_p (l_e x')) = p_beta (e_p e5)) by apply SS6.
  assert (J5 : job e5 k4 s4).
  { destruct V5 as [[-> ->]|(-> & TM & V5)]; [exact J4|]. destruct M5 as [(_ & X & _)|[_ M5]]; [discriminate|].
    eapply jb_listen; [exact J4|exact M5|]. intros _. destruct B as [B|(B1 & B2 & B4 & B5 & B7)]; [lia|].
    split.
    - assert (LO : (Z.to_nat (p_order (e_p e3)) < List.length (p_orw (e_p e3)))%nat) by exact (co_orw _ (ok_cfg e3 K3)).
      destruct B1 as (U1 & U2 & U3 & U4 & U5). destruct SS6 as (_ & G1 & G2 & _ & G3 & G4 & G5 & _ & _ & _ & G6 & _).
      assert (EL : p_lat (e_p (l_e x')) = p_lat (e_p e5)) by (unfold p_lat; congruence).
      assert (EG : gmapOf (e_p (l_e x')) = gmapOf (e_p e5)) by (unfold gmapOf; congruence). assert (EW : wmapOf (e_p (l_e x')) = wmapOf (e_p e5)) by (unfold wmapOf; congruence).
      split; [congruence|]. split; [congruence|]. split; [congruence|]. split; [congruence|]. intros T T1 T2. rewrite <- EG in T1. rewrite <- EW in T2.
      apply (retuned_ok (cfgWith (e_p (l_e x')) T)); [auto|]. repeat split; cbn [cfgWith c_tab c_lat c_beta c_order c_gamma3 c_orw]; auto. rewrite W5, G3. destruct S5 as (_ & _ & -> & _). exact LO.
    - unfold calmly. rewrite B3, <- B6. repeat (split; [assumption|]).
      destruct (listen_true k4 e3 e5 M5) as (o & ms & w & gs & ws & wd & _ & _ & _ & _ & _ & _ & _ & _ & _ & _ & GG & GW & DR & _). apply reset_kept in DR as (A1 & A2 & A3 & A4 & _).
      unfold ends_settled in *. rewrite D6, A1, A2, A3, A4 in B7. exact B7. }
  assert (SA : steady (e_p (l_e x)) (e_p e5)) by (eapply steady_trans; [exact S1|]; rewrite <- P2; eapply steady_trans; eauto).
  assert (J6 : job (l_e x') k4 s4).
  { destruct M6 as [[_ ->]|[_ M6]]; [exact J5|]. eapply jb_adjust; [exact J5| |exact M6]. destruct SA as (_ & _ & -> & _ & _ & _ & _ & _ & _ & -> & _). exact O. }
  split; [eapply steady_trans; eauto|]. split; [rewrite C6, C5, C3, P2; exact C1|].
  split; [intros V; destruct V5 as [[_ ->]|(_ & _ & V5)]; [rewrite D6, D3; exact TL|lia]|].
  exists s4. rewrite KX. split; [exact J6|]. split.
  - intros TD. destruct (Q4a TD) as [-> ->]. auto.
  - intros TD. exists e3. split; [exact (Q4b TD)|]. split; [congruence|]. split; [congruence|]. intros V. destruct V5 as [[_ ->]|(_ & _ & V5)]; [|lia].
    split; [congruence|]. split; [congruence|]. intros TR. destruct M6 as [[_ X]|[X _]]; congruence.
Qed.
(** a whole run *)
Lemma trace_job (RS : forall x, read (show x) = Some x) ts x xs x' : trace ts x xs x' -> forall s, job (l_e x) (l_k x) s ->
  p_counter (e_p (l_e x)) + Z.of_nat (List.length ts) * Z.max (p_sweep (e_p (l_e x))) 0 < 2 ^ 63 -> p_order (e_p (l_e x)) < Z.of_nat (List.length (p_otr (e_p (l_e x)))) -> benigns x xs ->
  steady (e_p (l_e x)) (e_p (l_e x')) /\ p_counter (e_p (l_e x')) = p_counter (e_p (l_e x)) + Z.of_nat (List.length ts) * Z.max (p_sweep (e_p (l_e x))) 0 /\
  (undisturbed x xs -> forall g o, tally x' g o = tally x g o + seen xs g o) /\
  exists s', job (l_e x') (l_k x') s' /\ (unsaved ts x xs -> s' = s /\ k_para (l_k x') = k_para (l_k x) /\ k_stat (l_k x') = k_stat (l_k x)).
Proof.
  induction 1 as [x|t ts x x1 xs x' H T IH]; intros s J C O B; cbn [List.length] in *.
  - split; [apply steady_refl|]. split; [lia|]. split; [intros _ g o; cbn [seen]; lia|]. exists s. auto.
  - rewrite Nat2Z.inj_succ in *. destruct B as [B1 B2]. set (w := Z.max (p_sweep (e_p (l_e x))) 0) in *. assert (W : 0 <= w) by lia.
    destruct (iter_job RS t x x1 s J H ltac:(fold w; nia) O B1) as (S1 & C1 & T1 & s1 & J1 & N1 & _). fold w in C1.
    assert (SW : p_sweep (e_p (l_e x1)) = p_sweep (e_p (l_e x))) by apply S1.
    destruct (IH s1 J1) as (S2 & C2 & T2 & s2 & J2 & N2); [rewrite SW, C1; fold w; nia| |exact B2|].
    { destruct S1 as (_ & _ & -> & _ & _ & _ & _ & _ & _ & -> & _). exact O. }
    split; [eapply steady_trans; eauto|]. split; [rewrite C2, SW, C1; fold w; nia|].
    split. { intros [U1 U2] g o. rewrite (T2 U2), (T1 U1). cbn [seen]. lia. }
    exists s2. split; [exact J2|]. intros [U1 U2]. destruct (N1 U1) as (-> & A1 & A2). destruct (N2 U2) as (-> & A3 & A4). split; [reflexivity|]. split; congruence.
Qed.
Lemma benigns_app ts x xs1 x1 x2 xs2 : trace ts x xs1 x1 -> benigns x (xs1 ++ x2 :: xs2) -> benigns x xs1 /\ benign x1 x2 /\ benigns x2 xs2.
Proof.
  induction 1 as [x|t ts x y xs x' H T IH]; cbn [app benigns]; [tauto|]. intros [B1 B2]. destruct (IH B2) as (A1 & A2 & A3). auto.
Qed.
(** what is on disk *)
Theorem saved_run (RS : forall x, read (show x) = Some x) ts1 t ts2 x xs1 x1 x2 xs2 x' s :
  trace ts1 x xs1 x1 -> mainIter t x1 = Ok x2 -> trace ts2 x2 xs2 x' -> t_disk t && checkpoint x1 = true -> unsaved ts2 x2 xs2 ->
  job (l_e x) (l_k x) s -> benigns x (xs1 ++ x2 :: xs2) ->
  p_counter (e_p (l_e x)) + Z.of_nat (List.length ts1 + 1 + List.length ts2) * Z.max (p_sweep (e_p (l_e x))) 0 < 2 ^ 63 -> p_order (e_p (l_e x)) < Z.of_nat (List.length (p_otr (e_p (l_e x)))) ->
  exists e, snapshot t x1 x2 e /\ p_counter (e_p e) = p_counter (e_p (l_e x)) + Z.of_nat (List.length ts1 + 1) * Z.max (p_sweep (e_p (l_e x))) 0 /\
    forall d0 w gs ws wd, constructed d0 -> k_weight (l_k x') = FHas w -> loadGW (e_p e) (l_k x') w = Ok (gs, ws, wd) ->
    exists e', envLoad read seedE strOf d0 (l_k x') = Ok e' /\ job e' (l_k x') (Some e) /\ back e e' /\ e_gs e' = gs /\ e_ws e' = ws /\ e_wd e' = wd.
Proof.
  intros T1 H T2 SV US J B C O. destruct (benigns_app _ _ _ _ _ _ T1 B) as (B1 & B2 & B3). set (w := Z.max (p_sweep (e_p (l_e x))) 0) in *. assert (W : 0 <= w) by lia.
  destruct (trace_job RS _ _ _ _ T1 s J ltac:(fold w; nia) O B1) as (S1 & C1 & _ & s1 & J1 & _). fold w in C1.
  assert (SW : p_sweep (e_p (l_e x1)) = p_sweep (e_p (l_e x))) by apply S1.
  assert (O1 : p_order (e_p (l_e x1)) < Z.of_nat (List.length (p_otr (e_p (l_e x1))))) by (destruct S1 as (_ & _ & -> & _ & _ & _ & _ & _ & _ & -> & _); exact O).
  destruct (iter_job RS t x1 x2 s1 J1 H ltac:(rewrite SW; fold w; nia) O1 B2) as (S2 & C2 & _ & s2 & J2 & _ & N2). rewrite SW in C2. fold w in C2.
  destruct (N2 SV) as (e & -> & SN).
  assert (SW2 : p_sweep (e_p (l_e x2)) = p_sweep (e_p (l_e x))) by (destruct S2 as (_ & _ & _ & _ & _ & _ & -> & _); exact SW).
  assert (O2 : p_order (e_p (l_e x2)) < Z.of_nat (List.length (p_otr (e_p (l_e x2))))) by (destruct S2 as (_ & _ & -> & _ & _ & _ & _ & _ & _ & -> & _); exact O1).
  destruct (trace_job RS _ _ _ _ T2 (Some e) J2 ltac:(rewrite SW2; fold w; nia) O2 B3) as (_ & _ & _ & s3 & J3 & N3). destruct (N3 US) as (-> & _).
  exists e. split; [exact SN|]. split; [destruct SN as (-> & _); rewrite C2, C1; nia|].
  intros d0 wt gs ws wd D0 KW LG. exact (job_restart next show read seedE strOf pid RS _ _ e d0 wt gs ws wd J3 D0 KW LG).
Qed.
(** the reweighting factors *)
Theorem iter_factors t (x x' : mloop) : mainIter t x = Ok x' ->
  (t_rew t && checkpoint x = false -> p_orw (e_p (l_e x')) = p_orw (e_p (l_e x)) /\ p_pr (e_p (l_e x')) = p_pr (e_p (l_e x)) /\
     (t_print t && checkpoint x = false -> p_wsr (e_p (l_e x')) = p_wsr (e_p (l_e x)))) /\
  (t_rew t && checkpoint x = true -> exists c b c', monAdjust c (p_otr (e_p (l_e x))) (e_m (l_e x')) = Ok (b, c') /\
     c_order c = p_order (e_p (l_e x)) /\ c_gamma3 c = p_g3 (e_p (l_e x)) /\ c_orw c = p_orw (e_p (l_e x)) /\ c_pr c = p_pr (e_p (l_e x)) /\
     (t_print t = false -> c_wsr c = p_wsr (e_p (l_e x))) /\
     p_orw (e_p (l_e x')) = c_orw c' /\ p_wsr (e_p (l_e x')) = c_wsr c' /\ p_pr (e_p (l_e x')) = c_pr c').
Proof.
  intros H. destruct (iter_inv t x x' H) as (e1 & e2 & H1 & H2 & _ & _ & M). cbv zeta in M.
  pose proof (hop_frame next _ _ _ H1) as (F1 & (W1 & W2 & W3 & _) & _). pose proof (measure_frame _ _ H2) as (P2 & _).
  destruct M as [(CP & EX & _)|(CP & e3 & k4 & b & e5 & M3 & _ & M5 & M6 & _)].
  { rewrite CP, !andb_false_r, EX, P2. split; [auto|discriminate]. }
  rewrite CP, !andb_true_r.
  assert (Q3 : steady (e_p e2) (e_p e3) /\ p_orw (e_p e3) = p_orw (e_p e2) /\ p_pr (e_p e3) = p_pr (e_p e2) /\ (t_print t = false -> p_wsr (e_p e3) = p_wsr (e_p e2))).
  { destruct M3 as [[_ ->]|[TP M3]]; [repeat split|]. pose proof (print_frame _ _ M3) as (A1 & _ & _ & _ & _ & _ & A2 & A3 & _). split; [exact (setup_steady _ _ A1)|]. split; [exact A2|]. split; [exact A3|]. congruence. }
  assert (Q5 : steady (e_p e3) (e_p e5) /\ p_orw (e_p e5) = p_orw (e_p e3) /\ p_wsr (e_p e5) = p_wsr (e_p e3) /\ p_pr (e_p e5) = p_pr (e_p e3)).
  { destruct M5 as [(_ & -> & ->)|[_ M5]]; [repeat split|]. destruct (listen_inv _ _ _ _ M5) as (A1 & _ & A3 & A4 & A5 & _). auto. }
  destruct Q3 as (S3 & A1 & A2 & A3). destruct Q5 as (S5 & A4 & A5 & A6). split; intros TR; rewrite TR in M6.
  - destruct M6 as [[_ ->]|[X _]]; [|discriminate]. split; [congruence|]. split; [congruence|]. intros TP. rewrite A5, (A3 TP), P2. exact W2.
  - destruct M6 as [[X _]|[_ M6]]; [discriminate|]. pose proof (adjust_frame _ _ M6) as (_ & _ & _ & EM & _ & _ & _ & bb & c' & AD & G1 & G2 & G3 & _).
    assert (SA : steady (e_p (l_e x)) (e_p e5)) by (eapply steady_trans; [exact (setup_steady _ _ F1)|]; rewrite <- P2; eapply steady_trans; eauto).
    destruct SA as (_ & _ & L1 & _ & _ & _ & _ & _ & L2 & L3 & _).
    exists (e_cfg e5), bb, c'. rewrite EM, <- L3. split; [exact AD|]. unfold e_cfg. cbn [cfgWith c_order c_gamma3 c_orw c_pr c_wsr]. split; [exact L1|]. split; [exact L2|]. split; [congruence|]. split; [congruence|].
    split; [intros TP; rewrite A5, (A3 TP), P2; exact W2|]. auto.
Qed.
(** thermalisation *)
Lemma toss_counter (RS : forall x, read (show x) = Some x) k s : forall n e e', job e k s -> p_counter (e_p e) + Z.of_nat n * Z.max (p_sweep (e_p e)) 0 < 2 ^ 63 ->
  toss next n e = Ok e' -> p_counter (e_p e') = p_counter (e_p e) + Z.of_nat n * Z.max (p_sweep (e_p e)) 0 /\ same_setup (e_p e) (e_p e') /\ same_factors (e_p e) (e_p e') /\ same_weights e e' /\ e_m e' = e_m e.
Proof.
  induction n as [|n IH]; intros e e' H C T; cbn [toss] in T; [injection T as <-; split; [lia|repeat split]|].
  apply obind_ok in T as (e1 & HH & T). destruct (job_ok next show read seedE strOf pid RS e k s H) as [[K CN] _].
  destruct (hop_ok next (p_sweep (e_p e)) e K) as (e1' & HH' & K1 & _ & C1). rewrite HH in HH'. injection HH' as <-.
  pose proof (hop_frame next _ _ _ HH) as (F1 & F2 & (F3 & F4 & F5) & F6). assert (SW : p_sweep (e_p e1) = p_sweep (e_p e)) by apply F1.
  rewrite Nat2Z.inj_succ in *. set (w := Z.max (p_sweep (e_p e)) 0) in *. assert (W : 0 <= w) by lia.
  destruct (IH e1 e') as (A1 & A2 & A3 & (A4 & A5 & A6) & A7); [eapply jb_hop; [exact H|exact HH|fold w; nia]|rewrite SW, C1; fold w; nia|exact T|].
  split; [rewrite A1, SW, C1; fold w; nia|]. split; [|split; [|split; [repeat split; congruence|congruence]]].
  - unfold same_setup in *. repeat match goal with H : _ /\ _ |- _ => destruct H end. repeat split; congruence.
  - unfold same_factors in *. repeat match goal with H : _ /\ _ |- _ => destruct H end. repeat split; congruence.
Qed.
Theorem start_counter (RS : forall x, read (show x) = Some x) k s e x : job e k s -> envListen k e = Ok (false, e) -> mainStart next k e = Ok x ->
  let n := p_toss (e_p e) mod 2 ^ 32 in
  p_counter (e_p e) + n * Z.max (p_sweep (e_p e)) 0 < 2 ^ 63 ->
  p_counter (e_p (l_e x)) = p_counter (e_p e) + n * Z.max (p_sweep (e_p e)) 0 /\ same_setup (e_p e) (e_p (l_e x)) /\ same_factors (e_p e) (e_p (l_e x)) /\ same_weights e (l_e x) /\ e_m (l_e x) = e_m e /\
  l_k x = k /\ l_step x = 0 /\ forall g o, tally x g o = 0.
Proof.
  intros J L H n C. unfold mainStart in H. rewrite L in H. cbn [obind] in H. apply obind_ok in H as (e2 & H & X). injection X as <-.
  assert (NN : Z.of_nat (Z.to_nat (u32 (p_toss (e_p e)))) = n) by (apply Z2Nat.id; unfold u32; apply Z.mod_pos_bound; lia).
  destruct (toss_counter RS k s _ _ _ J ltac:(rewrite NN; exact C) H) as (A1 & A2 & A3 & A4 & A5). rewrite NN in A1. cbn [l_e l_k l_step].
  repeat (split; [assumption||reflexivity|]). intros [] o; reflexivity.
Qed.

(** *** what is measured *)
Lemma cfg_same (e e1 : env) : same_setup (e_p e) (e_p e1) -> same_factors (e_p e) (e_p e1) -> same_weights e e1 -> e_m e1 = e_m e -> e_cfg e1 = e_cfg e.
Proof.
  unfold same_setup, same_factors, same_weights. intros. repeat match goal with H : _ /\ _ |- _ => destruct H end.
  assert (EL : p_lat (e_p e1) = p_lat (e_p e)) by (unfold p_lat; congruence).
  assert (EG : gmapOf (e_p e1) = gmapOf (e_p e)) by (unfold gmapOf; congruence). assert (EW : wmapOf (e_p e1) = wmapOf (e_p e)) by (unfold wmapOf; congruence).
  assert (ENO : normOf (e_p e1) = normOf (e_p e)) by (unfold normOf; congruence).
  unfold e_cfg, cfgWith, e_tab, tabOf. repeat match goal with H : _ = _ |- _ => first [rewrite H|idtac]; clear H end. reflexivity.
Qed.
Theorem iter_measures (RS : forall x, read (show x) = Some x) t x x' s : job (l_e x) (l_k x) s -> mainIter t x = Ok x' ->
  p_counter (e_p (l_e x)) + Z.max (p_sweep (e_p (l_e x))) 0 < 2 ^ 63 -> p_version (e_p (l_e x')) = p_version (e_p (l_e x)) ->
  exists w, nth_error (p_orw (e_p (l_e x))) (Z.to_nat (order (e_d (l_e x')))) = Some w /\
    effect (e_cfg (l_e x)) 0 0 0 0 (e_d (l_e x')) (rdiv (rofZ 1) w) (e_m (l_e x)) (e_m (l_e x')).
Proof.
  intros J H C V. destruct (iter_inv t x x' H) as (e1 & e2 & H1 & H2 & _ & _ & M). cbv zeta in M.
  destruct (job_ok next show read seedE strOf pid RS _ _ _ J) as [[K _] _].
  destruct (hop_ok next (p_sweep (e_p (l_e x))) (l_e x) K) as (e & X & K1 & _). rewrite H1 in X. injection X as <-.
  pose proof (hop_frame next _ _ _ H1) as (F1 & F2 & F3 & F4). pose proof (cfg_same _ _ F1 F2 F3 F4) as EC.
  destruct (envMeasure_ok e1 K1) as (e2' & w & X & _ & P2 & D2 & RW & EF). rewrite H2 in X. injection X as <-. rewrite EC, F4 in EF. rewrite EC in RW. change (c_orw (e_cfg (l_e x))) with (p_orw (e_p (l_e x))) in RW.
  assert (Q : e_d (l_e x') = e_d e2 /\ e_m (l_e x') = e_m e2).
  { destruct M as [(_ & -> & _)|(_ & e3 & k4 & b & e5 & M3 & _ & M5 & M6 & _)]; [auto|].
    assert (Q3 : e_d e3 = e_d e2 /\ e_m e3 = e_m e2 /\ p_version (e_p e3) = p_version (e_p e2)) by (destruct M3 as [[_ ->]|[_ M3]]; [auto|pose proof (print_frame _ _ M3) as ((A0 & _) & _ & A1 & A2 & _); auto]).
    assert (Q6 : e_d (l_e x') = e_d e5 /\ e_m (l_e x') = e_m e5 /\ p_version (e_p (l_e x')) = p_version (e_p e5)) by (destruct M6 as [[_ ->]|[_ M6]]; [auto|pose proof (adjust_frame _ _ M6) as ((A0 & _) & _ & A1 & A2 & _); auto]).
    destruct Q3 as (A1 & A2 & A3). destruct Q6 as (A4 & A5 & A6). destruct M5 as [(_ & _ & ->)|[_ M5]]; [split; congruence|].
    destruct (listen_inv _ _ _ _ M5) as (_ & _ & _ & _ & _ & _ & [(_ & ->)|(_ & B1)]); [split; congruence|]. destruct F1 as (F0 & _). exfalso. clear - V A3 A6 B1 P2 F0. rewrite P2 in A3. lia. }
  destruct Q as [-> ->]. rewrite D2. exists w. split; [|exact EF].
  unfold rat in RW. destruct (order (e_d e1) <? 0); [discriminate|]. destruct (nth_error _ _); [congruence|discriminate].
Qed.

(** *** the clock *)
Lemma run_clocked : forall bs x tm xt', clockRun next show pid bs (x, tm) = Ok xt' -> exists ts xs, clocked next show pid bs (x, tm) ts xs xt'.
Proof.
  induction bs as [|b bs IH]; intros x tm xt' H; cbn [clockRun] in H; [injection H as <-; exists [], []; constructor|].
  apply obind_ok in H as ([x1 tm1] & H1 & H). unfold clockIter in H1. destruct (tickOf b x tm) as [t tm2] eqn:TK. apply obind_ok in H1 as (x2 & H1 & X). injection X as -> ->.
  destruct (IH _ _ _ H) as (ts & xs & C). exists (t :: ts), (x1 :: xs). econstructor; eauto.
Qed.
Lemma clocked_trace bs xt ts xs xt' : clocked next show pid bs xt ts xs xt' -> trace ts (fst xt) xs (fst xt') /\ List.length ts = List.length bs.
Proof. induction 1 as [[x tm]|b bs x tm t x1 tm1 ts xs xt' TK H C [IH L]]; cbn [fst List.length] in *; [split; constructor|]. split; [econstructor; eauto|congruence]. Qed.
Lemma iter_steady t (x x' : mloop) : mainIter t x = Ok x' -> steady (e_p (l_e x)) (e_p (l_e x')).
Proof.
  intros H. destruct (iter_inv t x x' H) as (e1 & e2 & H1 & H2 & _ & _ & M). cbv zeta in M. pose proof (hop_frame next _ _ _ H1) as (F1 & _). pose proof (measure_frame _ _ H2) as (P2 & _).
  apply setup_steady in F1. rewrite <- P2 in F1. destruct M as [(_ & -> & _)|(_ & e3 & k4 & b & e5 & M3 & _ & M5 & M6 & _)]; [exact F1|].
  assert (S3 : steady (e_p e2) (e_p e3)) by (destruct M3 as [[_ ->]|[_ M3]]; [apply steady_refl|apply setup_steady; exact (proj1 (print_frame _ _ M3))]).
  assert (S5 : steady (e_p e3) (e_p e5)) by (destruct M5 as [(_ & _ & ->)|[_ M5]]; [apply steady_refl|exact (proj1 (listen_inv _ _ _ _ M5))]).
  assert (S6 : steady (e_p e5) (e_p (l_e x'))) by (destruct M6 as [[_ ->]|[_ M6]]; [apply steady_refl|apply setup_steady; exact (proj1 (adjust_frame _ _ M6))]).
  eapply steady_trans; [exact F1|]. eapply steady_trans; [exact S3|]. eapply steady_trans; eauto.
Qed.
Lemma iter_version t (x x' : mloop) : mainIter t x = Ok x' -> t_msg t = false -> p_version (e_p (l_e x')) = p_version (e_p (l_e x)).
Proof.
  intros H TM. destruct (iter_inv t x x' H) as (e1 & e2 & H1 & H2 & _ & _ & M). cbv zeta in M. pose proof (hop_frame next _ _ _ H1) as ((V & _) & _). pose proof (measure_frame _ _ H2) as (P2 & _). rewrite <- P2 in V.
  destruct M as [(_ & -> & _)|(_ & e3 & k4 & b & e5 & M3 & _ & M5 & M6 & _)]; [exact V|].
  assert (V3 : p_version (e_p e3) = p_version (e_p e2)) by (destruct M3 as [[_ ->]|[_ M3]]; [reflexivity|apply (print_frame _ _ M3)]).
  destruct M5 as [(_ & _ & ->)|[X _]]; [|congruence].
  assert (V6 : p_version (e_p (l_e x')) = p_version (e_p e3)) by (destruct M6 as [[_ ->]|[_ M6]]; [reflexivity|apply (adjust_frame _ _ M6)]).
  congruence.
Qed.
Lemma steady_interval k (p q : @para N E) : steady p q -> interval k q = interval k p.
Proof. unfold steady. intros H. repeat match goal with H : _ /\ _ |- _ => destruct H end. destruct k; assumption. Qed.
(** a timer does not fire too often ... *)
Theorem timer_rare k bs xt ts xs xt' : clocked next show pid bs xt ts xs xt' -> (forall b, In b bs -> r_now (readAt k b) <= r_again (readAt k b)) ->
  times k ts * interval k (e_p (l_e (fst xt))) <= started k (snd xt') - started k (snd xt).
Proof.
  induction 1 as [xt|b bs x tm t x1 tm1 ts xs xt' TK H C IH]; intros M; cbn [fst snd] in *; [unfold times; cbn; lia|].
  specialize (IH (fun b' I => M b' (or_intror I))). rewrite (steady_interval k _ _ (iter_steady t x x1 H)) in IH. destruct (tick_spec b x tm t tm1 k TK) as [A B].
  specialize (M b (or_introl eq_refl)). unfold times in *. cbn [filter]. destruct (fires k t).
  - destruct (A eq_refl) as (_ & A1 & A2). cbn [List.length]. rewrite Nat2Z.inj_succ. lia.
  - destruct (B eq_refl) as (B1 & _). lia.
Qed.
(** the last firing of the disk timer *)
Theorem last_save bs x tm ts xs x' tm' : clocked next show pid bs (x, tm) ts xs (x', tm') ->
  unsaved ts x xs /\ tm_disk tm' = tm_disk tm \/
  exists bs1 b bs2 ts1 t ts2 xs1 x1 tm1 x2 tm2 xs2, bs = (bs1 ++ b :: bs2)%list /\ ts = (ts1 ++ t :: ts2)%list /\ xs = (xs1 ++ x2 :: xs2)%list /\
    clocked next show pid bs1 (x, tm) ts1 xs1 (x1, tm1) /\ tickOf b x1 tm1 = (t, tm2) /\ mainIter t x1 = Ok x2 /\ clocked next show pid bs2 (x2, tm2) ts2 xs2 (x', tm') /\
    t_disk t && checkpoint x1 = true /\ unsaved ts2 x2 xs2 /\ tm_disk tm' = r_again (b_disk b).
Proof.
  intros H. remember (x, tm) as xt eqn:E1. remember (x', tm') as xt' eqn:E2. revert x tm E1 x' tm' E2.
  induction H as [xt|b bs x0 tm0 t x1 tm1 ts xs xt' TK H C IH]; intros x tm E1 x' tm' E2; subst.
  - injection E2 as <- <-. left. split; [exact I|reflexivity].
  - injection E1 as <- <-. destruct (IH x1 tm1 eq_refl x' tm' eq_refl) as [[U T]|(bs1 & b' & bs2 & ts1 & t' & ts2 & xs1 & y1 & tmy & y2 & tmz & xs2 & -> & -> & -> & C1 & TK' & H' & C2 & SV & US & TD)].
    + destruct (tick_spec b x0 tm0 t tm1 Disk TK) as [A B]. cbn [fires started readAt] in A, B. destruct (t_disk t) eqn:TD.
      * destruct (A eq_refl) as (CP & _ & A2). right. exists [], b, bs, [], t, ts, [], x0, tm0, x1, tm1, xs. repeat (split; [reflexivity|]). split; [constructor|]. split; [exact TK|]. split; [exact H|]. split; [exact C|].
        split; [rewrite TD, CP; reflexivity|]. split; [exact U|]. congruence.
      * destruct (B eq_refl) as (B1 & _). left. cbn [unsaved]. split; [split; [rewrite TD; reflexivity|exact U]|congruence].
    + right. exists (b :: bs1), b', bs2, (t :: ts1), t', ts2, (x1 :: xs1), y1, tmy, y2, tmz, xs2. repeat (split; [reflexivity|]). split; [econstructor; eauto|]. auto 10.
Qed.
End Main.

(** ** counts, in exact arithmetic *)
From Coq Require Import Reals Lra.
From Verif Require Import NumR.
Open Scope Z_scope.
Section Counts.
Context {E : Type} (next : E -> Z * E).
Context (show : E -> string) (read : string -> option E) (seedE : Z -> E) (strOf : @py NumR -> string) (pid : @py NumR).
Notation job := (job next show read seedE strOf pid).
Notation mloop := (@mloop NumR E).
Lemma counted_by (b b' : @ebundle NumR) i o r : P_Monitor.counted b b' i -> count_is b o r -> count_is b' o (r + IZR (if Z.eqb i o then 1 else 0))%R.
Proof.
  intros [(e & A1 & A2) A3] (e0 & B1 & B2). destruct (Z.eqb_spec i o) as [->|NE].
  - rewrite A1 in B1. injection B1 as <-. exists (eMeasure (@rofZ NumR 1) e). split; [exact A2|]. cbn. rewrite B2. reflexivity.
  - exists e0. split; [rewrite (A3 o (not_eq_sym NE)); exact B1|]. rewrite B2, Rplus_0_r. reflexivity.
Qed.
Lemma effect_counts c d ow (m m' : @mon NumR) o : effect c 0 0 0 0 d ow m m' ->
  (forall r, count_is (m_phy m) o r -> count_is (m_phy m') o (r + IZR (if negb (wm_ex d) && Z.eqb (order d) o then 1 else 0))%R) /\
  (forall r, count_is (m_worm m) o r -> count_is (m_worm m') o (r + IZR (if wm_ex d && Z.eqb (order d) o then 1 else 0))%R).
Proof.
  intros EF. assert (Z0 : forall b r, count_is b o r -> count_is b o (r + IZR 0)%R) by (intros b r H; rewrite Rplus_0_r; exact H).
  destruct EF as [W CC PH _ _ _ _|W O0 MG CC WO _ _ _ _|W O0 MG CC WO _ _ _ _|i W O0 GA MG CC WO _ _ _ _|i W O0 GA MG CC WO _ _ _ _|g g' W O0 GA MG CC WO _ _ _ _ _ _|g g' W O0 GA MG CC WO _ _ _ _ _ _];
    rewrite W; cbn [negb andb]; [split; intros r H; [rewrite PH; auto|exact (counted_by _ _ _ _ _ CC H)]|..];
    (split; intros r H; [|rewrite WO; auto]); try (rewrite O0); exact (counted_by _ _ _ _ _ CC H).
Qed.
Theorem run_counts (RS : forall x, read (show x) = Some x) ts (x : mloop) xs x' : trace next show pid ts x xs x' -> forall s, job (l_e x) (l_k x) s ->
  p_counter (e_p (l_e x)) + Z.of_nat (List.length ts) * Z.max (p_sweep (e_p (l_e x))) 0 < 2 ^ 63 -> p_order (e_p (l_e x)) < Z.of_nat (List.length (p_otr (e_p (l_e x)))) -> undisturbed x xs ->
  forall o r, (count_is (m_phy (e_m (l_e x))) o r -> count_is (m_phy (e_m (l_e x'))) o (r + IZR (seen xs true o + seen xs false o))%R) /\
    (count_is (m_worm (e_m (l_e x))) o r -> count_is (m_worm (e_m (l_e x'))) o (r + IZR (wormy xs o))%R).
Proof.
  induction 1 as [x|t ts x x1 xs x' H T IH]; intros s J C O B o r; cbn [List.length seen wormy] in *.
  - cbn. rewrite !Rplus_0_r. auto.
  - rewrite Nat2Z.inj_succ in *. destruct B as [B1 B2]. set (w := Z.max (p_sweep (e_p (l_e x))) 0) in *. assert (W : 0 <= w) by lia.
    destruct (iter_job next show read seedE strOf pid RS t x x1 s J H ltac:(fold w; nia) O (or_introl B1)) as (S1 & C1 & _ & s1 & J1 & _). fold w in C1.
    assert (SW : p_sweep (e_p (l_e x1)) = p_sweep (e_p (l_e x))) by apply S1.
    destruct (iter_measures next show read seedE strOf pid RS t x x1 s J H ltac:(fold w; nia) B1) as (ww & _ & EF). destruct (effect_counts _ _ _ _ _ o EF) as [E1 E2].
    specialize (IH s1 J1 ltac:(rewrite SW, C1; fold w; nia)). assert (O1 : p_order (e_p (l_e x1)) < Z.of_nat (List.length (p_otr (e_p (l_e x1))))) by (destruct S1 as (_ & _ & -> & _ & _ & _ & _ & _ & _ & -> & _); exact O).
    specialize (IH O1 B2 o). set (d := e_d (l_e x1)) in *. split; intros CN.
    + destruct (IH (r + IZR (if negb (wm_ex d) && (order d =? o) then 1 else 0))%R) as [I1 _]. specialize (I1 (E1 r CN)).
      replace (r + IZR _)%R with (r + IZR (if negb (wm_ex d) && (order d =? o) then 1 else 0) + IZR (seen xs true o + seen xs false o))%R; [exact I1|].
      rewrite Rplus_assoc, <- plus_IZR. do 2 f_equal. destruct (wm_ex d), (measG d), (order d =? o); cbn [negb andb Bool.eqb]; lia.
    + destruct (IH (r + IZR (if wm_ex d && (order d =? o) then 1 else 0))%R) as [_ I2]. specialize (I2 (E2 r CN)).
      replace (r + IZR _)%R with (r + IZR (if wm_ex d && (order d =? o) then 1 else 0) + IZR (wormy xs o))%R; [exact I2|].
      rewrite Rplus_assoc, <- plus_IZR. reflexivity.
Qed.
End Counts.
