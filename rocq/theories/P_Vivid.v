(** Jobs that take messages: the walk is still a Metropolis walk for the parameters and tables in force *)
From Coq Require Import ZArith List Bool Arith Lia ZifyBool String Reals Lra.
From Coquelicot Require Import Complex.
From Verif Require Import Base Num NumR RNG Complex Lattice Bundle IndexMap Weights Diagram Markov DiagramIO DiagramCheck History Life
  Estimator WeightEstimator Gamma3 Monitor PyDict Param ConfigPy Env Target
  P_RNG P_Complex P_Bundle P_IndexMap P_WP P_Inv P_Rel P_Hop P_Fix P_IO P_Sem1 P_History P_Promises P_IOProm P_Estimator P_WeightEst P_Monitor P_Life P_Param P_ParamIO P_Env Job P_Job P_Loop P_Weight P_Step P_MH
  P_MonitorR P_Reverse P_JobR JobSpec P_Env2 VividSpec.
Import ListNotations.
Open Scope string_scope.
Open Scope Z_scope.

(** *** the sign of the fermion loops does not depend on the tables *)
Section Sign.
Context {N : Num}.
Lemma copy_sign2 (c c' : cfg) d d1 d' : Inv c d -> copy d d1 -> fixed d1 d' -> Inv c' d' -> LoopSign d -> LoopSign d'.
Proof.
  intros HI Y F HI' (s & P & S).
  destruct (copy_same2 c c' d d1 d' HI Y F HI') as (SD & _).
  assert (EV : vB d' = vB d1) by apply F.
  exists s. split; [|rewrite (sd_sfl _ _ _ _ _ SD); exact S].
  apply (P_Perm.par_conj (c := cp (vB d) (vB d1)) (f := nx d OUT)); auto.
  - intros x. apply cp_lt; [apply HI|apply Y].
  - intros x y. apply cp_inj20; [apply HI|apply Y].
  - intros x Hx. destruct (live_dec (vB d) x) as [L|L].
    + rewrite (nx_live d OUT x L). rewrite nx_live; [|rewrite EV; apply cp_live; auto; [apply HI|apply Y|apply Y]].
      rewrite (sd_vG _ _ _ _ _ SD), (sd_gv _ _ _ _ _ SD); auto; apply live_exist; auto. now apply (f_vg HI).
    + rewrite (nx_dead d OUT x L). apply nx_dead. intros L'. apply L. rewrite EV in L'.
      destruct (cp_onto (vB d) (vB d1) _ (i_bv _ _ HI) (y_bv _ _ Y) (y_av _ _ Y) L') as (z & Lz & Ez).
      apply cp_inj20 in Ez; [now subst z|apply HI|apply Y|apply Lz|exact Hx].
Qed.
Lemma reset_sign (c c' : cfg) d d' : Inv c d -> fixed d d' -> Inv c' d' -> LoopSign d -> LoopSign d'.
Proof.
  intros HI F HI' (s & P & S). assert (EV : vB d' = vB d) by apply F. assert (EG : g_ver d' = g_ver d) by apply F. assert (EB : gB d' = gB d) by apply F.
  exists s. split; [|replace (sfl d') with (sfl d) by (symmetry; apply F); exact S].
  apply (P_Perm.par_ext (f := nx d OUT)); auto. intros x _. destruct (live_dec (vB d) x) as [L|L].
  - rewrite (nx_live d OUT x L), nx_live by now rewrite EV. rewrite EG. f_equal.
    destruct (i_tG _ _ HI) as [A1 A2]. destruct (i_tG _ _ HI') as [B1 B2]. rewrite EV, EG, EB in B2. destruct (B2 x OUT L) as [L1 E1]. destruct (A2 x OUT L) as [L2 E2].
    destruct (A1 _ (inv OUT) L1) as [_ E3]. rewrite E1 in E3. exact E3.
  - rewrite (nx_dead d OUT x L). symmetry. apply nx_dead. now rewrite EV.
Qed.
End Sign.

Section Walk.
Context {E : Type} (next : E -> Z * E).
(** *** one step from a well-kept diagram (the proof of C16 without the history) *)
Lemma step_good (c : cfgR) (s s' : @mstate NumR E) : cfg_ok c -> good c (md s) -> positive c -> Hop next c 1 s = Ok (tt, s') ->
  (md s' = md s /\ mprop s' = mprop s /\ macc s' = macc s) \/
  exists op d' r e,
    let ratio := ((target c d' * density c (inverse op) d') / (target c (md s) * density c op (md s)))%R in
    let u := @urn_of NumR (u32 (fst (next e))) in
    prop_rel c (md s) op ratio d' r /\
    mprop s' = bump (mprop s) op (order (md s)) /\
    (((1 <= ratio)%R /\ mrng s' = e \/ (u < ratio < 1)%R /\ mrng s' = snd (next e)) /\ md s' = d' /\ macc s' = bump (macc s) op (order (md s)) \/
     (ratio < 1)%R /\ (ratio <= u)%R /\ mrng s' = snd (next e) /\ macc s' = macc s /\
       (md s' = md s \/ gamma (md s) = 0 /\ exists x, md s' = s_uext (md s) x)).
Proof.
  intros C' [HI LS HW' W1] PS Q.
  pose proof (hop1_step next c s C' HI) as W. apply wp_ok in W as ([] & s2 & E2 & W). apply Hop1 in Q. rewrite Q in E2. injection E2 as <-.
  destruct W as (_ & [W|(op & p & d' & r & s1 & P & Ep & Ea & Em & e & b & D1 & D2 & D3 & D4 & D5)]); [left; exact W|right].
  cbn [md mprop macc s_mcount mrng] in *. exists op, d', r, e. cbv zeta.
  pose proof (prop_bal c PS (md s) op p d' r HI LS HW' W1 P) as B. unfold balance in B.
  pose proof (target_pos c C' PS (md s) HI LS HW') as TP. pose proof (density_pos c PS (md s) op p d' r HI P) as DP.
  assert (Er : ((target c d' * density c (inverse op) d') / (target c (md s) * density c op (md s)))%R = p).
  { rewrite <- B. change (@real NumR) with R in *. field. split; apply Rgt_not_eq; assumption. }
  rewrite Er. split; [exact P|]. rewrite Ep, Em in D4. rewrite Ea, Em in D5. split; [exact D4|].
  change (@rleb NumR) with Rleb in D1. change (@rltb NumR) with Rltb in D1. change (@rofZ NumR 1) with 1%R in D1.
  destruct (Rleb 1 p) eqn:L1.
  - apply Rleb_spec in L1. destruct D1 as [-> D1]. left. auto.
  - apply Rleb_false in L1. destruct D1 as [Eb D1]. destruct b.
    + left. symmetry in Eb. apply Rltb_spec in Eb. auto.
    + right. symmetry in Eb. apply Rltb_false in Eb. repeat split; auto. rewrite D2. exact (rej_same c _ _ _ _ _ P).
Qed.
Lemma hsteps_good (c : cfgR) n d d' : cfg_ok c -> hsteps c n d d' -> good c d -> good c d'.
Proof.
  intros C S [G1 G2 G3 G4]. constructor.
  - clear G2 G3 G4. induction S as [|n0 d d1 d2 H Hs IHs]; auto. apply IHs. exact (hstep_pres c _ _ C G1 H).
  - exact (hsteps_sign c n d d' sign_lawR C S G1 G2).
  - exact (hsteps_w c C n d d' S G1 G2 G3).
  - clear G1 G2 G3. induction S as [|n0 d d1 d2 H Hs IHs]; auto. apply IHs. destruct H as [|op p d' r H _|op p d' r H A];
      [exact G4|exact (proj2 (worm1_prop c _ _ _ _ _ H G4))|exact (proj1 (worm1_prop c _ _ _ _ _ H G4))].
Qed.
Lemma fixed_good (c : cfgR) d1 d' : Inv c d' -> fixed d1 d' -> LoopSign d' ->
  (forall g, bexist (gB d') g = true -> nonzero (g_W d' g)) -> (forall w, bexist (wB d') w = true -> nonzero (w_W d' w)) -> good c d'.
Proof.
  intros HI F LS G W. constructor; auto.
  - apply (fixed_w c d1 d' HI F); intros x Lx; apply nonzero_toC; [apply G|apply W]; now apply live_exist.
  - destruct F as (_ & _ & _ & _ & _ & _ & _ & _ & _ & _ & _ & _ & _ & _ & _ & F1 & _ & _ & _ & _ & _ & _ & _ & _ & F2 & _).
    intros X. rewrite F1 in X. rewrite F2, X. reflexivity.
Qed.
Lemma good_retuned (c c' : cfgR) d : retuned c c' -> good c d -> good c' d.
Proof.
  intros RT [G1 G2 G3 G4]. constructor; auto; [exact (proj1 (retuned_Inv c c' d RT) G1)|]. assert (ET : c_tab c' = c_tab c) by apply RT.
  destruct G3 as [H1 H2 H3 H4 H5]; constructor; rewrite ?ET; auto.
Qed.
End Walk.

Section Vivid.
Context {E : Type} (next : E -> Z * E).
Context (show : E -> string) (read : string -> option E) (seedE : Z -> E) (strOf : @py NumR -> string) (pid : @py NumR).
Notation para := (@para NumR E).
Notation env := (@env NumR E).
Notation vivid := (vivid next show read seedE strOf pid).
Notation job := (job next show read seedE strOf pid).

Lemma vivid_job e k s : vivid e k s -> job e k s.
Proof.
  induction 1.
  - eapply jb_new; eauto.
  - eapply jb_hop; eauto.
  - eapply jb_measure; eauto.
  - eapply jb_print; eauto.
  - eapply jb_adjust; eauto.
  - eapply jb_save; eauto.
  - eapply jb_files; eauto.
  - eapply jb_listen; eauto. discriminate.
  - eapply jb_listen; eauto.
  - eapply jb_restart; eauto.
Qed.
Definition goodE (e : env) : Prop := good (e_cfg e) (e_d e).
Lemma retuned_env (e e' : env) : EnvOk e -> EnvOk e' -> same_setup (e_p e) (e_p e') -> same_weights e e' -> retuned (e_cfg e) (e_cfg e').
Proof.
  intros K K' (_ & S1 & S2 & _ & S3 & S4 & S5 & _ & _ & _ & S6 & _) (W1 & W2 & W3).
  assert (EL : p_lat (e_p e') = p_lat (e_p e)) by (unfold p_lat; congruence).
  assert (ET : e_tab e' = e_tab e). { unfold e_tab. rewrite W1, W2, W3. unfold tabOf, gmapOf, wmapOf, normOf. rewrite S6, (proj1 (eo_u e K)), S1, S2, EL. reflexivity. }
  pose proof (co_orw _ (ok_cfg e' K')) as OW. unfold retuned. cbn [e_cfg cfgWith c_tab c_lat c_beta c_order c_gamma3 c_orw] in *. rewrite ET, EL, S1, S3, S6. rewrite S3 in OW. auto 10.
Qed.
Lemma vivid_good (RS : forall x, read (show x) = Some x) e k s : vivid e k s -> goodE e /\ forall e1, s = Some e1 -> LoopSign (e_d e1).
Proof.
  intros H. induction H as [d0 k0 e k D0 B U L (NG & NW)|n e k s e' H [I IS] HH HC|e k s e' H [I IS] HH|e k s e' H [I IS] HH|e k s e' H [I IS] HO HH|e k s k' H [I IS] HH
    |e k s k' H [I IS] H1 H2|e k s e' H [I IS] HH|e k s e' H [I IS] HH U CA|e k s d0 e' H [I IS] D0 HH (NG & NW)];
    try (pose proof (job_ok next show read seedE strOf pid RS _ _ _ (vivid_job _ _ _ H)) as [[K CN] KS]; pose proof (eo_u _ K) as UU).
  - split; [|discriminate]. destruct (new_reads _ _ _ _ _ _ _ B) as (o & m & pm & w & GG & GW & F & _ & _ & _ & _ & _ & _ & BN & _).
    assert (CO : cfg_ok (e_cfg e)) by (apply U; reflexivity). assert (LK : new_ok (c_lat (e_cfg e))) by apply U.
    assert (BN' : BuildNew (c_tab (e_cfg e)) (c_lat (e_cfg e)) d0 = Ok (e_d e)). { rewrite <- BN. cbn [e_cfg cfgWith c_tab c_lat]. f_equal. apply tab_none. exact (proj1 U). }
    destruct (BuildNew_inv (e_cfg e) d0 CO (proj1 LK) (proj2 LK) D0) as (co & d1 & d' & _ & B' & Y & FX & HI & _). rewrite BN' in B'. injection B' as E'. rewrite <- E' in *.
    exact (fixed_good _ d1 _ HI FX (fresh_sign _ co d0 d1 _ Y FX HI) NG NW).
  - split; [|exact IS]. destruct (hop_ok next n e K) as (e2 & Q & K2 & HS & _). rewrite HH in Q. injection Q as <-.
    pose proof (hop_frame next n e e' HH) as (F1 & _ & F3 & _). apply (good_retuned (e_cfg e) _ _ (retuned_env e e' K K2 F1 F3)). exact (hsteps_good _ _ _ _ (ok_cfg e K) HS I).
  - split; [|exact IS]. pose proof (job_ok next show read seedE strOf pid RS _ _ _ (jb_measure _ _ _ _ _ _ _ _ _ _ (vivid_job _ _ _ H) HH)) as [[K2 _] _].
    pose proof (measure_frame e e' HH) as (F1 & F2 & F3 & _). unfold goodE. rewrite F3. apply (good_retuned (e_cfg e)); [|exact I]. apply (retuned_env e e' K K2); [rewrite F1; repeat split|exact F2].
  - split; [|exact IS]. pose proof (job_ok next show read seedE strOf pid RS _ _ _ (jb_print _ _ _ _ _ _ _ _ _ _ (vivid_job _ _ _ H) HH)) as [[K2 _] _].
    pose proof (print_frame e e' HH) as (F1 & F2 & F3 & _). unfold goodE. rewrite F3. apply (good_retuned (e_cfg e)); [|exact I]. exact (retuned_env e e' K K2 F1 F2).
  - split; [|exact IS]. pose proof (job_ok next show read seedE strOf pid RS _ _ _ (jb_adjust _ _ _ _ _ _ _ _ _ _ (vivid_job _ _ _ H) HO HH)) as [[K2 _] _].
    pose proof (adjust_frame e e' HH) as (F1 & F2 & F3 & _). unfold goodE. rewrite F3. apply (good_retuned (e_cfg e)); [|exact I]. exact (retuned_env e e' K K2 F1 F2).
  - split; [exact I|]. intros e1 Q. injection Q as <-. exact (gd_L _ _ I).
  - split; assumption.
  - apply listen_false in HH as ->. split; assumption.
  - split; [|exact IS]. destruct CA as (C1 & C2 & C3 & C4). destruct (listen_true k e e' HH) as (o & ms & w & gs & ws & wd & HM & HL & HV & HW & LG & EP & SQ & _).
    pose proof U as U'. rewrite EP in U, C3. destruct (envListen_ok k e o ms w gs ws wd K HM HL HV HW LG U (Logic.conj C1 (Logic.conj C2 (Logic.conj C3 C4))) SQ) as (e2 & K2 & _ & _ & _ & _ & _ & FX & Q).
    rewrite HH in Q. symmetry in Q. apply obind_ok in Q as (b & CD & Q). destruct b; [|discriminate]. injection Q as ->.
    destruct (fixed_same (e_cfg e) (e_cfg e') _ _ (eo_i e K) FX (eo_i e' K2)) as [_ OD].
    pose proof (proj1 (check_reset (e_cfg e') _ (e_d e') (ok_cfg e' K2) (eo_i e' K2) FX ltac:(lia)) CD) as (_ & BG & BW).
    assert (NG : forall g, bexist (gB (e_d e')) g = true -> nonzero (g_W (e_d e') g)) by (intros g X (Y1 & Y2); apply (BG g X); split; rewrite ?Y1, ?Y2; change (@r0 NumR) with 0%R; rewrite Rabs_R0; lra).
    assert (NW : forall w, bexist (wB (e_d e')) w = true -> nonzero (w_W (e_d e') w)) by (intros w1 X (Y1 & Y2); apply (BW w1 X); split; rewrite ?Y1, ?Y2; change (@r0 NumR) with 0%R; rewrite Rabs_R0; lra).
    exact (fixed_good _ (e_d e) _ (eo_i _ K2) FX (reset_sign _ _ _ _ (eo_i _ K) FX (eo_i _ K2) (gd_L _ _ I)) NG NW).
  - split; [|exact IS]. destruct (KS s eq_refl) as ((A1 & A2) & A3 & A4). destruct (load_config show read seedE strOf pid s k d0 e' A1 A2 RS A3 HH) as (GG & GW & EP & FD).
    pose proof (job_ok next show read seedE strOf pid RS _ _ _ (jb_restart _ _ _ _ _ _ _ _ _ _ _ (vivid_job _ _ _ H) D0 HH)) as [[K2 _] _].
    assert (ET : tabOf (e_p e') (e_gs e') (e_ws e') (e_wd e') GG GW = e_tab e') by (unfold e_tab; apply tab_none; apply (eo_u _ K2)).
    assert (PR : Pre (e_cfg e') (e_d s)). { apply (Pre_tab (e_cfg s)); [..|exact (Inv_Pre _ _ (eo_i s A1))]; cbn [e_cfg cfgWith c_lat c_order c_beta]; rewrite EP; reflexivity. }
    destruct (load_inv (e_cfg e') (e_d s) d0 (ok_cfg _ K2) PR D0) as (d1 & d' & LD & Y & FX & HI & _). change (c_tab (e_cfg e')) with (e_tab e') in LD. rewrite <- ET, FD in LD. injection LD as <-.
    exact (fixed_good _ d1 _ HI FX (copy_sign2 _ _ _ _ _ (eo_i s A1) Y FX HI (IS s eq_refl)) NG NW).
Qed.
Lemma vivid_lit (RS : forall x, read (show x) = Some x) e k s : vivid e k s -> lit e.
Proof.
  intros H. destruct (vivid_good RS e k s H) as [[_ _ [G W _ _ _] _] _].
  split; intros x Lx (A & B); apply live_exist in Lx; [apply (G x Lx)|apply (W x Lx)]; unfold toC; change (@r0 NumR) with 0%R in *; now rewrite A, B.
Qed.
(** jobs without messages that keep their tables are among these *)
Lemma plain_vivid (RS : forall x, read (show x) = Some x) e0 e k s : plain next show read seedE strOf pid e0 e k s -> vivid e k s.
Proof.
  intros H. induction H as [d0 k0 k D0 B U L NG NW|n e k s e' H IH HH HC|e k s e' H IH HH|e k s e' H IH HH|e k s e' H IH HO HH|e k s k' H IH HH
    |e k s k' H IH H1 H2|e k s e' H IH HH|e k s d0 e' H IH D0 HH W1 W2 W3].
  - eapply vv_new; eauto. split; assumption.
  - eapply vv_hop; eauto.
  - eapply vv_measure; eauto.
  - eapply vv_print; eauto.
  - eapply vv_adjust; eauto.
  - eapply vv_save; eauto.
  - eapply vv_files; eauto.
  - eapply vv_quiet; eauto.
  - eapply vv_restart; eauto. pose proof (pl_restart next show read seedE strOf pid e0 e k s d0 e' H D0 HH W1 W2 W3) as H'.
    destruct (plain_reg next show read seedE strOf pid RS e0 e' k (Some s) H') as [[R1 R2] _].
    pose proof (job_ok next show read seedE strOf pid RS _ _ _ (plain_job next show read seedE strOf pid _ _ _ _ H')) as [[K _] _].
    assert (LK : new_ok (c_lat (e_cfg e0))). { destruct R2 as (_ & R2 & _). rewrite <- R2. apply (eo_u e' K). }
    assert (C0 : cfg_ok (e_cfg e0)).
    { apply (retuned_ok (e_cfg e') _ (ok_cfg e' K)). clear - R2 H RS. destruct R2 as (A1 & A2 & A3 & A4 & A5 & A6). repeat (split; [congruence|]). rewrite A4.
      assert (Q : (Z.to_nat (c_order (e_cfg e0)) < List.length (c_orw (e_cfg e0)))%nat); [|exact Q].
      clear A1 A2 A3 A4 A5 A6. induction H; auto. apply (co_orw _ (proj2 (proj2 (proj2 (proj2 H1))) (e_tab e0) eq_refl eq_refl)). }
    destruct (regular_w next (e_cfg e0) _ C0 LK R1) as (_ & [G W _ _ _]).
    split; intros x Lx (A & B); apply live_exist in Lx; [apply (G x Lx)|apply (W x Lx)]; cbn [e_s md]; unfold toC; change (@r0 NumR) with 0%R in *; now rewrite A, B.
Qed.

Theorem vivid_metropolis (RS : forall x, read (show x) = Some x) (e e' : env) k s : vivid e k s -> positive_para (e_p e) -> envHop next 1 e = Ok e' ->
  (0 < jobTarget (e_p e) (e_d e))%R /\
  ((e_d e' = e_d e /\ e_prop e' = e_prop e /\ e_accs e' = e_accs e) \/
  exists op d' r g,
    let ratio := ((jobTarget (e_p e) d' * jobDensity e (inverse op) d') / (jobTarget (e_p e) (e_d e) * jobDensity e op (e_d e)))%R in
    let u := @urn_of NumR (u32 (fst (next g))) in
    prop_rel (e_cfg e) (e_d e) op ratio d' r /\
    e_prop e' = bump (e_prop e) op (order (e_d e)) /\
    (((1 <= ratio)%R /\ p_rng (e_p e') = g \/ (u < ratio < 1)%R /\ p_rng (e_p e') = snd (next g)) /\ e_d e' = d' /\ e_accs e' = bump (e_accs e) op (order (e_d e)) \/
     (ratio < 1)%R /\ (ratio <= u)%R /\ p_rng (e_p e') = snd (next g) /\ e_accs e' = e_accs e /\
       (e_d e' = e_d e \/ exists x, e_d e' = s_uext (e_d e) x))).
Proof.
  intros H PP HH. destruct (vivid_good RS e k s H) as [G _].
  pose proof (job_ok next show read seedE strOf pid RS _ _ _ (vivid_job _ _ _ H)) as [[K CN] _].
  pose proof (job_positive e K PP) as PS. pose proof (ok_cfg e K) as CK. pose proof (ok_gamma e K) as G0.
  unfold envHop in HH. apply obind_ok in HH as ([[] s2] & HH & Q). injection Q as <-.
  split.
  - rewrite <- jobTarget_eq by exact G0. exact (target_pos (e_cfg e) CK PS _ (gd_I _ _ G) (gd_L _ _ G) (gd_W _ _ G)).
  - destruct (step_good next (e_cfg e) (e_s e) s2 CK G PS HH) as [A|(op & d' & r & g & P & B & C)]; [left; exact A|right].
    cbn [e_s md mprop macc] in *. exists op, d', r, g. cbv zeta in *.
    pose proof (prop_pres (e_cfg e) (e_d e) op _ d' r CK (eo_i e K) P) as [HI' _]. pose proof (g3_gamma (e_cfg e) d' (proj1 (eo_u e K)) HI') as G1.
    assert (DE : forall o d, density (e_cfg e) o d = jobDensity e o d). { intros o d. unfold density, jobDensity. change (c_gamma3 (e_cfg e)) with (p_g3 (e_p e)). now rewrite (proj1 (eo_u e K)). }
    rewrite (jobTarget_eq e d' G1), (jobTarget_eq e (e_d e) G0), !DE in P, C. split; [exact P|]. split; [exact B|].
    cbn [withState e_p p_rng e_accs e_d]. destruct C as [C|(C1 & C2 & C3 & C4 & C5)]; [left; exact C|right]. repeat (split; [assumption|]). destruct C5 as [C5|[_ C5]]; auto.
Qed.

(** *** what a measurement of a job adds, seen from the sampled distribution *)
Theorem vivid_unbiased (RS : forall x, read (show x) = Some x) (e e' : env) k s : vivid e k s -> positive_para (e_p e) -> envMeasure e = Ok e' -> wm_ex (e_d e) = false ->
  let d := e_d e in let T := e_tab e in let V := IZR (Vol (p_lat (e_p e)) * SublatVol (p_lat (e_p e))) in
  let q := ((if measG d then 1 else p_pr (e_p e)) * labels d / jobTarget (e_p e) d)%R in
  (0 < q)%R /\ (0 < V)%R /\
  (order d = 0 -> measG d = true -> wf_data (weToDict (m_S (e_m e'))) = wf_data (weToDict (m_S (e_m e))) /\ (we_nacc (m_S (e_m e')) = we_nacc (m_S (e_m e)) + V * q)%R /\ m_P (e_m e') = m_P (e_m e)) /\
  (order d = 0 -> measG d = false -> wf_data (weToDict (m_P (e_m e'))) = wf_data (weToDict (m_P (e_m e))) /\ (we_nacc (m_P (e_m e')) = we_nacc (m_P (e_m e)) + V * q)%R /\ m_S (e_m e') = m_S (e_m e)) /\
  (order d <> 0 -> measG d = true -> m_P (e_m e') = m_P (e_m e) /\ exists i,
     let vi := g_ver d (gmeas d) OUT in let vo := g_ver d (gmeas d) IN in
     GetIndexSmooth (gmap T) (spinZ (v_S d vi IN)) (spinZ (v_S d vo OUT)) (v_R d vi) (v_R d vo) (v_T d vi) (v_T d vo) = Ok i /\
     added (gmap T) (p_order (e_p e)) (m_S (e_m e)) (m_S (e_m e')) (order d) i (cmul_r (cmul_r (dweight d) (IZR (TauSym (gmap T) (v_T d vi) (v_T d vo)))) q)) /\
  (order d <> 0 -> measG d = false -> m_S (e_m e') = m_S (e_m e) /\ exists i,
     let vi := w_ver d (wmeas d) OUT in let vo := w_ver d (wmeas d) IN in
     GetIndexSmooth (wmap T) (spin4 (v_S d vi)) (spin4 (v_S d vo)) (v_R d vi) (v_R d vo) (v_T d vi) (v_T d vo) = Ok i /\
     added (wmap T) (p_order (e_p e)) (m_P (e_m e)) (m_P (e_m e')) (order d) i (cmul_r (cneg (dweight d)) q)).
Proof.
  intros H PP MM WX. cbv zeta. destruct (vivid_good RS e k s H) as [G _]. destruct G as [HI LS HW W1].
  pose proof (job_ok next show read seedE strOf pid RS _ _ _ (vivid_job _ _ _ H)) as [[K CN] _].
  pose proof (job_positive e K PP) as PC. pose proof (ok_cfg e K) as C. pose proof (ok_gamma e K) as G0.
  set (c := e_cfg e) in *. set (d := e_d e) in *. set (q := ((if measG d then 1 else p_pr (e_p e)) * labels d / jobTarget (e_p e) d)%R).
  destruct (envMeasure_ok e K) as (e2 & x & Q & _ & _ & _ & X & F). rewrite MM in Q. injection Q as <-. fold c d in X, F.
  pose proof (dw_nz c d HI LS HW) as NZ. assert (EP : toC (dphase d) = Cdiv (toC (dweight d)) (RtoC (Cmod (toC (dweight d))))) by (rewrite (wi_ph _ _ HW); now apply phase_nz).
  pose proof (order_range c d HI C) as OR. pose proof (phase_share c d x NZ EP PC (proj1 OR) X WX) as PS. unfold share, kind, corr in PS. rewrite G0 in PS. cbn [Z.eqb] in PS.
  change (target c d) with (target (e_cfg e) (e_d e)) in PS. rewrite (jobTarget_eq e (e_d e) G0) in PS. fold d in PS. change (c_pr c) with (p_pr (e_p e)) in PS. fold q in PS. rewrite Rmult_1_r in PS.
  assert (M : (0 < Cmod (toC (dweight d)))%R) by now apply Cmod_gt_0. pose proof (labels_pos d) as LP. pose proof PC as (P1 & P2 & P3 & _).
  pose proof (rat_nth _ _ _ X (proj1 OR)) as NX. change (@real NumR) with R in *. assert (XP : (0 < x)%R).
  { rewrite <- NX. apply nth_pos; auto. pose proof (co_orw c C). change (@real NumR) with R in *. lia. }
  assert (KP : (0 < (if measG d then 1 else p_pr (e_p e)))%R) by (destruct (measG d); [lra|exact P3]).
  assert (T : jobTarget (e_p e) d = (Cmod (toC (dweight d)) * x * (if measG d then 1 else p_pr (e_p e)) * labels d)%R).
  { unfold jobTarget. change (re (dweight d), im (dweight d)) with (toC (dweight d)). change (p_orw (e_p e)) with (c_orw c). change (@real NumR) with R in *. rewrite NX, WX. ring. }
  assert (TP : (0 < jobTarget (e_p e) d)%R) by (rewrite T; repeat (apply Rmult_lt_0_compat; [|assumption]); exact M).
  assert (QP : (0 < q)%R) by (unfold q, Rdiv; apply Rmult_lt_0_compat; [apply Rmult_lt_0_compat; assumption|now apply Rinv_0_lt_compat]).
  assert (VP : (0 < IZR (Vol (p_lat (e_p e)) * SublatVol (p_lat (e_p e))))%R).
  { apply (IZR_lt 0). pose proof (co_gmap _ C) as GM. pose proof (mo_sub _ GM) as S. pose proof (Vol_pos _ (mo_size _ GM) (mo_pos _ GM)) as V. cbn in S, V. apply Z.mul_pos_pos; assumption. }
  split; [exact QP|]. split; [exact VP|].
  assert (OW : order d = 0 -> (@rdiv NumR (@rofZ NumR 1) x = IZR (Vol (p_lat (e_p e)) * SublatVol (p_lat (e_p e))) * q)%R).
  { intros O. pose proof (wi_p _ _ HW) as W0. rewrite O in W0. cbn [Z.eqb] in W0. change (normF (c_tab c)) with (IZR (Vol (p_lat (e_p e)) * SublatVol (p_lat (e_p e)))) in W0.
    unfold q. rewrite T, W0, Cmod_R, Rabs_pos_eq by lra. change (@rdiv NumR (@rofZ NumR 1) x) with (1 / x)%R. change (@real NumR) with R in *. field. repeat split; lra. }
  destruct F as [F1 F2|F1 F2 F3 F4 F5 F6 F7 F8 F9|F1 F2 F3 F4 F5 F6 F7 F8 F9|i F1 F2 F3 F4 F5 F6 F7 F8|i F1 F2 F3 F4 F5 F6 F7 F8|g g' F1 F2 F3 F4 F5 F6 F7 F8 F9|g g' F1 F2 F3 F4 F5 F6 F7 F8 F9].
  - congruence.
  - destruct F6 as [F6 F6']. split; [intros _ Q|split; [intros _ Q|split; intros Q; contradiction]]; try congruence. split; [exact F6|]. split; [|assumption]. rewrite F6', (OW F2). reflexivity.
  - destruct F6 as [F6 F6']. split; [intros _ Q|split; [intros _ Q|split; intros Q; contradiction]]; try congruence. split; [exact F6|]. split; [|assumption]. rewrite F6', (OW F2). reflexivity.
  - split; [intros Q; contradiction|]. split; [intros Q; contradiction|]. split; [intros _ _|intros _ Q; congruence]. split; [assumption|]. exists i. destruct F7 as [Q1 Q2]. split; [exact Q1|].
    match type of Q2 with added _ _ _ _ _ _ ?w => match goal with |- added _ _ _ _ _ _ ?v => replace v with w; [exact Q2|] end end.
    rewrite PS. apply cplx_eq; cbn; ring.
  - split; [intros Q; contradiction|]. split; [intros Q; contradiction|]. split; [intros _ Q; congruence|intros _ _]. split; [assumption|]. exists i. destruct F7 as [Q1 Q2]. split; [exact Q1|].
    match type of Q2 with added _ _ _ _ _ _ ?w => match goal with |- added _ _ _ _ _ _ ?v => replace v with w; [exact Q2|] end end.
    assert (Z : @cmul_r NumR (@rmul_c NumR (@rofZ NumR (-1)) (dphase d)) (@rdiv NumR (@rofZ NumR 1) x) = @cneg NumR (@cmul_r NumR (dphase d) (@rdiv NumR (@rofZ NumR 1) x))) by (apply cplx_eq; cbn; ring).
    rewrite Z, PS. apply cplx_eq; cbn; ring.
  - contradiction.
  - contradiction.
Qed.
End Vivid.
