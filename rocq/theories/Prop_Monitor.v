(** The measurement module: C69-C78. See DESIGN.md. *)
From Coq Require Import ZArith List Bool String Lia Reals Lra Floats.SpecFloat.
From Coquelicot Require Import Complex.
From Verif Require Import Base Num NumR NumF Momentum RNG Complex Lattice Bundle IndexMap Weights Diagram Markov DiagramIO History Estimator WeightEstimator Gamma3 Monitor Target
  P_Complex P_Lattice P_IndexMap P_Bundle P_WP P_Inv P_Sem1 P_Hop P_IO P_History P_Promises Prop_Markov P_Weight Prop_Weight P_MH P_Estimator P_WeightEst P_Gamma3 Prop_Gamma3 P_Monitor P_MonitorR P_IOProm Prop_IO Prop_Float P_Trap.
Import ListNotations.
Open Scope Z_scope.

(** ** C69: every measurement succeeds and changes exactly what it should
    [run]: any interleaving of updates, measurements and squeezing, the reweighting factors changing
    freely in between. [effect] lists, per kind of diagram, what changes and that nothing else does. *)
Theorem C69_measure : forall (N : Num) (E : Type) (next : E -> Z * E) (allowed : real -> Prop) (c c' : cfg) (mtG mtW rs ts : Z) (s : mstate) (m : mon),
  cfg_ok c -> new_ok (c_lat c) -> setup c mtG mtW rs ts -> run next allowed c mtG mtW rs ts s m -> retuned c c' ->
  exists x m', nth_error (c_orw c') (Z.to_nat (order (md s))) = Some x /\ monMeasure c' (md s) m = Ok m' /\ effect c' mtG mtW rs ts (md s) (rdiv (rofZ 1) x) m m'.
Proof.
  intros N E next allowed c c' mtG mtW rs ts s m C LK SU H RT. destruct (run_ok next allowed c mtG mtW rs ts s m C LK SU H) as [Hh MO].
  pose proof (history_inv next c s C LK Hh) as HI. apply (retuned_Inv c c' _ RT) in HI. pose proof (history_ext next c s C LK Hh) as HX. apply (retuned_ext c c' _ RT) in HX.
  destruct (retuned_mon c c' mtG mtW rs ts m RT) as [RS RM]. pose proof (retuned_ok c c' C RT) as C'.
  destruct (measure_spec c' mtG mtW rs ts (md s) m C' (proj1 RS SU) HI HX (proj1 RM MO)) as (x & m' & X & M & _ & F). exists x, m'. split; [|auto].
  unfold rat in X. destruct (order (md s) <? 0); [discriminate X|]. destruct (nth_error (c_orw c') (Z.to_nat (order (md s)))) eqn:Q; [|discriminate X]. injection X as <-. reflexivity.
Qed.
Print Assumptions C69_measure.
(** in exact arithmetic [setup] is a condition on sizes only *)
Theorem C69_setup_exact : forall (c : @cfg NumR) mtG mtW rs ts, (0 < (c_beta c : R))%R -> wepar (gmap (c_tab c)) (c_order c) -> wepar (wmap (c_tab c)) (c_order c) ->
  ggpar (c_lat c) mtG -> gwpar (c_lat c) mtW rs ts -> setup c mtG mtW rs ts.
Proof.
  intros c mtG mtW rs ts HB H1 H2 H3 H4. constructor; auto; intros _ t t' T T'; apply (tau_R c) in T, T'; auto; apply binTau_range; auto; [apply H3|apply H4].
Qed.
Print Assumptions C69_setup_exact.
(** the example setup of Prop_Markov with 4 bins for both three-point functions, after 1000 steps, a measurement and a squeeze *)
Lemma ex_setup : setup ex_cfg 4 4 1 1.
Proof.
  apply C69_setup_exact.
  - cbn. lra.
  - split; [exact (co_gmap _ ex_cfg_ok)|]. split; reflexivity.
  - split; [exact (co_wmap _ ex_cfg_ok)|]. split; reflexivity.
  - split; [discriminate|]. split; [repeat constructor; lia|]. split; reflexivity.
  - split; [discriminate|]. split; [repeat constructor; lia|]. repeat split; lia.
Qed.
Definition ex_gwfile : @gwdict NumR := mkGWD (repeat 0 256) (repeat 1 256) (repeat 0 16) (repeat 1 16) (repeat 0 16) 1 1 None.
Lemma ex_gw : exists w, GWok ex_lat 4 1 1 w /\ @gw_beta NumR w = 2%R /\ gw_nacc w <> None.
Proof.
  destruct (C65_load NumR ex_lat 2%R 4 1 1%R ex_gwfile) as (g0 & g & H1 & H2 & H3 & H4 & _); try reflexivity; try (apply Forall_forall; intros x I; apply repeat_spec in I; cbn in *; lia); try lia.
  { split; [discriminate|]. split; [repeat constructor; lia|]. repeat split; cbn; lia. }
  exists (s_gw_nacc g (Some 0%R)). split; [|split; [exact H4|discriminate]]. destruct H3. split; auto.
Qed.
Lemma ex_weights : exists a b w, weights_ok ex_cfg 4 4 1 1 a b (PAt (@ggNew NumR ex_lat 2%R 4 1%R)) (PAt w).
Proof.
  pose proof ex_setup as SU. destruct (@allocate_ok NumR _ _ 1%R (su_S _ _ _ _ _ SU)) as (a & _ & A & _). destruct (@allocate_ok NumR _ _ 1%R (su_P _ _ _ _ _ SU)) as (b & _ & B & _).
  destruct ex_gw as (w & W1 & W2 & W3). exists a, b, w. split; [exact A|]. split; [exact B|]. split; intros _.
  - eexists. split; [reflexivity|]. split; [apply ggNew_ok; exact (su_G _ _ _ _ _ SU eq_refl)|reflexivity].
  - exists w. split; [reflexivity|]. split; [exact W1|]. split; [exact W2|exact W3].
Qed.
Lemma ex_start s : history ex_next ex_cfg s -> exists m, @run NumR Z ex_next (fun f => (1 <= f)%R) ex_cfg 4 4 1 1 s m.
Proof.
  intros H. destruct ex_weights as (a & b & w & HW). destruct (buildNew_ok ex_cfg a b (PAt (@ggNew NumR ex_lat 2%R 4 1%R)) (PAt w)) as (m & M & _); [cbn; lia|].
  exists m. exact (rn_new ex_next _ ex_cfg 4 4 1 1 s m a b (PAt (@ggNew NumR ex_lat 2%R 4 1%R)) (PAt w) H HW M).
Qed.
Lemma ex_retuned : retuned ex_cfg ex_cfg.
Proof. repeat split; cbn; lia. Qed.
Lemma ex_run s : history ex_next ex_cfg s -> exists m, @run NumR Z ex_next (fun f => (1 <= f)%R) ex_cfg 4 4 1 1 s m /\ exists m0 m1, m0 <> m1 /\ monMeasure ex_cfg (md s) m0 = Ok m1 /\ monSqueeze ex_cfg 2%R m1 = Ok m.
Proof.
  intros H. destruct (ex_start s H) as (m0 & R0). destruct (C69_measure NumR Z ex_next _ ex_cfg ex_cfg 4 4 1 1 s m0 ex_cfg_ok ex_new_ok ex_setup R0 ex_retuned) as (x & m1 & _ & M1 & F).
  assert (R1 : @run NumR Z ex_next (fun f => (1 <= f)%R) ex_cfg 4 4 1 1 s m1) by exact (rn_measure ex_next _ ex_cfg 4 4 1 1 s m0 m1 ex_cfg R0 ex_retuned M1).
  destruct (run_ok ex_next _ ex_cfg 4 4 1 1 s m1 ex_cfg_ok ex_new_ok ex_setup R1) as [_ MO].
  destruct (squeeze_ok ex_cfg 4 4 1 1 2%R m1) as (m & M & _); [apply Rltb_spec; cbn; lra|exact MO|]. exists m. split; [apply (rn_squeeze ex_next _ ex_cfg 4 4 1 1 s m1 m 2%R R1); [cbn; lra|exact M]|]. exists m0, m1. split; [|auto].
  intros Q. assert (K : forall b b' i, @counted NumR b b' i -> b <> b').
  { intros b b' i ((e & E1 & E2) & _) Y. rewrite <- Y, E1 in E2. injection E2 as E2. apply (f_equal e_norm) in E2. unfold eMeasure in E2. cbn in E2. change (@real NumR) with R in *. lra. }
  destruct F as [F1 F2|F1 F2 F3 F4|F1 F2 F3 F4|i F1 F2 F3 F4 F5|i F1 F2 F3 F4 F5|g g' F1 F2 F3 F4 F5|g g' F1 F2 F3 F4 F5]; (eapply K; [eassumption|now rewrite Q]).
Qed.
Example C69_case : exists s m, cfg_ok ex_cfg /\ new_ok (c_lat ex_cfg) /\ setup ex_cfg 4 4 1 1 /\ @run NumR Z ex_next (fun f => (1 <= f)%R) ex_cfg 4 4 1 1 s m /\ mcount s = 1000 /\
  exists m0 m1, m0 <> m1 /\ monMeasure ex_cfg (md s) m0 = Ok m1 /\ monSqueeze ex_cfg 2%R m1 = Ok m.
Proof.
  destruct ex_history as (s & H & Hc). destruct (ex_run s H) as (m & M1 & M2). exists s, m. split; [exact ex_cfg_ok|]. split; [exact ex_new_ok|]. split; [exact ex_setup|]. auto.
Qed.

(** ** C70: the reweighting factors cancel
    The walk visits [d] with probability proportional to [target c' d] (C16). What a visit adds,
    times that probability, is the bare contribution -- [dweight d] to a histogram cell, the weight
    [normF] of order 0 to the normalisation -- times [labels d], times the PolarReweight common to
    the Polar histogram and its normalisation. *)
Theorem C70_unbiased : forall (E : Type) (next : E -> Z * E) (allowed : @real NumR -> Prop) (c c' : @cfg NumR) (mtG mtW rs ts : Z) (s : mstate) (m m' : @mon NumR),
  cfg_ok c -> new_ok (c_lat c) -> setup c mtG mtW rs ts -> run next allowed c mtG mtW rs ts s m -> regular_history next c s -> retuned c c' -> positive c' ->
  (0 < normF (c_tab c))%R -> monMeasure c' (md s) m = Ok m' -> wm_ex (md s) = false ->
  let d := md s in let k := ((if measG d then 1 else c_pr c') * labels d / target c' d)%R in
  (0 < target c' d)%R /\
  (order d = 0 -> measG d = true -> (we_nacc (m_S m') = we_nacc (m_S m) + normF (c_tab c) * k)%R /\
     (c_gamma3 c = true -> exists g g', m_GG m = PAt g /\ m_GG m' = PAt g' /\ (gg_nacc g' = gg_nacc g + normF (c_tab c) * k)%R)) /\
  (order d = 0 -> measG d = false -> (we_nacc (m_P m') = we_nacc (m_P m) + normF (c_tab c) * k)%R /\
     (c_gamma3 c = true -> exists g g' y, m_GW m = PAt g /\ m_GW m' = PAt g' /\ gw_nacc g = Some y /\ gw_nacc g' = Some (y + normF (c_tab c) * k)%R)) /\
  (order d <> 0 -> gamma d = 0 -> measG d = true -> exists i,
     let vi := g_ver d (gmeas d) OUT in let vo := g_ver d (gmeas d) IN in
     GetIndexSmooth (gmap (c_tab c)) (spinZ (v_S d vi IN)) (spinZ (v_S d vo OUT)) (v_R d vi) (v_R d vo) (v_T d vi) (v_T d vo) = Ok i /\
     added (gmap (c_tab c)) (c_order c) (m_S m) (m_S m') (order d) i (cmul_r (cmul_r (dweight d) (IZR (TauSym (gmap (c_tab c)) (v_T d vi) (v_T d vo)))) k)) /\
  (order d <> 0 -> gamma d = 0 -> measG d = false -> exists i,
     let vi := w_ver d (wmeas d) OUT in let vo := w_ver d (wmeas d) IN in
     GetIndexSmooth (wmap (c_tab c)) (spin4 (v_S d vi)) (spin4 (v_S d vo)) (v_R d vi) (v_R d vo) (v_T d vi) (v_T d vo) = Ok i /\
     added (wmap (c_tab c)) (c_order c) (m_P m) (m_P m') (order d) i (cmul_r (cneg (dweight d)) k)) /\
  (order d <> 0 -> gamma d <> 0 -> measG d = true -> exists g g', m_GG m = PAt g /\ m_GG m' = PAt g' /\
     let vi := g_ver d (gmeas d) OUT in let vo := g_ver d (gmeas d) IN in let u := uext d in
     gg_added (c_lat c) mtG g g' (v_S d vi IN) (CoordiIndex (c_lat c) (v_R d vi) (ex_R u))
       (binTau (c_beta c) mtG (rsub (v_T d vo) (ex_T u))) (binTau (c_beta c) mtG (rsub (v_T d vi) (ex_T u)))
       (cmul_r (cmul_r (dweight d) (ggSign g (v_T d vi) (v_T d vo) (ex_T u))) k)) /\
  (order d <> 0 -> gamma d <> 0 -> measG d = false -> exists g g', m_GW m = PAt g /\ m_GW m' = PAt g' /\
     let vi := w_ver d (wmeas d) IN in let vo := w_ver d (wmeas d) OUT in let u := uext d in
     gw_added rs ts g g' (gwk (v_S d vi)) (gwr g (v_R d vi) (v_R d vo) (ex_R u)) (gwt g (v_T d vi) (v_T d vo) (ex_T u))
       (cmul_r (gwstored g (v_R d vi) (v_R d vo) (ex_R u) (v_T d vi) (v_T d vo) (ex_T u) (v_S d vi) (v_S d vo) (dweight d)) k)).
Proof. exact @unbiased. Qed.
Print Assumptions C70_unbiased.
Lemma ex_positive : positive ex_cfg.
Proof. split; [repeat constructor; lra|]. cbn. repeat split; try lra. unfold sites. apply (IZR_lt 0). reflexivity. Qed.
(** a fresh diagram: order 1, measured on a G line *)
Example C70_case : exists s m m', cfg_ok ex_cfg /\ new_ok (c_lat ex_cfg) /\ setup ex_cfg 4 4 1 1 /\ @run NumR Z ex_next (fun f => (1 <= f)%R) ex_cfg 4 4 1 1 s m /\
  regular_history ex_next ex_cfg s /\ retuned ex_cfg ex_cfg /\ positive ex_cfg /\ (0 < normF (c_tab ex_cfg))%R /\ monMeasure ex_cfg (md s) m = Ok m' /\
  wm_ex (md s) = false /\ order (md s) = 1 /\ gamma (md s) = 0 /\ measG (md s) = true.
Proof.
  destruct (BuildNew_inv ex_cfg (@diagram_new NumR) ex_cfg_ok (proj1 ex_new_ok) (proj2 ex_new_ok)) as (co & d1 & d & _ & B & _ & _ & HI & Ga & _).
  { repeat split. }
  destruct (@fresh_structural NumR ex_cfg (@diagram_new NumR) ex_cfg_ok ex_new_ok) as (d2 & B2 & _ & F1 & F2 & F3 & F4); [repeat split|]. rewrite B in B2. injection B2 as <-.
  set (s0 := mkS d 7 0 (fun _ _ => 0%R) (fun _ _ => 0%R)).
  assert (Hh : history ex_next ex_cfg s0) by (apply (hi_new ex_next ex_cfg s0 diagram_new); [repeat split|exact B]).
  destruct (ex_start s0 Hh) as (m & R0). destruct (C69_measure NumR Z ex_next _ ex_cfg ex_cfg 4 4 1 1 s0 m ex_cfg_ok ex_new_ok ex_setup R0 ex_retuned) as (x & m1 & _ & M1 & _).
  exists s0, m, m1. split; [exact ex_cfg_ok|]. split; [exact ex_new_ok|]. split; [exact ex_setup|]. split; [exact R0|]. split.
  - apply (rh_new ex_next ex_cfg s0 diagram_new); [repeat split|exact B| |]; intros x0 Lx; apply live_exist in Lx.
    + pose proof (i_sG _ _ HI x0 Lx) as Q. rewrite (f_gg0 HI x0 Lx Ga) in Q. exact (ex_G_nz _ _ _ _ _ _ _ _ _ Q).
    + pose proof (i_sW _ _ HI x0 Lx) as Q. rewrite (f_ww0 HI x0 Lx Ga) in Q. exact (ex_W_nz _ _ _ _ _ _ _ _ _ _ _ Q).
  - split; [exact ex_retuned|]. split; [exact ex_positive|]. split; [cbn; lra|]. split; [exact M1|]. auto.
Qed.

(** ** C71: adjusting never breaks the sampler
    whatever was measured, AdjustOrderReWeight succeeds and leaves every factor positive, as C16 and
    C70 require. Squeezing factors below 1 are excluded. *)
Theorem C71_adjust_positive : forall (E : Type) (next : E -> Z * E) (c c' : @cfg NumR) (mtG mtW rs ts : Z) (s : mstate) (m : @mon NumR) (ratio : list R),
  cfg_ok c -> new_ok (c_lat c) -> setup c mtG mtW rs ts -> run next (fun f : @real NumR => (1 <= f)%R) c mtG mtW rs ts s m -> retuned c c' -> positive c' ->
  (Z.to_nat (c_order c) < List.length ratio)%nat -> Forall (fun x => 0 < x)%R ratio ->
  exists b c2, @monAdjust NumR c' ratio m = Ok (b, c2) /\ positive c2 /\ retuned c c2.
Proof. exact @adjust_run. Qed.
Print Assumptions C71_adjust_positive.
Example C71_case : exists s m, cfg_ok ex_cfg /\ new_ok (c_lat ex_cfg) /\ setup ex_cfg 4 4 1 1 /\ @run NumR Z ex_next (fun f => (1 <= f)%R) ex_cfg 4 4 1 1 s m /\ mcount s = 1000 /\
  retuned ex_cfg ex_cfg /\ positive ex_cfg /\ (Z.to_nat (c_order ex_cfg) < List.length [1; 2; 3; 4]%R)%nat /\ Forall (fun x => 0 < x)%R [1; 2; 3; 4]%R.
Proof.
  destruct C69_case as (s & m & H1 & H2 & H3 & H4 & H5 & _). exists s, m. split; [exact H1|]. split; [exact H2|]. split; [exact H3|]. split; [exact H4|]. split; [exact H5|]. split; [exact ex_retuned|]. split; [exact ex_positive|].
  split; [cbn; lia|]. repeat constructor; lra.
Qed.
(** ** C72 is false: AdjustOrderReWeight can return false after it has changed OrderReWeight
    A statistics file with 1024 worm-free samples per order and none with a worm. *)
Definition cnt (n : Z) : @edict NumF := @mkED NumF (fz n) (fz n) [] (fz 0) (fz 0).
Definition file (worm phy : Z) : @mfile NumF := @mkMF NumF (fun _ => Some (cnt worm)) (fun _ => Some (cnt phy)) (cnt 1024) (cnt 1024) None None.
Definition weF : @west NumF := @mkWE NumF (fz 1) (fz 1) (fz 0) (@mkWA NumF [] []) 0.
Definition monF (worm phy : Z) : outcome (@mon NumF) := monFromDict cfgF (file worm phy) weF weF PNull PNull.
Definition isok {A} (o : outcome A) : bool := match o with Ok _ => true | _ => false end.
Lemma okF {A} (o : outcome A) : isok o = true -> exists a, o = Ok a.
Proof. destruct o; [eauto|discriminate|discriminate]. Qed.
Lemma okP {A B} (f : A -> B) (o : outcome A) (b : B) : match o with Ok a => Some (f a) | _ => None end = Some b -> exists a, o = Ok a /\ f a = b.
Proof. destruct o; intros H; [injection H as <-; eauto|discriminate H|discriminate H]. Qed.
Definition adjF (worm phy : Z) (c : @cfg NumF) (ratio : list F64) : outcome (bool * @cfg NumF) := obind (monF worm phy) (@monAdjust NumF c ratio).
Theorem C72_failed_adjust_changes_nothing_refuted :
  exists (m : @mon NumF) (ratio : list F64) (c' : @cfg NumF), monF 0 1024 = Ok m /\ cfg_ok cfgF /\ List.length ratio = 4%nat /\
    @monAdjust NumF cfgF ratio m = Ok (false, c') /\ c_orw cfgF = [fz 1; fz 1; fz 1; fz 1] /\ c_orw c' = [fz 1; fz 2; fz 3; fz 4].
Proof.
  destruct (okF (monF 0 1024)) as (m & M); [vm_compute; reflexivity|].
  destruct (okP (fun x => (fst x, c_orw (snd x))) (adjF 0 1024 cfgF [fz 1; fz 2; fz 3; fz 4]) (false, [fz 1; fz 2; fz 3; fz 4])) as ([b c'] & A1 & A2); [vm_compute; reflexivity|].
  unfold adjF in A1. rewrite M in A1. cbn [fst snd] in A2. injection A2 as -> A2. exists m, [fz 1; fz 2; fz 3; fz 4], c'. split; [exact M|]. split; [exact cfgF_ok|]. split; [reflexivity|]. split; [exact A1|]. split; [reflexivity|exact A2].
Qed.
Print Assumptions C72_failed_adjust_changes_nothing_refuted.

(** ** C73 is false: PrintOrderReWeight assigns WormSpaceReweight. [C73_print_effect] says what it
    assigns; [counting]: Order + 1 counters per kind, each non-negative (proved of every run). *)
Theorem C73_print_effect : forall (c : @cfg NumR) (m : @mon NumR), counting c m -> let l := seq 1 (Z.to_nat (c_order c)) in
  @monPrint NumR c m = Ok (mkCfg (c_tab c) (c_lat c) (c_beta c) (c_order c) (c_gamma3 c) (c_orw c)
    (Rsum (held (m_phy m)) l / Rsum (held (m_worm m)) l)%R (c_pr c) (c_ggr c) (c_gwr c)).
Proof. exact print_spec. Qed.
Print Assumptions C73_print_effect.
Theorem C73_counting : forall (E : Type) (next : E -> Z * E) (c : @cfg NumR) (mtG mtW rs ts : Z) (s : mstate) (m : @mon NumR),
  cfg_ok c -> new_ok (c_lat c) -> setup c mtG mtW rs ts -> run next (fun f : @real NumR => (1 <= f)%R) c mtG mtW rs ts s m -> counting c m.
Proof. exact @run_counting. Qed.
Print Assumptions C73_counting.
(** The factor goes from 1 to 2 because the statistics hold 2048 worm-free and 1024 worm samples per order. *)
Theorem C73_print_changes_nothing_refuted :
  exists (m : @mon NumF) (c' : @cfg NumF), monF 1024 2048 = Ok m /\ cfg_ok cfgF /\ @monPrint NumF cfgF m = Ok c' /\ c_wsr cfgF = fz 1 /\ c_wsr c' = fz 2.
Proof.
  destruct (okF (monF 1024 2048)) as (m & M); [vm_compute; reflexivity|].
  destruct (okP c_wsr (obind (monF 1024 2048) (monPrint cfgF)) (fz 2)) as (c' & A1 & A2); [vm_compute; reflexivity|]. rewrite M in A1. exists m, c'. split; [exact M|]. split; [exact cfgF_ok|]. split; [exact A1|]. split; [reflexivity|exact A2].
Qed.
Print Assumptions C73_print_changes_nothing_refuted.

(** ** C74: the adjusted factors aim at the requested time ratios
    [predicted c c' m k]: the count of order [k] scaled by the change of its factor. *)
Theorem C74_time_ratios : forall (c c' : @cfg NumR) (ratio : list R) (m : @mon NumR),
  1 <= c_order c -> positive c -> (Z.to_nat (c_order c) < List.length (c_orw c))%nat -> (Z.to_nat (c_order c) < List.length ratio)%nat ->
  counting c m -> @monAdjust NumR c ratio m = Ok (true, c') ->
  (forall i, (1 <= i <= Z.to_nat (c_order c))%nat -> predicted c c' m i = nth i ratio 0 * total m 0)%R /\
  (nth 0 (c_orw c) 0 = 1 -> predicted c c' m 0 = total m 0)%R /\
  (let l := seq 1 (Z.to_nat (c_order c)) in Rsum (held (m_worm m)) l * (c_wsr c' / c_wsr c) = Rsum (held (m_phy m)) l)%R /\
  (e_acc (m_pol m) * (c_pr c' / c_pr c) = e_acc (m_sig m))%R /\
  (c_gamma3 c = true -> e_acc (m_gg m) * (c_ggr c' / c_ggr c) = e_acc (m_sig m) /\ e_acc (m_gw m) * (c_gwr c' / c_gwr c) = e_acc (m_pol m))%R.
Proof. exact adjust_balances. Qed.
Print Assumptions C74_time_ratios.
Definition ecount (x : R) : @est NumR := @mkEst NumR 0 0 x x 1%R 0%R 0%R [].
Definition cfg1 : @cfg NumR := mkCfg (c_tab ex_cfg) (c_lat ex_cfg) 2%R 1 true [1; 2]%R 1%R 1%R 1%R 1%R.
Definition mon1 (p0 p1 w1 sg po : R) : @mon NumR :=
  mkMon (mkEB [(oname 0, ecount 0); (oname 1, ecount w1)] (fun _ => None)) (mkEB [(oname 0, ecount p0); (oname 1, ecount p1)] (fun _ => None)) (ecount sg) (ecount po) (ecount 1000) (ecount 1000)
    (@mkWE NumR 1%R 1%R 0%R (mkWA [] []) 0) (@mkWE NumR 1%R 1%R 0%R (mkWA [] []) 0) PNull PNull.
Lemma mon1_counting p0 p1 w1 sg po : (0 <= p0)%R -> (0 <= p1)%R -> (0 <= w1)%R -> (0 <= sg)%R -> (0 <= po)%R -> counting cfg1 (mon1 p0 p1 w1 sg po).
Proof. intros. split; [reflexivity|]. split; [reflexivity|]. unfold counters, Qe. cbn [mon1 m_worm m_phy m_sig m_pol m_gg m_gw eb_vec].
  repeat match goal with |- Forall _ [] => apply Forall_nil | |- Forall _ _ => apply Forall_cons | |- _ /\ _ => split end; cbn; lra. Qed.
Lemma cfg1_positive : positive cfg1.
Proof. split; [repeat constructor; lra|]. cbn. repeat split; try lra. unfold sites. apply (IZR_lt 0). reflexivity. Qed.
Lemma mon1_true p0 p1 w1 sg po (ratio : list R) : (1000 <= p0)%R -> (1000 <= p1)%R -> (1 <= w1)%R -> (1 <= sg)%R -> (1000 <= po)%R -> List.length ratio = 2%nat -> exists c', @monAdjust NumR cfg1 ratio (mon1 p0 p1 w1 sg po) = Ok (true, c').
Proof.
  intros H1 H2 H3 H4 H5 L. apply adjust_true; auto; try (cbn; lia).
  - apply mon1_counting; lra.
  - intros i I. change (Z.to_nat (c_order cfg1)) with 1%nat in I. assert (D : i = 0%nat \/ i = 1%nat) by lia. destruct D as [->| ->]; eexists; (split; [reflexivity|]); cbn; lra.
  - intros e [[<-|[]]|(_ & [<-|[<-|[]]])]; cbn; lra.
  - change (1 <= w1 + 0)%R. lra.
Qed.
Example C74_case : exists m c', 1 <= c_order cfg1 /\ positive cfg1 /\ counting cfg1 m /\ (nth 0 (c_orw cfg1) 0 = 1)%R /\ @monAdjust NumR cfg1 [1; 3]%R m = Ok (true, c') /\ total m 0 = 1000%R /\ total m 1 = 2500%R.
Proof.
  destruct (mon1_true 1000 2000 500 1500 1000 [1; 3]%R) as (c' & A); try lra; [reflexivity|]. exists (mon1 1000 2000 500 1500 1000), c'.
  split; [cbn; lia|]. split; [exact cfg1_positive|]. split; [apply mon1_counting; lra|]. split; [reflexivity|]. split; [exact A|]. unfold total, held. cbn. split; lra.
Qed.
(** ... but OrderTimeRatio[0] is ignored: asking for twice as much time at order 0 changes nothing *)
Theorem C74_order0_ratio_refuted :
  exists (m : @mon NumF) (c' : @cfg NumF), monF 1024 1024 = Ok m /\ cfg_ok cfgF /\ @monAdjust NumF cfgF [fz 2; fz 1; fz 1; fz 1] m = Ok (true, c') /\
    c_orw c' = c_orw cfgF /\ c_orw cfgF = [fz 1; fz 1; fz 1; fz 1].
Proof.
  destruct (okF (monF 1024 1024)) as (m & M); [vm_compute; reflexivity|].
  destruct (okP (fun x => (fst x, c_orw (snd x))) (adjF 1024 1024 cfgF [fz 2; fz 1; fz 1; fz 1]) (true, c_orw cfgF)) as ([b c'] & A1 & A2); [vm_compute; reflexivity|].
  unfold adjF in A1. rewrite M in A1. cbn [fst snd] in A2. injection A2 as -> A2. exists m, c'. split; [exact M|]. split; [exact cfgF_ok|]. split; [exact A1|]. split; [exact A2|reflexivity].
Qed.
Print Assumptions C74_order0_ratio_refuted.

(** ** C75 is false: an OrderTimeRatio with fewer than Order + 1 entries is accepted when the
    parameters are read (parameter.cpp:84) and read past its end once the statistics suffice *)
Theorem C75_short_time_ratio_refuted :
  exists m : @mon NumF, monF 1024 1024 = Ok m /\ cfg_ok cfgF /\ @monAdjust NumF cfgF [fz 1; fz 1; fz 1] m = UB.
Proof.
  destruct (okF (monF 1024 1024)) as (m & M); [vm_compute; reflexivity|].
  assert (A : adjF 1024 1024 cfgF [fz 1; fz 1; fz 1] = UB) by (vm_compute; reflexivity).
  unfold adjF in A. rewrite M in A. exists m. split; [exact M|]. split; [exact cfgF_ok|exact A].
Qed.
Print Assumptions C75_short_time_ratio_refuted.

(** ** C76: an infinite or undefined WormSpaceReweight traps the walk ... *)
Theorem C76_trapped : forall (E : Type) (next : E -> Z * E) (c c' : @cfg NumF) (s s' : mstate) (n : Z),
  cfg_ok c -> new_ok (c_lat c) -> history next c s -> retuned c c' -> Hop next c' n s = Ok (tt, s') ->
  (c_wsr c' = S754_nan -> wm_ex (md s) = false -> wm_ex (md s') = false) /\
  (c_wsr c' = S754_infinity false -> wm_ex (md s) = true -> wm_ex (md s') = true).
Proof. exact @trapped. Qed.
Print Assumptions C76_trapped.
(** ... and PrintOrderReWeight produces both: the claim that printing statistics leaves the walk able
    to reach and leave the worm space is false. [m0] a fresh monitor, [m1] after one measurement. *)
Definition w76 : list Z := [opw 0; 0; 10100; 0].
Definition isinf (x : F64) : bool := match x with S754_infinity false => true | _ => false end.
Definition isnan (x : F64) : bool := match x with S754_nan => true | _ => false end.
Definition probe76 (d : @diagram NumF) (a b : @west NumF) : bool :=
  match monBuildNew cfgF a b PNull PNull with
  | Ok m0 => match monPrint cfgF m0, monMeasure cfgF d m0 with
    | Ok c0, Ok m1 => match monPrint cfgF m1 with
      | Ok c1 => match Hop nextF c1 1 (startF w76 d) with
        | Ok (_, s) => isnan (c_wsr c0) && isinf (c_wsr c1) && wm_ex (md s)
        | _ => false end
      | _ => false end
    | _, _ => false end
  | _ => false end.
Definition test76 : bool :=
  match BuildNew tabF latF diagram_new, weAllocate (gmap tabF) 3 (fz 1), weAllocate (wmap tabF) 3 (fz 1) with
  | Ok d, Ok a, Ok b => probe76 d a b
  | _, _, _ => false end.
Lemma t76 : test76 = true. Proof. vm_compute. reflexivity. Qed.
Lemma runs76 : exists s m0, history nextF cfgF s /\ run nextF (fun _ => False) cfgF 0 0 0 0 s m0 /\ wm_ex (md s) = false /\
  exists c0 m1 c1 s1, monPrint cfgF m0 = Ok c0 /\ isnan (c_wsr c0) = true /\ monMeasure cfgF (md s) m0 = Ok m1 /\ monPrint cfgF m1 = Ok c1 /\ isinf (c_wsr c1) = true /\
    Hop nextF c1 1 s = Ok (tt, s1) /\ wm_ex (md s1) = true.
Proof.
  assert (WG : wepar (gmap tabF) 3) by (split; [exact (co_gmap _ cfgF_ok)|split; reflexivity]). assert (WW : wepar (wmap tabF) 3) by (split; [exact (co_wmap _ cfgF_ok)|split; reflexivity]).
  pose proof t76 as T. unfold test76 in T. destruct (BuildNew tabF latF diagram_new) as [d| |] eqn:B; [|discriminate T|discriminate T].
  destruct (@allocate_ok NumF _ _ (fz 1) WG) as (a & A & Wa & _). destruct (@allocate_ok NumF _ _ (fz 1) WW) as (b & Ab & Wb & _). rewrite A, Ab in T. unfold probe76 in T.
  destruct (monBuildNew cfgF a b PNull PNull) as [m0| |] eqn:M0; [|discriminate T|discriminate T].
  destruct (monPrint cfgF m0) as [c0| |] eqn:P0; [|discriminate T|discriminate T]. destruct (monMeasure cfgF d m0) as [m1| |] eqn:M1; [|discriminate T|discriminate T].
  destruct (monPrint cfgF m1) as [c1| |] eqn:P1; [|discriminate T|discriminate T]. destruct (Hop nextF c1 1 (startF w76 d)) as [[[] s1]| |] eqn:H1; [|discriminate T|discriminate T].
  apply andb_prop in T as [T T3]. apply andb_prop in T as [T1 T2].
  destruct (@fresh_structural NumF cfgF diagram_new cfgF_ok newF_ok) as (d2 & B2 & _ & _ & F2 & _); [repeat split|]. change (c_tab cfgF) with tabF in B2. change (c_lat cfgF) with latF in B2. rewrite B in B2. injection B2 as <-.
  assert (Hh : history nextF cfgF (startF w76 d)) by (apply (hi_new nextF cfgF (startF w76 d) diagram_new); [repeat split|exact B]).
  exists (startF w76 d), m0. split; [exact Hh|]. split.
  { apply (rn_new nextF _ cfgF 0 0 0 0 _ m0 a b PNull PNull Hh); [|exact M0]. split; [exact Wa|]. split; [exact Wb|]. split; intros X; discriminate X. }
  split; [exact F2|]. exists c0, m1, c1, s1. auto 10.
Qed.
Theorem C76_print_refuted :
  exists (s s1 : mstate) (m0 m1 : mon) (c0 c1 : @cfg NumF), cfg_ok cfgF /\ new_ok (c_lat cfgF) /\ history nextF cfgF s /\ run nextF (fun _ => False) cfgF 0 0 0 0 s m0 /\
    monPrint cfgF m0 = Ok c0 /\ c_wsr c0 = S754_nan /\ (forall n s', Hop nextF c0 n s = Ok (tt, s') -> wm_ex (md s') = false) /\
    monMeasure cfgF (md s) m0 = Ok m1 /\ monPrint cfgF m1 = Ok c1 /\ c_wsr c1 = S754_infinity false /\
    Hop nextF c1 1 s = Ok (tt, s1) /\ wm_ex (md s1) = true /\ (forall n s', Hop nextF c1 n s1 = Ok (tt, s') -> wm_ex (md s') = true).
Proof.
  destruct runs76 as (s & m0 & Hh & R0 & X & c0 & m1 & c1 & s1 & P0 & N0 & M1 & P1 & I1 & H1 & X1).
  assert (RT : forall m c, monPrint cfgF m = Ok c -> retuned cfgF c).
  { intros m c P. unfold monPrint in P. repeat (apply obind_ok in P as (? & _ & P)). destruct x1. injection P as <-. repeat split. cbn. lia. }
  assert (E0 : c_wsr c0 = S754_nan) by (destruct (c_wsr c0) as [| | |] ; try discriminate N0; reflexivity).
  assert (E1 : c_wsr c1 = S754_infinity false) by (destruct (c_wsr c1) as [|[]| |] ; try discriminate I1; reflexivity).
  assert (Hh1 : history nextF cfgF s1) by exact (hi_hop nextF cfgF s s1 c1 1 Hh (RT _ _ P1) H1).
  exists s, s1, m0, m1, c0, c1. split; [exact cfgF_ok|]. split; [exact newF_ok|]. split; [exact Hh|]. split; [exact R0|]. split; [exact P0|]. split; [exact E0|]. split.
  { intros n s' H. exact (proj1 (trapped nextF cfgF c0 s s' n cfgF_ok newF_ok Hh (RT _ _ P0) H) E0 X). }
  split; [exact M1|]. split; [exact P1|]. split; [exact E1|]. split; [exact H1|]. split; [exact X1|].
  intros n s' H. exact (proj2 (trapped nextF cfgF c1 s1 s' n cfgF_ok newF_ok Hh1 (RT _ _ P1) H) E1 X1).
Qed.
Print Assumptions C76_print_refuted.

(** ** C77: saving and loading the counters
    also into a run with another maximal order: [restored] takes over the common orders and starts
    the others from zero. *)
Theorem C77_save_load : forall (N : Num) (E : Type) (next : E -> Z * E) (allowed : real -> Prop) (c0 c : cfg) (mtG mtW rs ts : Z) (s0 : mstate) (m0 : mon) (eS eP : west) (G : ptr ggam) (W : ptr gwam),
  1 <= c_order c0 <= 9 -> 1 <= c_order c <= 9 -> c_gamma3 c = c_gamma3 c0 -> run next allowed c0 mtG mtW rs ts s0 m0 ->
  exists m, monFromDict c (monToDict c0 m0) eS eP G W = Ok m /\
    restored (m_worm m0) (m_worm m) (Z.to_nat (c_order c0)) (Z.to_nat (c_order c)) /\
    restored (m_phy m0) (m_phy m) (Z.to_nat (c_order c0)) (Z.to_nat (c_order c)) /\
    (e_acc (m_sig m) = e_acc (m_sig m0) /\ e_norm (m_sig m) = e_norm (m_sig m0)) /\ (e_acc (m_pol m) = e_acc (m_pol m0) /\ e_norm (m_pol m) = e_norm (m_pol m0)) /\
    (c_gamma3 c = true -> (e_acc (m_gg m) = e_acc (m_gg m0) /\ e_norm (m_gg m) = e_norm (m_gg m0)) /\ (e_acc (m_gw m) = e_acc (m_gw m0) /\ e_norm (m_gw m) = e_norm (m_gw m0))).
Proof. intros N E next allowed c0 c mtG mtW rs ts s0 m0 eS eP G W O0 O G3 H. exact (load_ok next allowed c0 mtG mtW rs ts s0 m0 c eS eP G W O0 O G3 H). Qed.
Print Assumptions C77_save_load.
(** loaded with a smaller maximal order *)
Example C77_case : exists s m, @run NumR Z ex_next (fun f => (1 <= f)%R) ex_cfg 4 4 1 1 s m /\ mcount s = 1000 /\ 1 <= c_order ex_cfg <= 9 /\ 1 <= c_order cfg1 <= 9 /\ c_gamma3 cfg1 = c_gamma3 ex_cfg /\ c_order cfg1 <> c_order ex_cfg.
Proof. destruct C69_case as (s & m & _ & _ & _ & H4 & H5 & _). exists s, m. split; [exact H4|]. split; [exact H5|]. cbn. lia. Qed.

(** ** C78: adjusting again
    Where the counts already have the requested ratios nothing changes ... *)
Theorem C78_fixed_point : forall (c : @cfg NumR) (ratio : list R) (m : @mon NumR) (b : bool) (c' : @cfg NumR),
  1 <= c_order c -> (Z.to_nat (c_order c) < List.length (c_orw c))%nat -> (Z.to_nat (c_order c) < List.length ratio)%nat -> counting c m ->
  (nth 0 (c_orw c) 0 = 1)%R -> (forall i, (1 <= i <= Z.to_nat (c_order c))%nat -> total m i = nth i ratio 0 * total m 0)%R ->
  (let l := seq 1 (Z.to_nat (c_order c)) in Rsum (held (m_worm m)) l = Rsum (held (m_phy m)) l) -> e_acc (m_sig m) = e_acc (m_pol m) ->
  (c_gamma3 c = true -> e_acc (m_gg m) = e_acc (m_sig m) /\ e_acc (m_gw m) = e_acc (m_pol m)) ->
  @monAdjust NumR c ratio m = Ok (b, c') -> c' = c.
Proof. exact adjust_fixed. Qed.
Print Assumptions C78_fixed_point.
Example C78_case : exists m c', counting cfg1 m /\ (nth 0 (c_orw cfg1) 0 = 1)%R /\ (forall i, (1 <= i <= Z.to_nat (c_order cfg1))%nat -> total m i = nth i [1; 2]%R 0 * total m 0)%R /\
  (let l := seq 1 (Z.to_nat (c_order cfg1)) in Rsum (held (m_worm m)) l = Rsum (held (m_phy m)) l) /\ e_acc (m_sig m) = e_acc (m_pol m) /\
  (c_gamma3 cfg1 = true -> e_acc (m_gg m) = e_acc (m_sig m) /\ e_acc (m_gw m) = e_acc (m_pol m)) /\ @monAdjust NumR cfg1 [1; 2]%R m = Ok (true, c').
Proof.
  destruct (mon1_true 1500 1500 1500 1000 1000 [1; 2]%R) as (c' & A); try lra; [reflexivity|]. exists (mon1 1500 1500 1500 1000 1000), c'.
  split; [apply mon1_counting; lra|]. split; [reflexivity|]. split.
  - intros i I. change (Z.to_nat (c_order cfg1)) with 1%nat in I. assert (D : i = 1%nat) by lia. subst i. change (1500 + 1500 = 2 * (0 + 1500))%R. lra.
  - split; [reflexivity|]. split; [reflexivity|]. split; [intros _; split; reflexivity|exact A].
Qed.
(** ... but away from that, a second call without new samples changes the factors a second time *)
Theorem C78_repeat_refuted :
  exists (m : @mon NumF) (c1 c2 : @cfg NumF), monF 1024 1024 = Ok m /\ cfg_ok cfgF /\ @monAdjust NumF cfgF [fz 1; fz 2; fz 2; fz 2] m = Ok (true, c1) /\ @monAdjust NumF c1 [fz 1; fz 2; fz 2; fz 2] m = Ok (true, c2) /\
    c_orw c1 = [fz 1; fz 2; fz 2; fz 2] /\ c_orw c2 = [fz 1; fz 4; fz 4; fz 4].
Proof.
  destruct (okF (monF 1024 1024)) as (m & M); [vm_compute; reflexivity|]. set (r := [fz 1; fz 2; fz 2; fz 2]).
  destruct (okP (fun x => (fst x, c_orw (snd x))) (adjF 1024 1024 cfgF r) (true, [fz 1; fz 2; fz 2; fz 2])) as ([b c1] & A1 & A2); [vm_compute; reflexivity|].
  destruct (okP (fun x => (fst x, c_orw (snd x))) (obind (adjF 1024 1024 cfgF r) (fun x => adjF 1024 1024 (snd x) r)) (true, [fz 1; fz 4; fz 4; fz 4])) as ([b2 c2] & B1 & B2); [vm_compute; reflexivity|].
  rewrite A1 in B1. cbn [obind snd] in B1. unfold adjF in A1, B1. rewrite M in A1, B1. cbn [fst snd] in A2, B2. injection A2 as -> A2. injection B2 as -> B2.
  exists m, c1, c2. split; [exact M|]. split; [exact cfgF_ok|]. split; [exact A1|]. split; [exact B1|]. split; [exact A2|exact B2].
Qed.
Print Assumptions C78_repeat_refuted.

(** ** C80: squeezing the statistics divides every sum and its normalisation by the same factor, so
    no estimate changes. [thin f x x'] says [f * x' = x]; [thin_est], [thin_bundle] and [thin_cells]
    (P_MonitorR.v) apply it to the sum and the normalisation of a counter, to each counter of a
    histogram by name, and to both parts of each cell of an array. *)
Theorem C80_squeeze : forall (c : @cfg NumR) (f : R) (m m' : @mon NumR), @monSqueeze NumR c f m = Ok m' ->
  (0 < f)%R /\ thin_bundle f (m_worm m) (m_worm m') /\ thin_bundle f (m_phy m) (m_phy m') /\ thin_est f (m_sig m) (m_sig m') /\ thin_est f (m_pol m) (m_pol m') /\
  (thin f (we_nacc (m_S m)) (we_nacc (m_S m')) /\ we_norm (m_S m') = we_norm (m_S m) /\ thin_cells f (wa_data (we_accu (m_S m))) (wa_data (we_accu (m_S m')))) /\
  (thin f (we_nacc (m_P m)) (we_nacc (m_P m')) /\ we_norm (m_P m') = we_norm (m_P m) /\ thin_cells f (wa_data (we_accu (m_P m))) (wa_data (we_accu (m_P m')))) /\
  (if c_gamma3 c then
     thin_est f (m_gg m) (m_gg m') /\ thin_est f (m_gw m) (m_gw m') /\
     (exists g g', m_GG m = PAt g /\ m_GG m' = PAt g' /\ thin f (gg_nacc g) (gg_nacc g') /\ gg_norm g' = gg_norm g /\ gg_w g' = gg_w g /\ thin_cells f (wa_data (gg_accu g)) (wa_data (gg_accu g'))) /\
     (exists g g' x x' a a', m_GW m = PAt g /\ m_GW m' = PAt g' /\ gw_nacc g = Some x /\ gw_nacc g' = Some x' /\ gw_accu g = Some a /\ gw_accu g' = Some a' /\
       thin f x x' /\ gw_norm g' = gw_norm g /\ gw_w g' = gw_w g /\ thin_cells f (wa_data a) (wa_data a'))
   else m_gg m' = m_gg m /\ m_gw m' = m_gw m /\ m_GG m' = m_GG m /\ m_GW m' = m_GW m).
Proof. intros c f m m'. exact (mon_squeeze f c m m'). Qed.
Print Assumptions C80_squeeze.
Theorem C80_ratio : forall f a a' n n' : R, (0 < f)%R -> thin f a a' -> thin f n n' -> n <> 0%R -> n' <> 0%R /\ (a' / n' = a / n)%R.
Proof.
  unfold thin. intros f a a' n n' F E1 E2 Nz. subst a n. split; [intros ->; apply Nz; cbn; ring|].
  assert (n' <> 0%R) by (intros ->; apply Nz; cbn; ring). change (@real NumR) with R in *. field. split; [assumption|lra].
Qed.
Print Assumptions C80_ratio.
Example C80_case : exists (m0 m1 m : @mon NumR), m0 <> m1 /\ (exists s, monMeasure ex_cfg (md s) m0 = Ok m1 /\ mcount (E := Z) s = 1000) /\ @monSqueeze NumR ex_cfg 2%R m1 = Ok m /\ c_gamma3 ex_cfg = true.
Proof.
  destruct ex_history as (s & H & Hc). destruct (ex_run s H) as (m & _ & m0 & m1 & Ne & M1 & M2). exists m0, m1, m.
  split; [exact Ne|]. split; [exists s; split; [exact M1|exact Hc]|]. split; [exact M2|reflexivity].
Qed.
