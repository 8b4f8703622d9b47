(** Proofs about the measurement module *)
From Coq Require Import ZArith List Bool String Lia ZifyBool.
From Verif Require Import Base Num Complex Lattice Bundle IndexMap Weights Diagram Markov DiagramIO History Estimator WeightEstimator Gamma3 Monitor
  P_Lattice P_IndexMap P_Bundle P_WP P_Inv P_Rel P_Sem1 P_Hop P_IO P_History P_Promises P_Estimator P_WeightEst P_Gamma3.
Import ListNotations.
Open Scope Z_scope.

Section General.
Context {N : Num}.

(** *** the external point lies on the lattice and has a generated time whenever a vertex correction is present *)
Definition ExtOk (c : cfg) (d : diagram) : Prop := gamma d <> 0 -> site_ok (c_lat c) (ex_R (uext d)) /\ tau_gen c (ex_T (uext d)).

Lemma prop_ext c d op p d' r : Inv c d -> ExtOk c d -> prop_rel c d op p d' r -> ExtOk c d' /\ ExtOk c r.
Proof.
  intros HI HX H. unfold ExtOk in *.
  destruct H as [? ? ? H|? ? ? H|? ? ? H|? ? ? H|? ? ? H|? ? ? H|? ? ? H|? ? ? H|? ? ? H|? ? ? H|? ? ? H|? ? ? H|? ? ? H|? ? ? H|? ? ? H|? ? ? H|? ? ? H|? ? ? G3 H|? ? ? G3 H|? ? ? G3 H|? ? ? G3 H];
    destruct H; try (split; exact HX).
  - split; intros Hg; [|exfalso; apply Hg; assumption]. subst ext. split; [apply (f_site HI), (f_gv HI); assumption|apply draw_gen; assumption].
  - split; intros Hg; [exfalso; apply Hg; reflexivity|exact (HX Hg)].
  - split; intros Hg; [|exfalso; apply Hg; assumption]. subst ext. split; [assumption|apply draw_gen; assumption].
  - split; intros Hg; [exfalso; apply Hg; reflexivity|exact (HX Hg)].
Qed.

Lemma hsteps_ext c n d d' : cfg_ok c -> hsteps c n d d' -> Inv c d -> ExtOk c d -> ExtOk c d'.
Proof.
  intros C. induction 1 as [|n d d1 d2 H Hs IH]; intros HI HX; auto.
  apply IH; [exact (hstep_pres c d d1 C HI H)|]. destruct H as [|op p d' r H _|op p d' r H A]; [exact HX| |]; destruct (prop_ext c _ _ _ _ _ HI HX H); assumption.
Qed.
Lemma retuned_ext c c' d : retuned c c' -> ExtOk c d <-> ExtOk c' d.
Proof. intros (E1 & E2 & E3 & _). unfold ExtOk, tau_gen. rewrite E2, E3. tauto. Qed.
Lemma history_ext {E} (next : E -> Z * E) c s : cfg_ok c -> new_ok (c_lat c) -> history next c s -> ExtOk c (md s).
Proof.
  intros C LK H. induction H as [s d0 K B|s s1 d0 F H IH T K L|s s' c' n H IH R HH].
  - destruct (BuildNew_inv c d0 C (proj1 LK) (proj2 LK) K) as (co & d1 & d' & _ & B' & _ & _ & _ & G & _). rewrite B in B'. injection B' as ->. intros X. contradiction.
  - pose proof (history_inv next c s1 C LK H) as HI. pose proof (Inv_Pre c _ HI) as P. rewrite (ToDict_spec c _ P) in T. injection T as <-.
    destruct (load_inv c (md s1) d0 C P K) as (d1 & d' & B' & _ & _ & _ & G). rewrite L in B'. injection B' as ->. intros X. exfalso. apply X. apply G.
  - pose proof (history_inv next c s C LK H) as HI. apply (retuned_Inv c c' _ R) in HI. pose proof (retuned_ok c c' C R) as C'.
    destruct (Hop_ok next c' n s C' HI) as (s2 & B & S & _). rewrite HH in B. injection B as <-.
    apply (retuned_ext c c' _ R). apply (hsteps_ext c' _ _ _ C' S HI). now apply (retuned_ext c c' _ R).
Qed.

(** *** counters *)
Lemma ebMeasure_ok i x (b : ebundle) : 0 <= i < Z.of_nat (List.length (eb_vec b)) -> exists b' e, ebMeasure i x b = Ok b' /\
  List.length (eb_vec b') = List.length (eb_vec b) /\ eb_map b' = eb_map b /\ ebAt i b = Ok e /\ ebAt i b' = Ok (eMeasure x e) /\
  (forall j, j <> i -> ebAt j b' = ebAt j b) /\ map fst (eb_vec b') = map fst (eb_vec b).
Proof.
  intros H. unfold ebMeasure, ebAt. destruct (Z.ltb_spec i 0); [lia|].
  destruct (nth_error (eb_vec b) (Z.to_nat i)) as [[n e]|] eqn:Q; [|apply nth_error_None in Q; lia]. cbn [obind]. do 2 eexists. split; [reflexivity|]. cbn [eb_vec eb_map].
  pose proof (nth_error_split _ _ Q) as (l1 & l2 & E & L). rewrite E. rewrite <- L.
  rewrite firstn_app, Nat.sub_diag, firstn_O, app_nil_r, firstn_all. replace (S (List.length l1)) with (List.length (l1 ++ [(n, e)])) by (rewrite app_length; cbn; lia).
  replace (l1 ++ (n, e) :: l2) with ((l1 ++ [(n, e)]) ++ l2) by now rewrite <- app_assoc. rewrite skipn_app, Nat.sub_diag, skipn_all. cbn [app skipn].
  split; [rewrite !app_length; cbn; lia|]. split; [reflexivity|]. split; [reflexivity|]. split.
  - rewrite nth_error_app2, Nat.sub_diag by lia. reflexivity.
  - split; [|rewrite <- app_assoc, !map_app; reflexivity].
    intros j Hj. destruct (Z.ltb_spec j 0); [reflexivity|]. destruct (lt_dec (Z.to_nat j) (List.length l1)) as [X|X].
    + rewrite <- app_assoc, !nth_error_app1 by lia. reflexivity.
    + rewrite <- app_assoc, !(nth_error_app2 l1) by lia. cbn [app]. destruct (Z.to_nat j - List.length l1)%nat eqn:Y; [exfalso; lia|]. reflexivity.
Qed.

(** *** what a usable set of objects is *)
Record setup (c : cfg) (mtG mtW rs ts : Z) : Prop := {
  su_S : wepar (gmap (c_tab c)) (c_order c); su_P : wepar (wmap (c_tab c)) (c_order c);
  su_G : c_gamma3 c = true -> ggpar (c_lat c) mtG; su_W : c_gamma3 c = true -> gwpar (c_lat c) mtW rs ts;
  su_bG : c_gamma3 c = true -> forall t t', tau_gen c t -> tau_gen c t' -> bin_ok (c_beta c) mtG t t';
  su_bW : c_gamma3 c = true -> forall t t', tau_gen c t -> tau_gen c t' -> bin_ok (c_beta c) mtW t t' }.
Record MonOk (c : cfg) (mtG mtW rs ts : Z) (m : mon) : Prop := {
  mo_w : List.length (eb_vec (m_worm m)) = S (Z.to_nat (c_order c)); mo_p : List.length (eb_vec (m_phy m)) = S (Z.to_nat (c_order c));
  mo_S : WEok (gmap (c_tab c)) (c_order c) (m_S m); mo_P : WEok (wmap (c_tab c)) (c_order c) (m_P m);
  mo_G : c_gamma3 c = true -> exists g, m_GG m = PAt g /\ GGok (c_lat c) mtG g /\ gg_beta g = c_beta c;
  mo_W : c_gamma3 c = true -> exists g, m_GW m = PAt g /\ GWok (c_lat c) mtW rs ts g /\ gw_beta g = c_beta c /\ gw_nacc g <> None }.
Lemma retuned_mon c c' mtG mtW rs ts m : retuned c c' -> (setup c mtG mtW rs ts <-> setup c' mtG mtW rs ts) /\ (MonOk c mtG mtW rs ts m <-> MonOk c' mtG mtW rs ts m).
Proof.
  intros (E1 & E2 & E3 & E4 & E5 & _).
  assert (T : forall t, tau_gen c' t <-> tau_gen c t) by (intros t; unfold tau_gen; rewrite E3; tauto).
  split; split; intros [H1 H2 H3 H4 H5 H6]; constructor; try rewrite E1 in *; try rewrite E2 in *; try rewrite E3 in *; try rewrite E4 in *; try rewrite E5 in *; auto;
    intros X t t' A B; first [apply H5|apply H6]; auto; apply T; auto.
Qed.

(** spec of one contribution to an estimator: entry (n, i) grows by [w], nothing else changes *)
Definition added (m : imap) (o : Z) (e e' : west) (n i : Z) (w : cplx) : Prop :=
  (exists x, cell m e n i = Some x /\ cell m e' n i = Some (cadd x w)) /\ we_nacc e' = we_nacc e /\
  forall n' i', 1 <= n' <= o -> 0 <= i' < tabsize m -> (n', i') <> (n, i) -> cell m e' n' i' = cell m e n' i'.
Definition normed (e e' : west) (x : real) : Prop := wf_data (weToDict e') = wf_data (weToDict e) /\ we_nacc e' = radd (we_nacc e) x.
Definition counted (b b' : ebundle) (i : Z) : Prop :=
  (exists e, ebAt i b = Ok e /\ ebAt i b' = Ok (eMeasure (rofZ 1) e)) /\ forall j, j <> i -> ebAt j b' = ebAt j b.

Definition gg_added (L : lattice) (mt : Z) (g g' : ggam) (s : spin) (c b1 b2 : Z) (w : cplx) : Prop :=
  (exists x, ggcell g s c b1 b2 = Some x /\ ggcell g' s c b1 b2 = Some (cadd x w)) /\ gg_nacc g' = gg_nacc g /\
  forall s' c' b1' b2', 0 <= c' < Vol L -> 0 <= b1' < mt -> 0 <= b2' < mt -> (s', c', b1', b2') <> (s, c, b1, b2) -> ggcell g' s' c' b1' b2' = ggcell g s' c' b1' b2'.
Definition gg_normed (g g' : ggam) (x : real) : Prop := wf_data (ggStatisToDict g') = wf_data (ggStatisToDict g) /\ gg_nacc g' = radd (gg_nacc g) x.
Definition gw_added (rs ts : Z) (g g' : gwam) (k r t : Z) (w : cplx) : Prop :=
  (exists x, gwcell g k r t = Some x /\ gwcell g' k r t = Some (cadd x w)) /\ gw_nacc g' = gw_nacc g /\
  forall k' r' t', 0 <= k' < 2 -> 0 <= r' < rs -> 0 <= t' < ts -> (k', r', t') <> (k, r, t) -> gwcell g' k' r' t' = gwcell g k' r' t'.
Definition gw_normed (g g' : gwam) (x : real) : Prop := gw_accu g' = gw_accu g /\ exists y, gw_nacc g = Some y /\ gw_nacc g' = Some (radd y x).

(** ** What one call of Measure does to the accumulators
    [ow] is one over the reweighting factor of the diagram's order. *)
Inductive effect (c : cfg) (mtG mtW rs ts : Z) (d : diagram) (ow : real) (m m' : mon) : Prop :=
| ef_worm : wm_ex d = true -> counted (m_worm m) (m_worm m') (order d) -> m_phy m' = m_phy m ->
    m_S m' = m_S m -> m_P m' = m_P m -> m_GG m' = m_GG m -> m_GW m' = m_GW m -> effect c mtG mtW rs ts d ow m m'
| ef_normG : wm_ex d = false -> order d = 0 -> measG d = true -> counted (m_phy m) (m_phy m') 0 -> m_worm m' = m_worm m ->
    normed (m_S m) (m_S m') ow -> m_P m' = m_P m -> m_GW m' = m_GW m ->
    (if c_gamma3 c then exists g g', m_GG m = PAt g /\ m_GG m' = PAt g' /\ gg_normed g g' ow else m_GG m' = m_GG m) ->
    effect c mtG mtW rs ts d ow m m'
| ef_normW : wm_ex d = false -> order d = 0 -> measG d = false -> counted (m_phy m) (m_phy m') 0 -> m_worm m' = m_worm m ->
    normed (m_P m) (m_P m') ow -> m_S m' = m_S m -> m_GG m' = m_GG m ->
    (if c_gamma3 c then exists g g', m_GW m = PAt g /\ m_GW m' = PAt g' /\ gw_normed g g' ow else m_GW m' = m_GW m) ->
    effect c mtG mtW rs ts d ow m m'
| ef_sigma i : wm_ex d = false -> order d <> 0 -> gamma d = 0 -> measG d = true ->
    counted (m_phy m) (m_phy m') (order d) -> m_worm m' = m_worm m ->
    (let vi := g_ver d (gmeas d) OUT in let vo := g_ver d (gmeas d) IN in
     GetIndexSmooth (gmap (c_tab c)) (spinZ (v_S d vi IN)) (spinZ (v_S d vo OUT)) (v_R d vi) (v_R d vo) (v_T d vi) (v_T d vo) = Ok i /\
     added (gmap (c_tab c)) (c_order c) (m_S m) (m_S m') (order d) i
       (cmul_r (cmul_r (dphase d) ow) (rofZ (TauSym (gmap (c_tab c)) (v_T d vi) (v_T d vo))))) ->
    m_P m' = m_P m -> m_GG m' = m_GG m -> m_GW m' = m_GW m -> effect c mtG mtW rs ts d ow m m'
| ef_polar i : wm_ex d = false -> order d <> 0 -> gamma d = 0 -> measG d = false ->
    counted (m_phy m) (m_phy m') (order d) -> m_worm m' = m_worm m ->
    (let vi := w_ver d (wmeas d) OUT in let vo := w_ver d (wmeas d) IN in
     GetIndexSmooth (wmap (c_tab c)) (spin4 (v_S d vi)) (spin4 (v_S d vo)) (v_R d vi) (v_R d vo) (v_T d vi) (v_T d vo) = Ok i /\
     added (wmap (c_tab c)) (c_order c) (m_P m) (m_P m') (order d) i (cmul_r (rmul_c (rofZ (-1)) (dphase d)) ow)) ->
    m_S m' = m_S m -> m_GG m' = m_GG m -> m_GW m' = m_GW m -> effect c mtG mtW rs ts d ow m m'
| ef_gg g g' : wm_ex d = false -> order d <> 0 -> gamma d <> 0 -> measG d = true ->
    counted (m_phy m) (m_phy m') (order d) -> m_worm m' = m_worm m ->
    m_GG m = PAt g -> m_GG m' = PAt g' ->
    (let vi := g_ver d (gmeas d) OUT in let vo := g_ver d (gmeas d) IN in let u := uext d in
     gg_added (c_lat c) mtG g g' (v_S d vi IN) (CoordiIndex (c_lat c) (v_R d vi) (ex_R u))
       (binTau (c_beta c) mtG (rsub (v_T d vo) (ex_T u))) (binTau (c_beta c) mtG (rsub (v_T d vi) (ex_T u)))
       (cmul_r (cdiv_r (cmul_r (dphase d) ow) (c_ggr c)) (ggSign g (v_T d vi) (v_T d vo) (ex_T u)))) ->
    m_S m' = m_S m -> m_P m' = m_P m -> m_GW m' = m_GW m -> effect c mtG mtW rs ts d ow m m'
| ef_gw g g' : wm_ex d = false -> order d <> 0 -> gamma d <> 0 -> measG d = false ->
    counted (m_phy m) (m_phy m') (order d) -> m_worm m' = m_worm m ->
    m_GW m = PAt g -> m_GW m' = PAt g' ->
    (let vi := w_ver d (wmeas d) IN in let vo := w_ver d (wmeas d) OUT in let u := uext d in
     gw_added rs ts g g' (gwk (v_S d vi)) (gwr g (v_R d vi) (v_R d vo) (ex_R u)) (gwt g (v_T d vi) (v_T d vo) (ex_T u))
       (gwstored g (v_R d vi) (v_R d vo) (ex_R u) (v_T d vi) (v_T d vo) (ex_T u) (v_S d vi) (v_S d vo)
          (cdiv_r (cmul_r (dphase d) ow) (c_gwr c)))) ->
    m_S m' = m_S m -> m_P m' = m_P m -> m_GG m' = m_GG m -> effect c mtG mtW rs ts d ow m m'.

Lemma drf_live b p : live b p -> drf p = Ok p.
Proof. intros H. unfold drf. apply lv_lt in H. replace (p <? MAX_BUNDLE)%nat with true; [reflexivity|]. symmetry. apply Nat.ltb_lt. exact H. Qed.
Lemma rat_ok l i : 0 <= i -> (Z.to_nat i < List.length l)%nat -> exists x : real, rat l i = Ok x /\ nth_error l (Z.to_nat i) = Some x.
Proof. intros H L. unfold rat. destruct (Z.ltb_spec i 0); [lia|]. destruct (nth_error l (Z.to_nat i)) eqn:Q; [eauto|]. apply nth_error_None in Q. lia. Qed.
Lemma order_range c d : Inv c d -> cfg_ok c -> 0 <= order d <= c_order c.
Proof. intros HI C. pose proof (co_order c C). pose proof (i_cnt _ _ HI) as Q. unfold Cnt in Q. lia. Qed.

Lemma phyCount_same c d m : let m' := phyCount c d m in m_worm m' = m_worm m /\ m_phy m' = m_phy m /\ m_S m' = m_S m /\ m_P m' = m_P m /\ m_GG m' = m_GG m /\ m_GW m' = m_GW m.
Proof. unfold phyCount. destruct (0 <? order d), (measG d), (negb (c_gamma3 c) || (gamma d =? 0)); repeat split; reflexivity. Qed.

Lemma measure_spec c mtG mtW rs ts d m : cfg_ok c -> setup c mtG mtW rs ts -> Inv c d -> ExtOk c d -> MonOk c mtG mtW rs ts m ->
  exists x m', rat (c_orw c) (order d) = Ok x /\ monMeasure c d m = Ok m' /\ MonOk c mtG mtW rs ts m' /\ effect c mtG mtW rs ts d (rdiv (rofZ 1) x) m m'.
Proof.
  intros C SU HI HX MO. pose proof (order_range c d HI C) as OR. destruct (rat_ok (c_orw c) (order d)) as (x & X1 & X2); [lia|pose proof (co_orw c C); lia|].
  exists x. rewrite X1. unfold monMeasure. rewrite X1. cbn [obind].
  destruct (wm_ex d) eqn:WE.
  - destruct (ebMeasure_ok (order d) (rofZ 1) (m_worm m)) as (b & e & B1 & B2 & B3 & B4 & B5 & B6 & B7); [rewrite (mo_w _ _ _ _ _ _ MO); lia|].
    rewrite B1. cbn [obind]. eexists. split; [reflexivity|]. split; [reflexivity|]. split.
    + destruct MO as [M1 M2 M3 M4 M5 M6]. destruct (gamma d =? 0), (measG d); (constructor; [cbn; rewrite B2; exact M1|exact M2|exact M3|exact M4|exact M5|exact M6]).
    + assert (CT : counted (m_worm m) b (order d)) by (split; [eauto|auto]).
      apply ef_worm; try exact WE; destruct (gamma d =? 0), (measG d); try reflexivity; exact CT.
  - destruct (ebMeasure_ok (order d) (rofZ 1) (m_phy m)) as (b & e & B1 & B2 & B3 & B4 & B5 & B6 & B7); [rewrite (mo_p _ _ _ _ _ _ MO); lia|].
    rewrite B1. cbn [obind]. assert (CT : counted (m_phy m) b (order d)) by (split; [eauto|auto]).
    destruct (phyCount_same c d (s_m_phy m b)) as (S1 & S2 & S3 & S4 & S5 & S6). set (m1 := phyCount c d (s_m_phy m b)) in *. cbn [s_m_phy m_worm m_phy m_S m_P m_GG m_GW] in S1, S2, S3, S4, S5, S6.
    assert (MO1 : MonOk c mtG mtW rs ts m1).
    { destruct MO as [M1 M2 M3 M4 M5 M6]. constructor; rewrite ?S1, ?S2, ?S3, ?S4, ?S5, ?S6; auto. now rewrite B2. }
    set (ow := rdiv (rofZ 1) x). unfold measureNorm0.
    destruct (Z.eqb_spec (order d) 0) as [O0|O0].
    + destruct (measG d) eqn:MG; destruct (c_gamma3 c) eqn:G3.
      * destruct (mo_G _ _ _ _ _ _ MO1 G3) as (g & G1 & G2 & G4). cbn [s_m_S m_GG]. rewrite G1. cbn [obind pderef]. eexists. split; [reflexivity|]. split; [reflexivity|]. split.
        -- destruct MO1 as [M1 M2 M3 M4 M5 M6]. constructor; cbn [s_m_GG s_m_S m_worm m_phy m_S m_P m_GG m_GW]; auto.
           ++ destruct M3. split; auto.
           ++ intros _. eexists. split; [reflexivity|]. split; [|exact G4]. destruct G2. split; auto.
        -- apply ef_normG; cbn [s_m_GG s_m_S m_worm m_phy m_S m_P m_GG m_GW]; auto; [rewrite S2, <- O0; exact CT|split; rewrite S3; reflexivity|].
           rewrite G3. exists g. eexists. split; [now rewrite <- S5|]. split; [reflexivity|]. split; reflexivity.
      * eexists. split; [reflexivity|]. split; [reflexivity|]. split.
        -- destruct MO1 as [M1 M2 M3 M4 M5 M6]. constructor; cbn [s_m_GG s_m_S m_worm m_phy m_S m_P m_GG m_GW]; auto. destruct M3. split; auto.
        -- apply ef_normG; cbn [s_m_GG s_m_S m_worm m_phy m_S m_P m_GG m_GW]; auto; [rewrite S2, <- O0; exact CT|split; rewrite S3; reflexivity|]. now rewrite G3.
      * destruct (mo_W _ _ _ _ _ _ MO1 G3) as (g & G1 & G2 & G4 & G5). cbn [s_m_P m_GW]. rewrite G1. cbn [obind pderef]. unfold gwMeasureNorm. destruct (gw_nacc g) as [y|] eqn:Y; [|contradiction]. cbn [obind].
        eexists. split; [reflexivity|]. split; [reflexivity|]. split.
        -- destruct MO1 as [M1 M2 M3 M4 M5 M6]. constructor; cbn [s_m_GW s_m_P m_worm m_phy m_S m_P m_GG m_GW]; auto.
           ++ destruct M4. split; auto.
           ++ intros _. eexists. split; [reflexivity|]. split; [|split; [exact G4|discriminate]]. destruct G2. split; auto.
        -- apply ef_normW; cbn [s_m_GW s_m_P m_worm m_phy m_S m_P m_GG m_GW]; auto; [rewrite S2, <- O0; exact CT|split; rewrite S4; reflexivity|].
           rewrite G3. exists g. eexists. split; [now rewrite <- S6|]. split; [reflexivity|]. split; [reflexivity|]. exists y. split; [exact Y|reflexivity].
      * eexists. split; [reflexivity|]. split; [reflexivity|]. split.
        -- destruct MO1 as [M1 M2 M3 M4 M5 M6]. constructor; cbn [s_m_GW s_m_P m_worm m_phy m_S m_P m_GG m_GW]; auto. destruct M4. split; auto.
        -- apply ef_normW; cbn [s_m_GW s_m_P m_worm m_phy m_S m_P m_GG m_GW]; auto; [rewrite S2, <- O0; exact CT|split; rewrite S4; reflexivity|]. now rewrite G3.
    + cbn [obind]. assert (G3 : gamma d <> 0 -> c_gamma3 c = true). { intros X. destruct (i_gam _ _ HI) as [(Q & _)|[(_ & _ & Q & _)|(_ & _ & Q & _)]]; auto; contradiction. }
      assert (GC : negb (c_gamma3 c) || (gamma d =? 0) = (gamma d =? 0)).
      { destruct (Z.eqb_spec (gamma d) 0) as [Y|Y]; [now rewrite orb_true_r|]. rewrite G3 by auto. reflexivity. }
      rewrite GC. clear GC. destruct (Z.eqb_spec (gamma d) 0) as [GA|GA]; destruct (measG d) eqn:MG.
      * pose proof (f_measG _ _ HI MG) as Lg. unfold measSigma. rewrite (drf_live _ _ Lg). cbn [obind]. rewrite !(drf_live _ _ (f_gv HI _ _ Lg)). cbn [obind].
        set (vi := g_ver d (gmeas d) OUT). set (vo := g_ver d (gmeas d) IN). assert (Li : live (vB d) vi) by apply (f_gv HI _ _ Lg). assert (Lo : live (vB d) vo) by apply (f_gv HI _ _ Lg).
        destruct (proj1 (index_injective _ (co_gmap c C)) (spinZ (v_S d vi IN)) (spinZ (v_S d vo OUT)) (v_R d vi) (v_R d vo) (v_T d vi) (v_T d vo)) as (i & Ei & Bi & _).
        { unfold args_ok. rewrite (co_gnsp c C), (co_glat c C). pose proof (spin01 (v_S d vi IN)). pose proof (spin01 (v_S d vo OUT)).
          split; [lia|]. split; [lia|]. split; [apply (f_site HI); assumption|apply (f_site HI); assumption]. }
        { apply (co_gtau c C); apply (f_tau HI); assumption. }
        unfold sigmaMeasure. rewrite Ei. cbn [obind].
        destruct (measure_ok _ _ (m_S m1) (order d) i (cmul_r (cmul_r (dphase d) ow) (rofZ (TauSym (gmap (c_tab c)) (v_T d vi) (v_T d vo)))) (su_S _ _ _ _ _ SU) (mo_S _ _ _ _ _ _ MO1)) as (e' & Q1 & Q2 & Q3 & Q4 & Q5 & Q6 & Q7); [split; [lia|exact Bi]|].
        rewrite Q1. cbn [obind]. eexists. split; [reflexivity|]. split; [reflexivity|]. split.
        -- destruct MO1 as [M1 M2 M3 M4 M5 M6]. constructor; auto.
        -- apply ef_sigma with (i := i); cbn [s_m_S m_worm m_phy m_S m_P m_GG m_GW]; auto; [rewrite S2; exact CT|]. cbv zeta. fold vi vo. split; [exact Ei|]. rewrite <- S3. split; [exact Q6|]. split; [exact Q5|].
           intros n' i' Hn Hi Ne. apply Q7; [split; assumption|exact Ne].
      * pose proof (f_measW _ _ HI MG) as Lg. unfold measPolar. rewrite (drf_live _ _ Lg). cbn [obind]. rewrite !(drf_live _ _ (f_wv HI _ _ Lg)). cbn [obind].
        set (vi := w_ver d (wmeas d) OUT). set (vo := w_ver d (wmeas d) IN). assert (Li : live (vB d) vi) by apply (f_wv HI _ _ Lg). assert (Lo : live (vB d) vo) by apply (f_wv HI _ _ Lg).
        destruct (proj1 (index_injective _ (co_wmap c C)) (spin4 (v_S d vi)) (spin4 (v_S d vo)) (v_R d vi) (v_R d vo) (v_T d vi) (v_T d vo)) as (i & Ei & Bi & _).
        { unfold args_ok. rewrite (co_wnsp c C), (co_wlat c C).
          split; [apply spin4_range|]. split; [apply spin4_range|]. split; [apply (f_site HI); assumption|apply (f_site HI); assumption]. }
        { apply (co_wtau c C); apply (f_tau HI); assumption. }
        unfold polarMeasure. rewrite Ei. cbn [obind].
        destruct (measure_ok _ _ (m_P m1) (order d) i (cmul_r (rmul_c (rofZ (-1)) (dphase d)) ow) (su_P _ _ _ _ _ SU) (mo_P _ _ _ _ _ _ MO1)) as (e' & Q1 & Q2 & Q3 & Q4 & Q5 & Q6 & Q7); [split; [lia|exact Bi]|].
        rewrite Q1. cbn [obind]. eexists. split; [reflexivity|]. split; [reflexivity|]. split.
        -- destruct MO1 as [M1 M2 M3 M4 M5 M6]. constructor; auto.
        -- apply ef_polar with (i := i); cbn [s_m_P m_worm m_phy m_S m_P m_GG m_GW]; auto; [rewrite S2; exact CT|]. cbv zeta. fold vi vo. split; [exact Ei|]. rewrite <- S4. split; [exact Q6|]. split; [exact Q5|].
           intros n' i' Hn Hi Ne. apply Q7; [split; assumption|exact Ne].
      * specialize (G3 GA). destruct (HX GA) as [XR XT]. pose proof (f_measG _ _ HI MG) as Lg. unfold measGammaG. rewrite (drf_live _ _ Lg). cbn [obind]. rewrite !(drf_live _ _ (f_gv HI _ _ Lg)). cbn [obind].
        set (vi := g_ver d (gmeas d) OUT). set (vo := g_ver d (gmeas d) IN). assert (Li : live (vB d) vi) by apply (f_gv HI _ _ Lg). assert (Lo : live (vB d) vo) by apply (f_gv HI _ _ Lg).
        destruct (mo_G _ _ _ _ _ _ MO1 G3) as (g & G1 & G2 & G4). rewrite G1. cbn [pderef obind].
        destruct (ggMeasure_ok (c_lat c) mtG g (v_R d vi) (ex_R (uext d)) (v_T d vi) (v_T d vo) (ex_T (uext d)) (v_S d vi IN) (cdiv_r (cmul_r (dphase d) ow) (c_ggr c)) (su_G _ _ _ _ _ SU G3) G2) as (g' & Q1 & Q2 & Q3 & Q4 & Q5 & Q6 & Q7 & Q8);
          [apply (f_site HI); assumption|assumption|rewrite G4; apply (su_bG _ _ _ _ _ SU G3); auto; apply (f_tau HI); assumption|rewrite G4; apply (su_bG _ _ _ _ _ SU G3); auto; apply (f_tau HI); assumption|].
        rewrite Q1. cbn [obind]. eexists. split; [reflexivity|]. split; [reflexivity|]. split.
        -- destruct MO1 as [M1 M2 M3 M4 M5 M6]. constructor; auto. intros _. exists g'. split; [reflexivity|]. split; [exact Q2|]. now rewrite Q3.
        -- apply ef_gg with (g := g) (g' := g'); cbn [s_m_GG m_worm m_phy m_S m_P m_GG m_GW]; auto; [rewrite S2; exact CT|now rewrite <- S5|].
           cbv zeta. fold vi vo. rewrite G4 in Q7, Q8. split; [exact Q7|]. split; [exact Q5|exact Q8].
      * specialize (G3 GA). destruct (HX GA) as [XR XT]. pose proof (f_measW _ _ HI MG) as Lg. unfold measGammaW. rewrite (drf_live _ _ Lg). cbn [obind]. rewrite !(drf_live _ _ (f_wv HI _ _ Lg)). cbn [obind].
        set (vi := w_ver d (wmeas d) IN). set (vo := w_ver d (wmeas d) OUT). assert (Li : live (vB d) vi) by apply (f_wv HI _ _ Lg). assert (Lo : live (vB d) vo) by apply (f_wv HI _ _ Lg).
        destruct (mo_W _ _ _ _ _ _ MO1 G3) as (g & G1 & G2 & G4 & G5). rewrite G1. cbn [pderef obind].
        assert (CS : conserved (v_S d vi) (v_S d vo)). { pose proof (i_cur _ _ HI _ Lg) as Q. rewrite WE in Q. unfold conserved, spin_current. unfold cur in Q. fold vi vo in Q. lia. }
        destruct (gwMeasure_ok (c_lat c) mtW rs ts g (v_R d vi) (v_R d vo) (ex_R (uext d)) (v_T d vi) (v_T d vo) (ex_T (uext d)) (v_S d vi) (v_S d vo) (cdiv_r (cmul_r (dphase d) ow) (c_gwr c)) (su_W _ _ _ _ _ SU G3) G2) as (a & Q1 & Q2 & Q3 & Q4 & Q5 & Q6);
          [apply (f_site HI); assumption|apply (f_site HI); assumption|assumption|rewrite G4; apply (su_bW _ _ _ _ _ SU G3); auto; apply (f_tau HI); assumption|rewrite G4; apply (su_bW _ _ _ _ _ SU G3); auto; apply (f_tau HI); assumption|exact CS|].
        rewrite Q1. cbn [obind]. eexists. split; [reflexivity|]. split; [reflexivity|]. split.
        -- destruct MO1 as [M1 M2 M3 M4 M5 M6]. constructor; auto. intros _. eexists. split; [reflexivity|]. split; [exact Q2|]. split; [exact G4|exact G5].
        -- apply ef_gw with (g := g) (g' := s_gw_accu g (Some a)); cbn [s_m_GW m_worm m_phy m_S m_P m_GG m_GW]; auto; [rewrite S2; exact CT|now rewrite <- S6|].
           cbv zeta. fold vi vo. split; [exact Q5|]. split; [reflexivity|exact Q6].
Qed.
End General.

(** ** Executions that interleave updates and measurements *)
Section Runs.
Context {N : Num}.

Lemma mapo_ok {A B} (f : A -> outcome B) (g : A -> B) : (forall x, f x = Ok (g x)) -> forall l, mapo f l = Ok (map g l).
Proof. intros H. induction l as [|x l IH]; cbn [mapo map]; [reflexivity|]. rewrite H, IH. reflexivity. Qed.
Lemma ebSqueeze_ok f (b : ebundle) : rltb (rofZ 0) f = true -> ebSqueeze f b =
  Ok (mkEB (map (fun p => (fst p, s_norm (s_acc (snd p) (rdiv (e_acc (snd p)) f)) (rdiv (e_norm (snd p)) f))) (eb_vec b)) (eb_map b)).
Proof.
  intros H. unfold ebSqueeze. rewrite (mapo_ok _ (fun p => (fst p, s_norm (s_acc (snd p) (rdiv (e_acc (snd p)) f)) (rdiv (e_norm (snd p)) f)))); [reflexivity|].
  intros x. unfold eSqueeze. rewrite H. reflexivity.
Qed.
Lemma WEok_squeeze mp o f e : rltb (rofZ 0) f = true -> WEok mp o e -> exists e', weSqueeze f e = Ok e' /\ WEok mp o e'.
Proof. intros H K. unfold weSqueeze. rewrite H. eexists. split; [reflexivity|]. destruct K; split; auto. unfold wa_size in *. cbn. now rewrite map_length. Qed.
Lemma squeeze_ok c mtG mtW rs ts f m : rltb (rofZ 0) f = true -> MonOk c mtG mtW rs ts m -> exists m', monSqueeze c f m = Ok m' /\ MonOk c mtG mtW rs ts m'.
Proof.
  intros H [M1 M2 M3 M4 M5 M6]. unfold monSqueeze. destruct (WEok_squeeze _ _ f _ H M3) as (a & -> & A). destruct (WEok_squeeze _ _ f _ H M4) as (b & -> & B). cbn [obind].
  rewrite !ebSqueeze_ok by auto. cbn [obind]. unfold eSqueeze at 1 2. rewrite H. cbn [obind]. destruct (c_gamma3 c) eqn:G3.
  - destruct (M5 eq_refl) as (g & G1 & G2 & G4). destruct (M6 eq_refl) as (w & W1 & W2 & W4 & W5). rewrite G1, W1. cbn [pderef obind].
    unfold ggSqueeze. rewrite H. cbn [obind]. unfold gwSqueeze. rewrite H. destruct (gw_nacc w) as [y|] eqn:Y; [|contradiction].
    destruct (wk_a _ _ _ _ _ W2) as (ac & AC1 & AC2 & AC3). rewrite AC1. cbn [obind]. unfold eSqueeze. rewrite H. cbn [obind]. eexists. split; [reflexivity|].
    constructor; cbn [m_worm m_phy m_S m_P m_GG m_GW eb_vec]; auto; try (now rewrite map_length); intros _.
    + eexists. split; [reflexivity|]. split; [|exact G4]. destruct G2 as [K1 K2 K3 K4 K5 K6]. split; auto. unfold wa_size in *. cbn. now rewrite map_length.
    + eexists. split; [reflexivity|]. split; [|split; [exact W4|discriminate]]. destruct W2 as [K1 K2 K3 K4 K5 K6 K7 K8 K9 K10 K11 K12 K13 K14 K15]. split; auto.
      eexists. split; [reflexivity|]. split; [exact AC2|]. unfold wa_size in *. cbn. now rewrite map_length.
  - eexists. split; [reflexivity|]. constructor; cbn [m_worm m_phy m_S m_P m_GG m_GW eb_vec]; auto; try (now rewrite map_length); rewrite G3; discriminate.
Qed.

Lemma addOrders_eq l b : addOrders l b = eb_adds (map oname l) b.
Proof. revert b. induction l as [|i l IH]; intros b; cbn [addOrders map eb_adds]; [reflexivity|]. destruct (ebAdd (oname i) b); cbn [obind]; auto. Qed.
Lemma onames n : (n <= 9)%nat -> NoDup (map oname (seq 0 (S n))).
Proof.
  intros H. assert (X : NoDup (map oname (seq 0 10))).
  { repeat constructor; cbn [map seq In]; intros Q; repeat (destruct Q as [Q|Q]; [discriminate Q|]); exact Q. }
  replace 10%nat with (S n + (9 - n))%nat in X by lia. rewrite seq_app, map_app in X. clear - X. induction (map oname (seq 0 (S n))) as [|a l IH]; [constructor|].
  cbn [app] in X. inversion X as [|? ? X1 X2]; subst. constructor; auto. intros Q. apply X1. apply in_or_app. now left.
Qed.
Lemma buildNew_ok c eS eP G W : 1 <= c_order c <= 9 -> exists m, monBuildNew c eS eP G W = Ok m /\
  map fst (eb_vec (m_worm m)) = map oname (seq 0 (S (Z.to_nat (c_order c)))) /\ map fst (eb_vec (m_phy m)) = map oname (seq 0 (S (Z.to_nat (c_order c)))) /\
  (forall n e, In (n, e) (eb_vec (m_worm m)) \/ In (n, e) (eb_vec (m_phy m)) -> e = est_new) /\
  m_sig m = est_new /\ m_pol m = est_new /\ m_gg m = est_new /\ m_gw m = est_new /\ m_S m = eS /\ m_P m = eP /\ m_GG m = G /\ m_GW m = W.
Proof.
  intros O. unfold monBuildNew. rewrite addOrders_eq. destruct (eb_adds_ok (map oname (seq 0 (S (Z.to_nat (c_order c))))) eb_new) as (b & B1 & B2 & _);
    [apply onames; lia|reflexivity|discriminate|]. rewrite B1. cbn [obind]. eexists. split; [reflexivity|]. cbn [m_worm m_phy m_sig m_pol m_gg m_gw m_S m_P m_GG m_GW].
  assert (X : map fst (eb_vec (ebClear b)) = map oname (seq 0 (S (Z.to_nat (c_order c))))).
  { unfold ebClear. cbn [eb_vec]. rewrite B2. cbn [eb_new eb_vec app]. rewrite !map_map. cbn [fst]. reflexivity. }
  assert (Y : forall n e, In (n, e) (eb_vec (ebClear b)) -> e = est_new).
  { intros n e Q. unfold ebClear in Q. cbn [eb_vec] in Q. rewrite B2 in Q. cbn [eb_new eb_vec app] in Q. rewrite map_map in Q. apply in_map_iff in Q as (z & Q & _). injection Q as _ <-. reflexivity. }
  split; [exact X|]. split; [exact X|]. split; [intros n e [Q|Q]; eauto|]. destruct (c_gamma3 c); repeat split; reflexivity.
Qed.

(** well-formed weight estimators and three-point functions *)
Definition weights_ok (c : cfg) (mtG mtW rs ts : Z) (eS eP : west) (G : ptr ggam) (W : ptr gwam) : Prop :=
  WEok (gmap (c_tab c)) (c_order c) eS /\ WEok (wmap (c_tab c)) (c_order c) eP /\
  (c_gamma3 c = true -> exists g, G = PAt g /\ GGok (c_lat c) mtG g /\ gg_beta g = c_beta c) /\
  (c_gamma3 c = true -> exists g, W = PAt g /\ GWok (c_lat c) mtW rs ts g /\ gw_beta g = c_beta c /\ gw_nacc g <> None).
Lemma obind_ok {A B} (o : outcome A) (f : A -> outcome B) b : obind o f = Ok b -> exists a, o = Ok a /\ f a = Ok b.
Proof. destruct o as [a| |]; cbn [obind]; intros H; try discriminate. eauto. Qed.
Lemma mapo_fst (f : string * est -> outcome (string * est)) : (forall p q, f p = Ok q -> fst q = fst p) -> forall l l', mapo f l = Ok l' -> map fst l' = map fst l.
Proof.
  intros K. induction l as [|p l IH]; intros l' H; cbn [mapo] in H; [injection H as <-; reflexivity|]. apply obind_ok in H as (q & Q & H). apply obind_ok in H as (r & R & H).
  injection H as <-. cbn [map]. rewrite (K p q Q), (IH r R). reflexivity.
Qed.
Lemma ebFromDict_fst d b b' : ebFromDict d b = Ok b' -> map fst (eb_vec b') = map fst (eb_vec b).
Proof.
  unfold ebFromDict. intros H. apply obind_ok in H as (v & V & H). injection H as <-. cbn [eb_vec]. revert V. apply mapo_fst. intros p q Q.
  destruct (d (fst p)) as [f|]; [|injection Q as <-; reflexivity]. apply obind_ok in Q as (e & _ & Q). injection Q as <-. reflexivity.
Qed.
Lemma orders_ok c : 1 <= c_order c <= 9 -> exists b, addOrders (seq 0 (S (Z.to_nat (c_order c)))) eb_new = Ok b /\
  eb_vec b = map (fun n => (n, est_new)) (map oname (seq 0 (S (Z.to_nat (c_order c))))).
Proof.
  intros O. rewrite addOrders_eq. destruct (eb_adds_ok (map oname (seq 0 (S (Z.to_nat (c_order c))))) eb_new) as (b & B1 & B2 & _);
    [apply onames; lia|reflexivity|discriminate|]. exists b. split; [exact B1|]. rewrite B2. reflexivity.
Qed.
Lemma fromDict_shape c f eS eP G W m : 1 <= c_order c <= 9 -> monFromDict c f eS eP G W = Ok m ->
  map fst (eb_vec (m_worm m)) = map oname (seq 0 (S (Z.to_nat (c_order c)))) /\ map fst (eb_vec (m_phy m)) = map oname (seq 0 (S (Z.to_nat (c_order c)))) /\
  m_S m = eS /\ m_P m = eP /\ m_GG m = G /\ m_GW m = W.
Proof.
  intros O H. unfold monFromDict in H. destruct (orders_ok c O) as (b & B1 & B2). rewrite B1 in H. cbn [obind] in H.
  apply obind_ok in H as (wb & H1 & H). apply obind_ok in H as (pb & H2 & H). apply obind_ok in H as (es & _ & H). apply obind_ok in H as (ep & _ & H).
  apply obind_ok in H as (eg & _ & H). apply obind_ok in H as (ew & _ & H). injection H as <-. cbn [m_worm m_phy m_S m_P m_GG m_GW].
  apply ebFromDict_fst in H1, H2. rewrite H1, H2, B2, map_map. cbn [fst]. rewrite map_id. repeat split.
Qed.

(** start or restart (possibly with another Order) from a saved statistics file, updates, measurements,
    squeezing by factors that [allowed] admits; the reweighting factors may change in between.
    The weight estimators and three-point functions are any well-formed ones (newly allocated or loaded). *)
Inductive run {E} (next : E -> Z * E) (allowed : real -> Prop) (c : cfg) (mtG mtW rs ts : Z) : @mstate N E -> mon -> Prop :=
| rn_new s m eS eP G W : history next c s -> weights_ok c mtG mtW rs ts eS eP G W -> monBuildNew c eS eP G W = Ok m -> run next allowed c mtG mtW rs ts s m
| rn_load s m c0 mtG0 mtW0 rs0 ts0 s0 m0 eS eP G W : run next allowed c0 mtG0 mtW0 rs0 ts0 s0 m0 -> 1 <= c_order c0 <= 9 ->
    history next c s -> weights_ok c mtG mtW rs ts eS eP G W -> monFromDict c (monToDict c0 m0) eS eP G W = Ok m -> run next allowed c mtG mtW rs ts s m
| rn_hop s s' m c' n : run next allowed c mtG mtW rs ts s m -> retuned c c' -> Hop next c' n s = Ok (tt, s') -> run next allowed c mtG mtW rs ts s' m
| rn_measure s m m' c' : run next allowed c mtG mtW rs ts s m -> retuned c c' -> monMeasure c' (md s) m = Ok m' -> run next allowed c mtG mtW rs ts s m'
| rn_squeeze s m m' f : run next allowed c mtG mtW rs ts s m -> allowed f -> monSqueeze c f m = Ok m' -> run next allowed c mtG mtW rs ts s m'.
Arguments rn_new {E next allowed c mtG mtW rs ts}. Arguments rn_load {E next allowed c mtG mtW rs ts}. Arguments rn_hop {E next allowed c mtG mtW rs ts}.
Arguments rn_measure {E next allowed c mtG mtW rs ts}. Arguments rn_squeeze {E next allowed c mtG mtW rs ts}.

Lemma run_ok {E} (next : E -> Z * E) allowed c mtG mtW rs ts s m : cfg_ok c -> new_ok (c_lat c) -> setup c mtG mtW rs ts -> run next allowed c mtG mtW rs ts s m ->
  history next c s /\ MonOk c mtG mtW rs ts m.
Proof.
  intros C LK SU H. revert C LK SU. induction H as [c mtG mtW rs ts s m eS eP G W H1 H2 H6|c mtG mtW rs ts s m c0 mtG0 mtW0 rs0 ts0 s0 m0 eS eP G W H0 _ O0 H1 H2 H6
    |c mtG mtW rs ts s s' m c' n H IH R HH|c mtG mtW rs ts s m m' c' H IH R HM|c mtG mtW rs ts s m m' f H IH _ HS]; intros C LK SU; try destruct (IH C LK SU) as [IH1 IH2].
  - split; [exact H1|]. destruct (buildNew_ok c eS eP G W (co_order c C)) as (m1 & B0 & B1 & B2 & _ & _ & _ & _ & _ & B3 & B4 & B5 & B6). rewrite H6 in B0. injection B0 as <-.
    destruct H2 as (W1 & W2 & W3 & W4). constructor; rewrite ?B3, ?B4, ?B5, ?B6; auto.
    + apply (f_equal (@List.length _)) in B1. now rewrite !map_length, seq_length in B1.
    + apply (f_equal (@List.length _)) in B2. now rewrite !map_length, seq_length in B2.
  - split; [exact H1|]. destruct (fromDict_shape c _ eS eP G W m (co_order c C) H6) as (B1 & B2 & B3 & B4 & B5 & B6).
    destruct H2 as (W1 & W2 & W3 & W4). constructor; rewrite ?B3, ?B4, ?B5, ?B6; auto.
    + apply (f_equal (@List.length _)) in B1. now rewrite !map_length, seq_length in B1.
    + apply (f_equal (@List.length _)) in B2. now rewrite !map_length, seq_length in B2.
  - split; [eapply hi_hop; eauto|exact IH2].
  - split; [exact IH1|]. pose proof (retuned_ok c c' C R) as C'. pose proof (history_inv next c s C LK IH1) as HI. apply (retuned_Inv c c' _ R) in HI.
    pose proof (history_ext next c s C LK IH1) as HX. apply (retuned_ext c c' _ R) in HX. destruct (retuned_mon c c' mtG mtW rs ts m R) as [RS RM]. destruct (retuned_mon c c' mtG mtW rs ts m' R) as [_ RM'].
    destruct (measure_spec c' mtG mtW rs ts (md s) m C' (proj1 RS SU) HI HX (proj1 RM IH2)) as (x & m2 & _ & Q1 & Q2 & _). rewrite HM in Q1. injection Q1 as <-. now apply RM'.
  - split; [exact IH1|]. destruct (rltb (rofZ 0) f) eqn:F; [|unfold monSqueeze, weSqueeze in HS; rewrite F in HS; discriminate].
    destruct (squeeze_ok c mtG mtW rs ts f m F IH2) as (m2 & Q1 & Q2). rewrite HS in Q1. injection Q1 as <-. exact Q2.
Qed.

(** *** a property of every counter, kept by counting and squeezing *)
Definition counters (Q : est -> Prop) (m : mon) : Prop :=
  Forall (fun p => Q (snd p)) (eb_vec (m_worm m)) /\ Forall (fun p => Q (snd p)) (eb_vec (m_phy m)) /\ Q (m_sig m) /\ Q (m_pol m) /\ Q (m_gg m) /\ Q (m_gw m).
Lemma Forall_firstn {A} (R : A -> Prop) n l : Forall R l -> Forall R (firstn n l).
Proof. intros H. revert n. induction H; intros [|n]; cbn; constructor; auto. Qed.
Lemma Forall_skipn {A} (R : A -> Prop) n l : Forall R l -> Forall R (skipn n l).
Proof. intros H. revert n. induction H; intros [|n]; cbn; auto; constructor; auto. Qed.
Lemma ebMeasure_all (Q : est -> Prop) i b b' : (forall e, Q e -> Q (eMeasure (rofZ 1) e)) -> ebMeasure i (rofZ 1) b = Ok b' ->
  Forall (fun p => Q (snd p)) (eb_vec b) -> Forall (fun p => Q (snd p)) (eb_vec b').
Proof.
  intros K. unfold ebMeasure, ebAt. destruct (i <? 0); [discriminate|]. destruct (nth_error (eb_vec b) (Z.to_nat i)) as [[n e]|] eqn:E; [|discriminate].
  cbn [obind]. intros H F. injection H as <-. cbn [eb_vec]. apply Forall_app. split; [now apply Forall_firstn|]. constructor; [|exact (Forall_skipn _ (S (Z.to_nat i)) _ F)].
  cbn [snd]. apply K. rewrite Forall_forall in F. apply (F (n, e)). eapply nth_error_In; eauto.
Qed.
Ltac unbind H := repeat (apply obind_ok in H; let x := fresh "x" in let E := fresh "E" in destruct H as (x & E & H)).
Definition samec (m m' : mon) : Prop := m_worm m' = m_worm m /\ m_phy m' = m_phy m /\ m_sig m' = m_sig m /\ m_pol m' = m_pol m /\ m_gg m' = m_gg m /\ m_gw m' = m_gw m.
Lemma samec_c Q m m' : samec m m' -> counters Q m -> counters Q m'.
Proof. unfold samec, counters. intros (-> & -> & -> & -> & -> & ->). auto. Qed.
Lemma norm0_samec c d ow m m' : measureNorm0 c d ow m = Ok m' -> samec m m'.
Proof.
  unfold measureNorm0. destruct (order d =? 0); [|intros H; injection H as <-; repeat split]. destruct (measG d), (c_gamma3 c); intros H; unbind H; injection H as <-; repeat split.
Qed.
Lemma sigma_samec c d ow m m' : measSigma c d ow m = Ok m' -> samec m m'.
Proof. unfold measSigma. intros H. unbind H. injection H as <-. repeat split. Qed.
Lemma polar_samec c d ow m m' : measPolar c d ow m = Ok m' -> samec m m'.
Proof. unfold measPolar. intros H. unbind H. injection H as <-. repeat split. Qed.
Lemma gg_samec c d ow m m' : measGammaG c d ow m = Ok m' -> samec m m'.
Proof. unfold measGammaG. intros H. unbind H. injection H as <-. repeat split. Qed.
Lemma gw_samec c d ow m m' : measGammaW c d ow m = Ok m' -> samec m m'.
Proof. unfold measGammaW. intros H. unbind H. injection H as <-. repeat split. Qed.
Lemma measure_counters (Q : est -> Prop) c d m m' : (forall e, Q e -> Q (eMeasure (rofZ 1) e)) -> monMeasure c d m = Ok m' -> counters Q m -> counters Q m'.
Proof.
  intros K H C. unfold monMeasure in H. apply obind_ok in H as (x & _ & H). destruct (wm_ex d).
  - apply obind_ok in H as (b & B & H). injection H as <-. destruct C as (C1 & C2 & C3 & C4 & C5 & C6). pose proof (ebMeasure_all Q _ _ _ K B C1).
    destruct (gamma d =? 0), (measG d); repeat split; cbn; auto.
  - apply obind_ok in H as (b & B & H). apply obind_ok in H as (m1 & M1 & H). apply norm0_samec in M1.
    assert (C1 : counters Q m1).
    { eapply samec_c; [exact M1|]. destruct C as (C1 & C2 & C3 & C4 & C5 & C6). pose proof (ebMeasure_all Q _ _ _ K B C2).
      unfold phyCount. destruct (0 <? order d), (measG d), (negb (c_gamma3 c) || (gamma d =? 0)); repeat split; cbn; auto. }
    destruct (order d =? 0); [injection H as <-; exact C1|]. destruct (negb (c_gamma3 c) || (gamma d =? 0)), (measG d);
      (eapply samec_c; [|exact C1]); eauto using sigma_samec, polar_samec, gg_samec, gw_samec.
Qed.
Lemma mapo_all {A B} (f : A -> outcome B) (P1 : A -> Prop) (P2 : B -> Prop) : (forall x y, f x = Ok y -> P1 x -> P2 y) -> forall l l', mapo f l = Ok l' -> Forall P1 l -> Forall P2 l'.
Proof.
  intros K. induction l as [|x l IH]; intros l' H F; cbn [mapo] in H; [injection H as <-; constructor|]. inversion F; subst. unbind H. injection H as <-. constructor; eauto.
Qed.
Lemma squeeze_counters (Q : est -> Prop) c f m m' : (forall e e', Q e -> eSqueeze f e = Ok e' -> Q e') -> monSqueeze c f m = Ok m' -> counters Q m -> counters Q m'.
Proof.
  intros K H (C1 & C2 & C3 & C4 & C5 & C6). unfold monSqueeze in H.
  apply obind_ok in H as (eS & _ & H). apply obind_ok in H as (eP & _ & H). apply obind_ok in H as (wb & W & H). apply obind_ok in H as (pb & Pb & H).
  apply obind_ok in H as (es & ES & H). apply obind_ok in H as (ep & EP & H).
  assert (X : forall b b', ebSqueeze f b = Ok b' -> Forall (fun p => Q (snd p)) (eb_vec b) -> Forall (fun p => Q (snd p)) (eb_vec b')).
  { intros b b' B F. unfold ebSqueeze in B. apply obind_ok in B as (v & V & B). injection B as <-. cbn [eb_vec]. eapply mapo_all; [|exact V|exact F].
    intros p y Y Z. cbn beta in *. apply obind_ok in Y as (e & E & Y). injection Y as <-. cbn [snd]. eauto. }
  destruct (c_gamma3 c).
  - apply obind_ok in H as (x & _ & H). apply obind_ok in H as (x1 & _ & H). apply obind_ok in H as (x2 & _ & H). apply obind_ok in H as (x3 & _ & H).
    apply obind_ok in H as (eg & EG & H). apply obind_ok in H as (ew & EW & H). injection H as <-. repeat split; cbn; eauto.
  - injection H as <-. repeat split; cbn; eauto.
Qed.
Lemma upds_fold (v : list (string * est)) : forall d n, fold_left (fun d p => upds d (fst p) (eToDict (snd p))) v d n =
  match find (fun p => String.eqb n (fst p)) (rev v) with Some p => Some (eToDict (snd p)) | None => d n end.
Proof.
  induction v as [|[a e] v IH] using rev_ind; intros d n; [reflexivity|]. rewrite fold_left_app, rev_app_distr. cbn [fold_left rev app find fst snd]. unfold upds at 1.
  destruct (String.eqb n a); [reflexivity|]. apply IH.
Qed.
Lemma ebToDict_in b n f : ebToDict b n = Some f -> exists e, In (n, e) (eb_vec b) /\ f = eToDict e.
Proof.
  unfold ebToDict. rewrite upds_fold. destruct (find _ _) as [[a e]|] eqn:F; [|discriminate]. intros H. injection H as <-. apply find_some in F as [F1 F2]. cbn [fst] in F2.
  apply String.eqb_eq in F2. subst a. exists e. split; [now apply in_rev|reflexivity].
Qed.
Lemma NoDup_fst (v : list (string * est)) n e e' : NoDup (map fst v) -> In (n, e) v -> In (n, e') v -> e = e'.
Proof.
  induction v as [|[a x] v IH]; intros ND I J; [destruct I|]. cbn [map fst] in ND. inversion ND as [|? ? N1 N2]; subst.
  destruct I as [I|I], J as [J|J].
  - congruence.
  - exfalso. apply N1. apply in_map_iff. exists (n, e'). split; [cbn; congruence|exact J].
  - exfalso. apply N1. apply in_map_iff. exists (n, e). split; [cbn; congruence|exact I].
  - exact (IH N2 I J).
Qed.
Lemma ebToDict_at b n e : NoDup (map fst (eb_vec b)) -> In (n, e) (eb_vec b) -> ebToDict b n = Some (eToDict e).
Proof.
  intros ND I. destruct (ebToDict b n) as [f|] eqn:F.
  - destruct (ebToDict_in _ _ _ F) as (e' & I' & ->). now rewrite (NoDup_fst _ _ _ _ ND I I').
  - exfalso. unfold ebToDict in F. rewrite upds_fold in F. destruct (find _ _) eqn:Q; [discriminate|]. apply (find_none _ _ Q (n, e)) in I || idtac.
    apply in_rev in I. pose proof (find_none _ _ Q (n, e) I) as X. cbn [fst] in X. rewrite String.eqb_refl in X. discriminate.
Qed.
Lemma ebToDict_none b n : ~ In n (map fst (eb_vec b)) -> ebToDict b n = None.
Proof. intros H. destruct (ebToDict b n) as [f|] eqn:F; [|reflexivity]. destruct (ebToDict_in _ _ _ F) as (e & I & _). exfalso. apply H. apply in_map_iff. exists (n, e). auto. Qed.

Lemma load_counters (Q : est -> Prop) c c0 m0 eS eP G W m : 1 <= c_order c <= 9 -> Q est_new -> (forall e e0 e', Q e -> eFromDict (eToDict e) e0 = Ok e' -> Q e') ->
  monFromDict c (monToDict c0 m0) eS eP G W = Ok m -> counters Q m0 -> counters Q m.
Proof.
  intros O Q0 Q3 H (C1 & C2 & C3 & C4 & C5 & C6). unfold monFromDict in H. destruct (orders_ok c O) as (b & B1 & B2). rewrite B1 in H. cbn [obind] in H.
  apply obind_ok in H as (wb & H1 & H). apply obind_ok in H as (pb & H2 & H). apply obind_ok in H as (es & H3 & H). apply obind_ok in H as (ep & H4 & H).
  apply obind_ok in H as (eg & H5 & H). apply obind_ok in H as (ew & H6 & H). injection H as <-.
  assert (X : forall b0 b1, Forall (fun p => Q (snd p)) (eb_vec b0) -> ebFromDict (ebToDict b0) b = Ok b1 -> Forall (fun p => Q (snd p)) (eb_vec b1)).
  { intros b0 b1 F Y. unfold ebFromDict in Y. apply obind_ok in Y as (v & V & Y). injection Y as <-. cbn [eb_vec]. eapply (mapo_all _ (fun p => Q (snd p))); [|exact V|].
    - intros p q Y P. cbn beta in *. destruct (ebToDict b0 (fst p)) as [f|] eqn:D; [|injection Y as <-; exact P]. apply obind_ok in Y as (e & E & Y). injection Y as <-. cbn [snd].
      destruct (ebToDict_in _ _ _ D) as (e0 & I & ->). eapply Q3; [|exact E]. rewrite Forall_forall in F. exact (F _ I).
    - rewrite B2. apply Forall_forall. intros p I. apply in_map_iff in I as (n & <- & _). exact Q0. }
  unfold monToDict in *. cbn [mf_worm mf_phy mf_sig mf_pol mf_gg mf_gw] in *. repeat split; cbn [m_worm m_phy m_sig m_pol m_gg m_gw]; eauto.
  - destruct (c_gamma3 c0), (c_gamma3 c); try (injection H5 as <-; exact Q0). eauto.
  - destruct (c_gamma3 c0), (c_gamma3 c); try (injection H6 as <-; exact Q0). eauto.
Qed.
Lemma run_counters {E} (next : E -> Z * E) (allowed : real -> Prop) (Q : est -> Prop) c mtG mtW rs ts s m : 1 <= c_order c <= 9 ->
  Q est_new -> (forall e, Q e -> Q (eMeasure (rofZ 1) e)) -> (forall f e e', allowed f -> Q e -> eSqueeze f e = Ok e' -> Q e') ->
  (forall e e0 e', Q e -> eFromDict (eToDict e) e0 = Ok e' -> Q e') ->
  run next allowed c mtG mtW rs ts s m -> counters Q m.
Proof.
  intros O Q0 Q1 Q2 Q3 H. revert O. induction H as [c mtG mtW rs ts s m eS eP G W H1 H2 H6|c mtG mtW rs ts s m c0 mtG0 mtW0 rs0 ts0 s0 m0 eS eP G W H0 IH O0 H1 H2 H6
    |c mtG mtW rs ts s s' m c' n H IH R HH|c mtG mtW rs ts s m m' c' H IH R HM|c mtG mtW rs ts s m m' f H IH A HS]; intros O; eauto using measure_counters.
  - destruct (buildNew_ok c eS eP G W O) as (m0 & B0 & _ & _ & B1 & B2 & B3 & B4 & B5 & _). rewrite H6 in B0. injection B0 as <-. unfold counters. rewrite B2, B3, B4, B5.
    repeat split; auto; apply Forall_forall; intros [n e] I; cbn [snd]; rewrite (B1 n e); auto.
  - eapply load_counters; eauto.
  - eapply squeeze_counters; eauto.
Qed.
Lemma ebMeasure_fst i x b b' : ebMeasure i x b = Ok b' -> map fst (eb_vec b') = map fst (eb_vec b).
Proof.
  intros H. destruct (Z_lt_dec i 0) as [L|L]; [unfold ebMeasure, ebAt in H; destruct (Z.ltb_spec i 0); [discriminate|lia]|].
  destruct (Z_lt_dec i (Z.of_nat (List.length (eb_vec b)))) as [L2|L2].
  - destruct (ebMeasure_ok i x b) as (b2 & e & B1 & _ & _ & _ & _ & _ & B7); [lia|]. rewrite H in B1. injection B1 as <-. exact B7.
  - unfold ebMeasure, ebAt in H. destruct (Z.ltb_spec i 0); [discriminate|]. destruct (nth_error (eb_vec b) (Z.to_nat i)) eqn:Q; [|discriminate].
    assert (nth_error (eb_vec b) (Z.to_nat i) <> None) as X by congruence. apply nth_error_Some in X. lia.
Qed.
Definition named (c : cfg) (m : mon) : Prop :=
  map fst (eb_vec (m_worm m)) = map oname (seq 0 (S (Z.to_nat (c_order c)))) /\ map fst (eb_vec (m_phy m)) = map oname (seq 0 (S (Z.to_nat (c_order c)))).
Lemma measure_fst c d m m' : monMeasure c d m = Ok m' -> map fst (eb_vec (m_worm m')) = map fst (eb_vec (m_worm m)) /\ map fst (eb_vec (m_phy m')) = map fst (eb_vec (m_phy m)).
Proof.
  intros H. unfold monMeasure in H. apply obind_ok in H as (x & _ & H). destruct (wm_ex d).
  - apply obind_ok in H as (b & B & H). injection H as <-. apply ebMeasure_fst in B. destruct (gamma d =? 0), (measG d); cbn; auto.
  - apply obind_ok in H as (b & B & H). apply obind_ok in H as (m1 & M1 & H). apply norm0_samec in M1. apply ebMeasure_fst in B.
    pose proof (phyCount_same c d (s_m_phy m b)) as PS. cbv zeta in PS. destruct PS as (E1 & E2 & _). destruct M1 as (F1 & F2 & _). rewrite E1 in F1. rewrite E2 in F2. cbn in F1, F2.
    assert (X : samec m1 m').
    { destruct (order d =? 0); [injection H as <-; repeat split|]. destruct (negb (c_gamma3 c) || (gamma d =? 0)), (measG d); eauto using sigma_samec, polar_samec, gg_samec, gw_samec. }
    destruct X as (X1 & X2 & _). rewrite X1, X2, F1, F2. auto.
Qed.
Lemma ebSqueeze_fst f b b' : ebSqueeze f b = Ok b' -> map fst (eb_vec b') = map fst (eb_vec b).
Proof.
  unfold ebSqueeze. intros H. apply obind_ok in H as (v & V & H). injection H as <-. cbn [eb_vec]. revert V. apply mapo_fst. intros p q Q. apply obind_ok in Q as (e & _ & Q). injection Q as <-. reflexivity.
Qed.
Lemma run_named {E} (next : E -> Z * E) (allowed : real -> Prop) c mtG mtW rs ts s m : 1 <= c_order c <= 9 -> run next allowed c mtG mtW rs ts s m -> named c m.
Proof.
  intros O H. revert O. induction H as [c mtG mtW rs ts s m eS eP G W H1 H2 H6|c mtG mtW rs ts s m c0 mtG0 mtW0 rs0 ts0 s0 m0 eS eP G W H0 IH O0 H1 H2 H6
    |c mtG mtW rs ts s s' m c' n H IH R HH|c mtG mtW rs ts s m m' c' H IH R HM|c mtG mtW rs ts s m m' f H IH A HS]; intros O; auto.
  - destruct (buildNew_ok c eS eP G W O) as (m0 & B0 & B1 & B2 & _). rewrite H6 in B0. injection B0 as <-. split; auto.
  - destruct (fromDict_shape c _ eS eP G W m O H6) as (B1 & B2 & _). split; auto.
  - destruct (measure_fst _ _ _ _ HM) as [X1 X2]. destruct (IH O). split; congruence.
  - destruct (IH O) as [I1 I2]. unfold monSqueeze in HS. apply obind_ok in HS as (eS & _ & HS). apply obind_ok in HS as (eP & _ & HS). apply obind_ok in HS as (wb & W & HS). apply obind_ok in HS as (pb & Pb & HS).
    apply obind_ok in HS as (es & _ & HS). apply obind_ok in HS as (ep & _ & HS). apply ebSqueeze_fst in W, Pb.
    assert (X : m_worm m' = wb /\ m_phy m' = pb).
    { destruct (c_gamma3 c); [|injection HS as <-; auto]. apply obind_ok in HS as (? & _ & HS). apply obind_ok in HS as (? & _ & HS). apply obind_ok in HS as (? & _ & HS).
      apply obind_ok in HS as (? & _ & HS). apply obind_ok in HS as (? & _ & HS). apply obind_ok in HS as (? & _ & HS). injection HS as <-. auto. }
    destruct X as [X1 X2]. split; congruence.
Qed.

(** *** saving and loading the counters *)
Lemma load_one e : e_hist e = [] -> exists e', eFromDict (eToDict e) est_new = Ok e' /\ e_acc e' = e_acc e /\ e_norm e' = e_norm e.
Proof. intros H. unfold eFromDict. cbn [eToDict ed_hist ed_accu ed_norm]. rewrite H. cbn [List.length]. change (HSIZE <? Z.of_nat 0) with false. cbn iota. eexists. split; [reflexivity|]. split; reflexivity. Qed.
Definition restored (b0 b : ebundle) (o0 o : nat) : Prop :=
  forall i, (i <= o)%nat -> exists e, ebAt (Z.of_nat i) b = Ok e /\ if (i <=? o0)%nat then exists e0, ebAt (Z.of_nat i) b0 = Ok e0 /\ e_acc e = e_acc e0 /\ e_norm e = e_norm e0 else e = est_new.
Lemma mapo_nth {A B} (f : A -> outcome B) : forall l l', mapo f l = Ok l' -> forall i x, nth_error l i = Some x -> exists y, nth_error l' i = Some y /\ f x = Ok y.
Proof.
  induction l as [|a l IH]; intros l' H i x X; [destruct i; discriminate|]. cbn [mapo] in H. apply obind_ok in H as (q & Q & H). apply obind_ok in H as (r & R & H). injection H as <-.
  destruct i as [|i]; cbn [nth_error] in *; [injection X as <-; eauto|eauto].
Qed.
Lemma mapo_some {A B} (f : A -> outcome B) : forall l, (forall x, In x l -> exists y, f x = Ok y) -> exists l', mapo f l = Ok l'.
Proof.
  induction l as [|a l IH]; intros H; cbn [mapo]; [eauto|]. destruct (H a (or_introl eq_refl)) as (y & ->). destruct IH as (l' & ->); [intros; apply H; now right|]. cbn [obind]. eauto.
Qed.
Lemma oname_inj i j : (i <= 9)%nat -> (j <= 9)%nat -> oname i = oname j -> i = j.
Proof.
  intros Hi Hj Q. pose proof (onames 9 ltac:(lia)) as ND. rewrite NoDup_nth_error in ND. apply ND; [rewrite map_length, seq_length; lia|].
  rewrite !nth_error_map. assert (X : forall k, (k <= 9)%nat -> nth_error (seq 0 10) k = Some k) by (intros k K; do 10 (destruct k as [|k]; [reflexivity|]); lia).
  rewrite !X by lia. cbn [option_map]. now rewrite Q.
Qed.
Lemma load_bundle (b0 b : ebundle) o0 o : (o0 <= 9)%nat -> (o <= 9)%nat -> map fst (eb_vec b0) = map oname (seq 0 (S o0)) -> Forall (fun p => e_hist (snd p) = []) (eb_vec b0) ->
  eb_vec b = map (fun n => (n, est_new)) (map oname (seq 0 (S o))) -> exists b', ebFromDict (ebToDict b0) b = Ok b' /\ restored b0 b' o0 o.
Proof.
  intros L0 L NM HH E. assert (ND : NoDup (map fst (eb_vec b0))) by (rewrite NM; now apply onames).
  assert (SQ : forall n k, (k < n)%nat -> nth_error (seq 0 n) k = Some k) by (intros n k K; rewrite nth_error_nth' with (d := 0%nat) by (rewrite seq_length; lia); now rewrite seq_nth by lia).
  assert (AT : forall i, (i <= o0)%nat -> exists e0, nth_error (eb_vec b0) i = Some (oname i, e0) /\ ebToDict b0 (oname i) = Some (eToDict e0) /\ e_hist e0 = []).
  { intros i I. assert (X : nth_error (map fst (eb_vec b0)) i = Some (oname i)) by (rewrite NM, nth_error_map, SQ by lia; reflexivity).
    rewrite nth_error_map in X. destruct (nth_error (eb_vec b0) i) as [[n e0]|] eqn:Q; [|discriminate]. cbn in X. injection X as ->. exists e0. split; [reflexivity|]. apply nth_error_In in Q.
    split; [now apply ebToDict_at|]. rewrite Forall_forall in HH. exact (HH _ Q). }
  assert (NO : forall i, (o0 < i <= 9)%nat -> ebToDict b0 (oname i) = None).
  { intros i I. apply ebToDict_none. rewrite NM. intros X. apply in_map_iff in X as (j & X & J). apply in_seq in J. apply oname_inj in X; lia. }
  unfold ebFromDict. rewrite E. set (f := fun p : string * est => _). destruct (mapo_some f (map (fun n => (n, est_new)) (map oname (seq 0 (S o))))) as (v & V).
  { intros p I. apply in_map_iff in I as (n & <- & I). apply in_map_iff in I as (i & <- & I). apply in_seq in I. unfold f. cbn [fst snd].
    destruct (le_lt_dec i o0) as [I0|I0]; [|rewrite NO by lia; eauto]. destruct (AT i I0) as (e0 & _ & -> & H0). destruct (load_one e0 H0) as (e' & -> & _). cbn [obind]. eauto. }
  rewrite V. cbn [obind]. eexists. split; [reflexivity|]. intros i I.
  destruct (mapo_nth f _ _ V i (oname i, est_new)) as ([n y] & Y1 & Y2); [rewrite !nth_error_map, SQ by lia; reflexivity|].
  exists y. unfold ebAt. destruct (Z.ltb_spec (Z.of_nat i) 0); [lia|]. rewrite Nat2Z.id. cbn [eb_vec]. rewrite Y1. split; [reflexivity|]. unfold f in Y2. cbn [fst snd] in Y2.
  destruct (Nat.leb_spec i o0) as [I0|I0].
  - destruct (AT i I0) as (e0 & E1 & E2 & E3). rewrite E2 in Y2. destruct (load_one e0 E3) as (e' & E4 & E5 & E6). rewrite E4 in Y2. cbn [obind] in Y2. injection Y2 as _ <-.
    exists e0. rewrite E1. auto.
  - rewrite NO in Y2 by lia. injection Y2 as _ <-. reflexivity.
Qed.
Lemma load_ok {E} (next : E -> Z * E) allowed c0 mtG mtW rs ts s0 m0 c eS eP G W : 1 <= c_order c0 <= 9 -> 1 <= c_order c <= 9 -> c_gamma3 c = c_gamma3 c0 -> run next allowed c0 mtG mtW rs ts s0 m0 ->
  exists m, monFromDict c (monToDict c0 m0) eS eP G W = Ok m /\ restored (m_worm m0) (m_worm m) (Z.to_nat (c_order c0)) (Z.to_nat (c_order c)) /\
    restored (m_phy m0) (m_phy m) (Z.to_nat (c_order c0)) (Z.to_nat (c_order c)) /\
    (e_acc (m_sig m) = e_acc (m_sig m0) /\ e_norm (m_sig m) = e_norm (m_sig m0)) /\ (e_acc (m_pol m) = e_acc (m_pol m0) /\ e_norm (m_pol m) = e_norm (m_pol m0)) /\
    (c_gamma3 c = true -> (e_acc (m_gg m) = e_acc (m_gg m0) /\ e_norm (m_gg m) = e_norm (m_gg m0)) /\ (e_acc (m_gw m) = e_acc (m_gw m0) /\ e_norm (m_gw m) = e_norm (m_gw m0))).
Proof.
  intros O0 O G3 H. destruct (run_named next allowed c0 mtG mtW rs ts s0 m0 O0 H) as [N1 N2].
  assert (CC : counters (fun e => e_hist e = []) m0).
  { apply (run_counters next allowed (fun e => e_hist e = []) c0 mtG mtW rs ts s0 m0); auto.
    - intros f e e' _ Q. unfold eSqueeze. destruct (rltb (rofZ 0) f); [|discriminate]. intros X. injection X as <-. exact Q.
    - intros e e0 e' Q X. destruct (save_load e e0) as (e2 & E1 & _ & _ & E2 & _); [rewrite Q; unfold HSIZE; cbn; lia|]. rewrite X in E1. injection E1 as <-. congruence. }
  destruct CC as (C1 & C2 & C3 & C4 & C5 & C6). unfold monFromDict. destruct (orders_ok c O) as (b & B1 & B2). rewrite B1. cbn [obind]. unfold monToDict. cbn [mf_worm mf_phy mf_sig mf_pol mf_gg mf_gw].
  destruct (load_bundle (m_worm m0) b (Z.to_nat (c_order c0)) (Z.to_nat (c_order c))) as (wb & W1 & W2); auto; try lia. destruct (load_bundle (m_phy m0) b (Z.to_nat (c_order c0)) (Z.to_nat (c_order c))) as (pb & P1 & P2); auto; try lia.
  rewrite W1, P1. cbn [obind]. destruct (load_one _ C3) as (es & -> & S1 & S2). destruct (load_one _ C4) as (ep & -> & S3 & S4). cbn [obind]. rewrite <- G3. destruct (c_gamma3 c) eqn:Z3.
  - destruct (load_one _ C5) as (eg & -> & S5 & S6). destruct (load_one _ C6) as (ew & -> & S7 & S8). cbn [obind]. eexists. split; [reflexivity|]. cbn [m_worm m_phy m_sig m_pol m_gg m_gw].
    split; [exact W2|]. split; [exact P2|]. auto.
  - cbn [obind]. eexists. split; [reflexivity|]. cbn [m_worm m_phy m_sig m_pol m_gg m_gw]. split; [exact W2|]. split; [exact P2|]. split; [auto|]. split; [auto|discriminate].
Qed.
End Runs.
