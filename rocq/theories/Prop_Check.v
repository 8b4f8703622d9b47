(** * The built-in consistency check (C22, C23, C52) *)
From Coq Require Import ZArith List Bool Arith Lia Reals Lra.
From Verif Require Import Base Num NumR NumF RNG Momentum Complex Lattice Bundle IndexMap Weights Diagram Markov DiagramIO DiagramCheck History
  P_Momentum P_Bundle P_Complex P_IndexMap P_WP P_Inv P_Sem1 P_Hop P_Fix P_IO P_History P_Promises P_IOProm P_Loop P_Weight P_Check P_CheckW
  Prop_Markov Prop_IO Prop_Weight.
Import ListNotations.
Open Scope Z_scope.

(** ** C23: what a successful check says about an arbitrary diagram, corrupt or not *)
Lemma modk (a : Z) : eqm a 0 -> a mod 20001 = 0.
Proof. intros [q Hq]. rewrite Z.sub_0_r in Hq. subst a. change MODK with 20001. apply Z_mod_mult. Qed.
Lemma check_parts (N : Num) (T : tables) (d : diagram) : CheckDiagram T d = Ok true ->
  CheckTopo d = Ok true /\ CheckStatus d = Ok true /\ CheckK d = Ok true /\ CheckSpin d = Ok true /\ CheckWeight T d = Ok true.
Proof.
  unfold CheckDiagram. destruct (CheckTopo d) as [[]| |]; cbn; try discriminate. destruct (CheckStatus d) as [[]| |]; cbn; try discriminate.
  destruct (CheckK d) as [[]| |]; cbn; try discriminate. destruct (CheckSpin d) as [[]| |]; cbn; try discriminate.
  destruct (CheckWeight T d) as [[]| |]; cbn; try discriminate. auto.
Qed.
Lemma check_sound (N : Num) (T : tables) (d : diagram) : CheckDiagram T d = Ok true -> order d <> 0 ->
  (Z.of_nat (bhowmany (gB d)) = 2 * order d /\ Z.of_nat (bhowmany (wB d)) = order d /\ Z.of_nat (bhowmany (vB d)) = 2 * order d) /\
  (forall i, (i < bhowmany (gB d))%nat -> exists g, bat (gB d) i = Ok g /\
     (forall e, bexist (vB d) (g_ver d g e) = true /\ v_G d (g_ver d g e) (inv e) = g) /\
     v_S d (g_ver d g IN) OUT = v_S d (g_ver d g OUT) IN) /\
  (forall i, (i < bhowmany (wB d))%nat -> exists w, bat (wB d) i = Ok w /\
     (forall e, bexist (vB d) (w_ver d w e) = true /\ v_W d (w_ver d w e) = w /\ v_D d (w_ver d w e) = e) /\
     (w_delta d w = true -> w_meas d w = false /\ reqb (v_T d (w_ver d w IN)) (v_T d (w_ver d w OUT)) = true)) /\
  (forall i v, (i < bhowmany (vB d))%nat -> bat (vB d) i = Ok v ->
     -10000 <= g_K d (v_G d v IN) <= 10000 -> -10000 <= g_K d (v_G d v OUT) <= 10000 -> -10000 <= w_K d (v_W d v) <= 10000 ->
     -10000 <= wm_K d <= 10000 ->
     (g_K d (v_G d v IN) - g_K d (v_G d v OUT) - (match v_D d v with IN => w_K d (v_W d v) | OUT => - w_K d (v_W d v) end)
      - (if wm_ex d && Nat.eqb v (ira d) then wm_K d else if wm_ex d && Nat.eqb v (masha d) then - wm_K d else 0)) mod 20001 = 0) /\
  (if measG d
   then (exists i, (i < bhowmany (gB d))%nat /\ bat (gB d) i = Ok (gmeas d) /\
           forall j g, (j < bhowmany (gB d))%nat -> bat (gB d) j = Ok g -> (g_meas d g = true <-> j = i)) /\
        (forall j w, (j < bhowmany (wB d))%nat -> bat (wB d) j = Ok w -> w_meas d w = false)
   else (exists i, (i < bhowmany (wB d))%nat /\
           forall j w, (j < bhowmany (wB d))%nat -> bat (wB d) j = Ok w -> (w_meas d w = true <-> j = i)) /\
        (forall j g, (j < bhowmany (gB d))%nat -> bat (gB d) j = Ok g -> g_meas d g = false)).
Proof.
  intros H O. destruct (check_parts N T d H) as (H1 & H2 & H3 & H4 & _).
  destruct (topo_sound d H1 O) as (A1 & A2 & A3 & A4 & A5). destruct (status_sound d H2 O) as [B1 B2].
  split; [auto|]. split; [|split; [|split; [|exact B1]]].
  - intros i Hi. destruct (A4 i Hi) as (g & E & Q). exists g. split; auto. split; auto. exact (spin_sound d H4 O i g Hi E).
  - intros i Hi. destruct (A5 i Hi) as (w & E & Q). exists w. split; auto. split; auto. exact (B2 i w Hi E).
  - intros i v Hi E R1 R2 R3 R4. pose proof (k_sound d H3 O i v Hi E R1 R2 R3 R4) as Q. apply modk in Q. destruct (v_D d v); cbn [SIGN] in Q.
    + now rewrite Z.mul_1_l in Q.
    + etransitivity; [|exact Q]. apply (f_equal (fun x => x mod 20001)). ring.
Qed.
Theorem C23_check_sound :
  forall (N : Num) (T : tables) (d : diagram), CheckDiagram T d = Ok true -> order d <> 0 ->
  (Z.of_nat (bhowmany (gB d)) = 2 * order d /\ Z.of_nat (bhowmany (wB d)) = order d /\ Z.of_nat (bhowmany (vB d)) = 2 * order d) /\
  (forall i, (i < bhowmany (gB d))%nat -> exists g, bat (gB d) i = Ok g /\
     (forall e, bexist (vB d) (g_ver d g e) = true /\ v_G d (g_ver d g e) (inv e) = g) /\
     v_S d (g_ver d g IN) OUT = v_S d (g_ver d g OUT) IN) /\
  (forall i, (i < bhowmany (wB d))%nat -> exists w, bat (wB d) i = Ok w /\
     (forall e, bexist (vB d) (w_ver d w e) = true /\ v_W d (w_ver d w e) = w /\ v_D d (w_ver d w e) = e) /\
     (w_delta d w = true -> w_meas d w = false /\ reqb (v_T d (w_ver d w IN)) (v_T d (w_ver d w OUT)) = true)) /\
  (forall i v, (i < bhowmany (vB d))%nat -> bat (vB d) i = Ok v ->
     -10000 <= g_K d (v_G d v IN) <= 10000 -> -10000 <= g_K d (v_G d v OUT) <= 10000 -> -10000 <= w_K d (v_W d v) <= 10000 ->
     -10000 <= wm_K d <= 10000 ->
     (g_K d (v_G d v IN) - g_K d (v_G d v OUT) - (match v_D d v with IN => w_K d (v_W d v) | OUT => - w_K d (v_W d v) end)
      - (if wm_ex d && Nat.eqb v (ira d) then wm_K d else if wm_ex d && Nat.eqb v (masha d) then - wm_K d else 0)) mod 20001 = 0) /\
  (if measG d
   then (exists i, (i < bhowmany (gB d))%nat /\ bat (gB d) i = Ok (gmeas d) /\
           forall j g, (j < bhowmany (gB d))%nat -> bat (gB d) j = Ok g -> (g_meas d g = true <-> j = i)) /\
        (forall j w, (j < bhowmany (wB d))%nat -> bat (wB d) j = Ok w -> w_meas d w = false)
   else (exists i, (i < bhowmany (wB d))%nat /\
           forall j w, (j < bhowmany (wB d))%nat -> bat (wB d) j = Ok w -> (w_meas d w = true <-> j = i)) /\
        (forall j g, (j < bhowmany (gB d))%nat -> bat (gB d) j = Ok g -> g_meas d g = false)).
Proof. exact check_sound. Qed.
Print Assumptions C23_check_sound.
(** three steps of the IEEE example (CreateWorm, AddInteraction, DeleteWorm) reach order 2 and pass the check *)
Definition checked (d : @diagram NumF) : bool := (order d =? 2) && match CheckDiagram tabF d with Ok b => b | _ => false end.
Example C23_case : exists s, history nextF cfgF s /\ CheckDiagram (c_tab cfgF) (md s) = Ok true /\ order (md s) = 2.
Proof.
  destruct (runF_history ([opw 0; 0; 10100; 0] ++ [opw 7; 10500; 1; 0; 7] ++ [opw 1; accw]) 3 checked) as (s & H & T); [vm_compute; reflexivity|].
  exists s. split; auto. apply andb_prop in T as [T1 T2]. apply Z.eqb_eq in T1. split; auto.
  change (c_tab cfgF) with tabF. destruct (CheckDiagram tabF (md s)) as [[]| |]; [reflexivity|discriminate T2| |]; discriminate T2.
Qed.

(** ** C22: every state the program reaches passes, apart from the two exceptions named *)
Lemma check_structure (N : Num) (E : Type) (next : E -> Z * E) (c : cfg) (s : mstate) : cfg_ok c -> new_ok (c_lat c) -> history next c s ->
  let d := md s in
  CheckTopo d = Ok true /\ CheckK d = Ok true /\ CheckSpin d = Ok true /\
  ((forall w, bexist (wB d) w = true -> w_delta d w = true -> reqb (v_T d (w_ver d w IN)) (v_T d (w_ver d w OUT)) = true) ->
   CheckStatus d = Ok true).
Proof.
  intros C LK H d. pose proof (history_inv next c s C LK H) as HI. fold d in HI.
  split; [exact (topo_complete c d HI)|]. split; [exact (k_complete c d HI)|]. split; [exact (spin_complete c d HI)|].
  intros DT. apply (status_complete c d HI). intros w L. apply DT. now apply live_exist.
Qed.
Theorem C22_structure_accepted :
  forall (N : Num) (E : Type) (next : E -> Z * E) (c : cfg) (s : mstate), cfg_ok c -> new_ok (c_lat c) -> history next c s ->
  let d := md s in
  CheckTopo d = Ok true /\ CheckK d = Ok true /\ CheckSpin d = Ok true /\
  ((forall w, bexist (wB d) w = true -> w_delta d w = true -> reqb (v_T d (w_ver d w IN)) (v_T d (w_ver d w OUT)) = true) ->
   CheckStatus d = Ok true).
Proof. exact check_structure. Qed.
Print Assumptions C22_structure_accepted.
Example C22_structure_case : exists s, cfg_ok ex_cfg /\ new_ok (c_lat ex_cfg) /\ history ex_next ex_cfg s /\ mcount s = 1000.
Proof. exact history_case. Qed.

(** In exact arithmetic the whole check succeeds exactly when every delta line has equal end
    times and no stored line weight is within 1e-9 of zero. *)
Definition below (z : cR) : Prop := (Rabs (re z : R) < / 1000000000)%R /\ (Rabs (im z : R) < / 1000000000)%R.
Lemma check_accepts (E : Type) (next : E -> Z * E) (c : @cfg NumR) (s : mstate) : cfg_ok c -> new_ok (c_lat c) -> regular_history next c s ->
  let d := md s in
  (order d = 0 -> CheckDiagram (c_tab c) d = Ok true) /\
  (order d <> 0 ->
    (CheckDiagram (c_tab c) d = Ok true <->
     (forall w, bexist (wB d) w = true -> w_delta d w = true -> v_T d (w_ver d w IN) = v_T d (w_ver d w OUT)) /\
     (forall g, bexist (gB d) g = true -> ~ below (g_W d g)) /\ (forall w, bexist (wB d) w = true -> ~ below (w_W d w)))).
Proof.
  intros C LK H d. destruct (regular_w next c s C LK H) as [Hh HW]. pose proof (history_inv next c s C LK Hh) as HI. fold d in HW, HI.
  pose proof (topo_complete c d HI) as E1. pose proof (k_complete c d HI) as E2. pose proof (spin_complete c d HI) as E3. split.
  - intros O. unfold CheckDiagram. rewrite E1, E2, E3. unfold CheckStatus, CheckWeight. rewrite O. cbn [Z.eqb obind negb].
    replace (dweight d) with (@cofr NumR (normF (c_tab c))) by (apply toC_inj; rewrite (wi_p _ _ HW), O; reflexivity).
    rewrite cEqual_refl. reflexivity.
  - intros O. split.
    + intros Q. destruct (check_sound NumR (c_tab c) d Q O) as (_ & _ & B & _). destruct (check_parts NumR _ _ Q) as (_ & _ & _ & _ & W).
      destruct (weight_sound c d HI O W) as [W1 W2]. split; [|split; intros x L; apply live_exist in L; [now apply W1|now apply W2]].
      intros w L Ed. apply live_exist in L. destruct (B (nm (wB d) w)) as (w' & B1 & _ & B2); [apply L|].
      destruct (bat_spec (wB d) (nm (wB d) w) (i_bw _ _ HI) (proj2 L)) as [B3 _]. destruct (bi_nm _ (i_bw _ _ HI) w (proj1 L)) as [_ B4].
      rewrite B4, B1 in B3. injection B3 as ->. destruct (B2 Ed) as [_ B5]. now apply Reqb_spec in B5.
    + intros (Q1 & Q2 & Q3). unfold CheckDiagram. rewrite E1, E2, E3. cbn [obind negb].
      rewrite (status_complete c d HI); [|intros w L Ed; apply Reqb_spec, Q1; auto; now apply live_exist]. cbn [obind negb].
      rewrite (weight_complete c d HI C HW); [reflexivity|]. split; intros x L; apply live_exist in L; [now apply Q2|now apply Q3].
Qed.
Theorem C22_check_accepts :
  forall (E : Type) (next : E -> Z * E) (c : @cfg NumR) (s : mstate), cfg_ok c -> new_ok (c_lat c) -> regular_history next c s ->
  let d := md s in
  (order d = 0 -> CheckDiagram (c_tab c) d = Ok true) /\
  (order d <> 0 ->
    (CheckDiagram (c_tab c) d = Ok true <->
     (forall w, bexist (wB d) w = true -> w_delta d w = true -> v_T d (w_ver d w IN) = v_T d (w_ver d w OUT)) /\
     (forall g, bexist (gB d) g = true -> ~ below (g_W d g)) /\ (forall w, bexist (wB d) w = true -> ~ below (w_W d w)))).
Proof. exact check_accepts. Qed.
Print Assumptions C22_check_accepts.

Lemma fresh_equal_times c d0 d : cfg_ok c -> new_ok (c_lat c) -> constructed d0 -> @BuildNew NumR (c_tab c) (c_lat c) d0 = Ok d ->
  forall w, live (wB d) w -> w_delta d w = false.
Proof.
  intros C LK K B. destruct (BuildNew_inv c d0 C (proj1 LK) (proj2 LK) K) as (co & d1 & d' & _ & B' & Y & F & _ & _). rewrite B in B'. injection B' as <-.
  destruct F as (_ & _ & _ & F4 & _ & _ & _ & _ & F9 & _). intros w. rewrite F4, F9. intros L.
  destruct (cp_onto (wB (dref co d0)) (wB d1) w) as (g & Lg & E); [apply BInv_bk; lia|exact (y_bw _ _ Y)|exact (y_aw _ _ Y)|exact L|].
  rewrite <- E. destruct (y_w _ _ Y g Lg) as (_ & _ & Q & _). rewrite Q. reflexivity.
Qed.
Lemma not_below (z : cR) : (1 <= (re z : R) \/ 1 <= (im z : R) \/ (im z : R) <= -1)%R -> ~ below z.
Proof.
  intros H [A B]. apply Rabs_def2 in A, B. assert (E : (/ 1000000000 < 1)%R) by lra. destruct H as [H|[H|H]]; lra.
Qed.
Lemma ex_G_big ri ro ti to si so me e z : GWeight ex_tab ri ro ti to si so me false e = Ok z -> ~ below z.
Proof.
  unfold GWeight. destruct (GetIndexSmooth _ _ _ _ _ _ _) as [i| |]; cbn [obind]; try discriminate.
  destruct me; intros Q; injection Q as <-; apply not_below; cbn; unfold TauSym; cbn; [left; lra|].
  destruct (Rltb _ _); cbn; first [right; right; lra|right; left; lra].
Qed.
Lemma ex_W_big ri ro ti to si so wo me de e z : WWeight ex_tab ri ro ti to si so wo me de false e = Ok z -> ~ below z.
Proof.
  unfold WWeight. destruct de.
  - destruct (GetIndexDelta _ _ _ _ _) as [i| |]; cbn [obind]; try discriminate. intros Q; injection Q as <-. apply not_below; cbn; left; lra.
  - destruct (GetIndexSmooth _ _ _ _ _ _ _) as [i| |]; cbn [obind]; try discriminate.
    destruct me; intros Q; injection Q as <-; apply not_below; cbn; [left; lra|right; left; lra].
Qed.
(** the fresh diagram of the example configuration meets every hypothesis *)
Example C22_accepts_case : exists s, cfg_ok ex_cfg /\ new_ok (c_lat ex_cfg) /\ regular_history ex_next ex_cfg s /\ order (md s) = 1 /\
  (forall w, bexist (wB (md s)) w = true -> w_delta (md s) w = true -> v_T (md s) (w_ver (md s) w IN) = v_T (md s) (w_ver (md s) w OUT)) /\
  (forall g, bexist (gB (md s)) g = true -> ~ below (g_W (md s) g)) /\ (forall w, bexist (wB (md s)) w = true -> ~ below (w_W (md s) w)).
Proof.
  destruct (BuildNew_inv ex_cfg (@diagram_new NumR) ex_cfg_ok (proj1 ex_new_ok) (proj2 ex_new_ok)) as (co & d1 & d & _ & B & Y & F & HI & Ga & _).
  { repeat split. }
  set (s0 := mkS d 7 0 (fun _ _ => 0%R) (fun _ _ => 0%R)). exists s0. split; [exact ex_cfg_ok|]. split; [exact ex_new_ok|].
  assert (G : forall x, bexist (gB d) x = true -> exists ri ro ti to si so me e, GWeight ex_tab ri ro ti to si so me false e = Ok (g_W d x)).
  { intros x Lx; apply live_exist in Lx. pose proof (i_sG _ _ HI x Lx) as Q. rewrite (f_gg0 HI x Lx Ga) in Q. repeat eexists. exact Q. }
  assert (W : forall x, bexist (wB d) x = true -> exists ri ro ti to si so wo me de e, WWeight ex_tab ri ro ti to si so wo me de false e = Ok (w_W d x)).
  { intros x Lx; apply live_exist in Lx. pose proof (i_sW _ _ HI x Lx) as Q. rewrite (f_ww0 HI x Lx Ga) in Q. repeat eexists. exact Q. }
  split; [|split; [|split; [|split]]].
  - apply (rh_new ex_next ex_cfg s0 diagram_new); [repeat split|exact B| |]; intros x Lx.
    + destruct (G x Lx) as (? & ? & ? & ? & ? & ? & ? & ? & Q). exact (ex_G_nz _ _ _ _ _ _ _ _ _ Q).
    + destruct (W x Lx) as (? & ? & ? & ? & ? & ? & ? & ? & ? & ? & Q). exact (ex_W_nz _ _ _ _ _ _ _ _ _ _ _ Q).
  - change (order d = 1). destruct F as (F1 & _). rewrite F1, (y_aw _ _ Y). reflexivity.
  - change (md s0) with d. intros w L Ed. apply live_exist in L.
    rewrite (fresh_equal_times ex_cfg diagram_new d ex_cfg_ok ex_new_ok) in Ed; [discriminate|repeat split|exact B|exact L].
  - change (md s0) with d. intros x Lx. destruct (G x Lx) as (ri & ro & ti & to & si & so & me & e & Q). exact (ex_G_big _ _ _ _ _ _ _ _ _ Q).
  - change (md s0) with d. intros x Lx. destruct (W x Lx) as (ri & ro & ti & to & si & so & wo & me & de & e & Q). exact (ex_W_big _ _ _ _ _ _ _ _ _ _ _ Q).
Qed.

(** ** C52 is false: with propagators of size 1e-10 the fresh diagram is rejected. *)
Definition small := @mkC NumF (@rdiv NumF (fz 1) (fz 10000000000)) (fz 0).
Definition tabS : @tables NumF :=
  @mkTab NumF (@mkIM NumF (fz 1) 8 latF (-1) 2) (@mkIM NumF (fz 1) 8 latF 1 4)
    (fun _ => small) (fun _ => one) (fun _ => small) (fun _ => small) (fun _ => one) None None (fz 1).
Definition cfgS : @cfg NumF := mkCfg tabS latF (fz 1) 3 false [fz 1; fz 1; fz 1; fz 1] (fz 1) (fz 1) (fz 1) (fz 1).
Definition rejected (r : outcome (@diagram NumF)) : bool :=
  match r with Ok d => match CheckDiagram tabS d with Ok b => negb b | _ => false end | _ => false end.
Theorem C52_fresh_passes_check_refuted :
  exists s : @mstate NumF (list Z), history nextF cfgS s /\ mcount s = 0 /\ CheckDiagram (c_tab cfgS) (md s) = Ok false.
Proof.
  assert (T : rejected (BuildNew tabS latF diagram_new) = true) by (vm_compute; reflexivity).
  destruct (BuildNew tabS latF diagram_new) as [d| |] eqn:B; [|discriminate|discriminate].
  exists (startF [] d). split; [|split; [reflexivity|]].
  - apply (hi_new nextF cfgS (startF [] d) diagram_new); [repeat split|exact B].
  - unfold rejected in T. change (md (startF [] d)) with d. change (c_tab cfgS) with tabS. destruct (CheckDiagram tabS d) as [[]| |]; [discriminate T|reflexivity| |]; discriminate T.
Qed.
Print Assumptions C52_fresh_passes_check_refuted.
