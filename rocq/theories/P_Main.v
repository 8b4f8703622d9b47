(** The main loop runs on *)
From Coq Require Import ZArith List Bool Arith Lia String.
From Verif Require Import Base Num Complex Lattice Bundle IndexMap Weights Diagram Markov DiagramIO DiagramCheck History Life
  Estimator WeightEstimator Gamma3 Monitor PyDict Param ConfigPy Env
  P_RNG P_Bundle P_IndexMap P_WP P_Inv P_Hop P_Fix P_IO P_History P_Promises P_IOProm P_Estimator P_WeightEst P_Monitor P_Life P_Param P_ParamIO P_Check P_Sem1 P_Env Job P_Job MainLoop.
Import ListNotations.
Open Scope string_scope.
Open Scope Z_scope.

(** *** outcomes that are not undefined *)
Definition defined {A} (o : outcome A) : Prop := o <> UB.
Lemma def_bind {A B} (o : outcome A) (f : A -> outcome B) : defined o -> (forall a, o = Ok a -> defined (f a)) -> defined (obind o f).
Proof. intros H K. destruct o; cbn [obind]; [now apply K|discriminate|now contradict H]. Qed.
Lemma def_test b : defined (test b).
Proof. destruct b; discriminate. Qed.
Section Def.
Context {N : Num}.
Lemma def_get {A} (f : py -> option A) k (m : @dict N) : defined (dGet f k m).
Proof. unfold dGet. destruct (dget k m); [destruct (f p)|]; discriminate. Qed.
Lemma def_dload (o : @py N) m : defined (dLoad o m).
Proof. unfold dLoad. destruct (cvMapInto o m); discriminate. Qed.
Lemma def_msg (o : @py N) : defined (msgLoad o).
Proof. unfold msgLoad. repeat (apply def_bind; [first [apply def_get|apply def_dload]|intros ? _]). discriminate. Qed.
Lemma def_readb b (m : @dict N) : defined (readBasis b m).
Proof.
  unfold readBasis. apply def_bind; [apply def_get|intros x _]. destruct (negb _); [discriminate|]. repeat (apply def_bind; [apply def_get|intros ? _]). apply def_get.
Qed.
Lemma def_basis b (k : @disk N) : defined (diskBasis b k).
Proof.
  unfold diskBasis, loadBasis. apply def_bind; [destruct (k_fermi k); discriminate|intros f _]. apply def_bind; [destruct (k_bose k); discriminate|intros q _].
  repeat (apply def_bind; [first [apply def_get|apply def_dload|apply def_readb|idtac]|intros ? _]); try discriminate.
  destruct a. discriminate.
Qed.
(** an array with all its entries *)
Definition whole (n : nat) (a : list Z * list (@cplx N)) : Prop := List.length (fst a) = n /\ Z.of_nat (List.length (snd a)) = prodz (fst a).
Lemma eq_upto_full : forall a b, List.length a = List.length b -> (eq_upto (List.length b) a b = Ok true /\ a = b) \/ eq_upto (List.length b) a b = Ok false.
Proof.
  induction a as [|x a IH]; intros [|y b] H; cbn in *; try discriminate; auto. destruct (Z.eqb_spec x y) as [->|]; [|auto]. destruct (IH b ltac:(lia)) as [[E ->]|E]; auto.
Qed.
Lemma def_waload a s : whole (List.length s) a -> Forall (fun x => 0 < x) s -> prodz s < 2 ^ 32 -> defined (waLoad (fst a) (snd a) (waAllocate s)).
Proof.
  intros [L D] P B. unfold waLoad. cbn [waAllocate wa_shape wa_data]. destruct (eq_upto_full (fst a) s L) as [[-> E]| ->]; cbn [obind]; [|discriminate].
  rewrite repeat_length, (prod32_spec s P B). rewrite E in D. destruct (Nat.ltb_spec (List.length (snd a)) (Z.to_nat (prodz s))); [lia|discriminate].
Qed.
Context {E : Type}.
Definition whole_file (w : @wtfile N) : Prop := whole 6 (wt_G w) /\ whole 6 (wt_W w) /\ whole 5 (wt_D w).
Lemma def_loadGW (p : @para N E) k w : usable p -> whole_file w -> defined (loadGW p k w).
Proof.
  intros (_ & _ & (G1 & G2 & G3) & (W1 & W2 & W3) & _) (F1 & F2 & F3). unfold loadGW. apply def_bind; [apply def_basis|intros nb _].
  pose proof (tab_pos _ G1) as TG. pose proof (tab_pos _ W1) as TW. pose proof (shape_pos _ G1) as PG. pose proof (shape_pos _ W1) as PW.
  apply def_bind; [apply def_waload; [exact F1|exact PG|]|intros gs _].
  { assert (Q : prodz (shape (gmapOf p)) = tabsize (gmapOf p)) by (unfold shape, tabsize; cbn [prodz fold_right]; ring). rewrite Q. exact (mo_fit _ G1). }
  apply def_bind; [apply def_waload; [exact F2|exact PW|]|intros ws _].
  { assert (Q : prodz (shape (wmapOf p)) = tabsize (wmapOf p)) by (unfold shape, tabsize; cbn [prodz fold_right]; ring). rewrite Q. exact (mo_fit _ W1). }
  apply def_bind; [apply def_waload; [exact F3| |]|intros wd _; discriminate].
  - unfold shape in *. cbn [firstn]. repeat (match goal with H : Forall _ (_ :: _) |- _ => inversion H; subst; clear H end). repeat constructor; assumption.
  - unfold shape in PW. inversion PW as [|x1 l1 P1 R1]; subst. inversion R1 as [|x2 l2 P2 R2]; subst. inversion R2 as [|x3 l3 P3 R3]; subst. inversion R3 as [|x4 l4 P4 R4]; subst. inversion R4 as [|x5 l5 P5 R5]; subst. inversion R5 as [|x6 l6 P6 R6]; subst.
    assert (Q : prodz (firstn 5 (shape (wmapOf p))) * im_maxtau (wmapOf p) = tabsize (wmapOf p)) by (unfold shape, tabsize; cbn [firstn prodz fold_right]; ring).
    assert (Q1 : 0 < prodz (firstn 5 (shape (wmapOf p)))) by (apply prodz_pos; unfold shape; cbn [firstn]; repeat constructor; assumption).
    pose proof (mo_fit _ W1) as Q2. rewrite <- Q in Q2. change (im_maxtau (wmapOf p)) with (p_mtb p) in *. set (z := prodz (firstn 5 (shape (wmapOf p)))) in *. clearbody z. clear - Q1 Q2 P6. nia.
Qed.
End Def.

Section Check.
Context {N : Num}.
Lemma def_count b f n : (forall i, (i < n)%nat -> exists x, bat b i = Ok x /\ defined (f x)) -> defined (count b f 0 n).
Proof.
  intros H. assert (G : forall m i, (i + m <= n)%nat -> defined (count b f i m)); [|apply G; lia].
  induction m as [|m IH]; intros i Hi; cbn [count]; [discriminate|]. destruct (H i ltac:(lia)) as (x & -> & D). cbn [obind]. apply def_bind; [exact D|intros t _]. apply def_bind; [apply IH; lia|discriminate].
Qed.
Lemma def_wloop (body : nat -> cplx -> outcome (option cplx)) n : (forall i a, (i < n)%nat -> defined (body i a)) -> forall a, defined (wloop body 0 n a).
Proof.
  intros H. assert (G : forall m i a, (i + m <= n)%nat -> defined (wloop body i m a)); [|intros a; apply G; lia].
  induction m as [|m IH]; intros i a Hi; cbn [wloop]; [discriminate|]. apply def_bind; [apply H; lia|]. intros [a'|] _; [apply IH; lia|discriminate].
Qed.
Lemma check_defined c d : @Inv N c d -> defined (CheckDiagram (c_tab c) d).
Proof.
  intros HI. unfold CheckDiagram. rewrite (topo_complete c d HI), (k_complete c d HI), (spin_complete c d HI). cbn [obind negb].
  apply def_bind; [|intros b _; destruct b; cbn [negb]; [|discriminate]; apply def_bind; [|intros b _; destruct b; discriminate]].
  - unfold CheckStatus. destruct (order d =? 0); [discriminate|]. apply def_bind; [apply def_count|intros n _].
    + intros i Hi. destruct (bat_live (gB d) i (i_bg _ _ HI) Hi) as (g & -> & L). exists g. split; [reflexivity|]. unfold stat_g. destruct (g_meas d g); [|discriminate]. apply def_bind; [apply def_test|discriminate].
    + apply def_bind; [apply def_test|intros _ _]. apply def_bind; [apply def_count|intros m _; apply def_bind; [apply def_test|discriminate]].
      intros i Hi. destruct (bat_live (wB d) i (i_bw _ _ HI) Hi) as (w & -> & L). exists w. split; [reflexivity|]. unfold stat_w. apply def_bind; [|intros _ _; apply def_bind; [|intros _ _; apply def_bind; [|discriminate]]].
      * destruct (w_worm d w) eqn:Ew; [|discriminate]. destruct (wm_ex d) eqn:Ex.
        -- destruct (f_wo HI Ex) as (Li & Lm & _). unfold nw. rewrite (deref_live _ _ Li), (deref_live _ _ Lm). cbn [obind]. destruct (negb _); [apply def_test|discriminate].
        -- rewrite (f_nworm HI w Ex L) in Ew. discriminate.
      * destruct (wm_ex d) eqn:Ex; [|discriminate]. destruct (w_worm d w); [discriminate|]. cbn [andb negb].
        destruct (f_wo HI Ex) as (Li & Lm & _). unfold nw. rewrite (deref_live _ _ Li), (deref_live _ _ Lm). cbn [obind]. destruct (Nat.eqb _ _); [discriminate|apply def_test].
      * destruct (w_delta d w); [|discriminate]. rewrite (deref_live _ _ (f_wv HI w IN L)), (deref_live _ _ (f_wv HI w OUT L)). cbn [obind]. apply def_bind; [apply def_test|intros _ _; apply def_test].
  - unfold CheckWeight. destruct (order d =? 0); [discriminate|]. apply def_bind; [apply def_wloop|intros r _; destruct r as [a|]; [|discriminate]; apply def_bind; [apply def_wloop|intros r _; destruct r; discriminate]].
    + intros i a Hi. unfold wt_g. destruct (bat_live (gB d) i (i_bg _ _ HI) Hi) as (g & -> & L). cbn [obind]. cbv zeta.
      rewrite (deref_live _ _ (f_gv HI _ IN L)), (deref_live _ _ (f_gv HI _ OUT L)). cbn [obind]. rewrite (i_sG _ _ HI _ L). cbn [obind]. destruct (negb _); [discriminate|]. destruct (cEqual _ _); discriminate.
    + intros i b Hi. unfold wt_w. destruct (bat_live (wB d) i (i_bw _ _ HI) Hi) as (w & -> & L). cbn [obind]. cbv zeta.
      rewrite (deref_live _ _ (f_wv HI _ IN L)), (deref_live _ _ (f_wv HI _ OUT L)). cbn [obind]. rewrite (i_sW _ _ HI _ L). cbn [obind]. destruct (negb _); [discriminate|]. destruct (cEqual _ _); discriminate.
Qed.
End Check.

Section Main.
Context {N : Num} {E : Type} (next : E -> Z * E).
Context (show : E -> string) (read : string -> option E) (seedE : Z -> E) (strOf : @py N -> string) (pid : @py N).
Notation env := (@env N E).
Notation job := (job next show read seedE strOf pid).
Notation mainIter := (mainIter next show pid).

(** the files at a message: arrays complete, and a message newer than the job is calm and keeps the parameters usable *)
Definition polite (e : env) (k : @disk N) : Prop :=
  (forall w, k_weight k = FHas w -> whole_file w) /\
  forall o ms, k_msg k = FHas o -> msgLoad o = Ok ms -> p_version (e_p e) < ms_version ms -> usable (updateWith ms (e_p e)) /\ calm e ms.
Lemma listen_defined e k s : (forall x, read (show x) = Some x) -> job e k s -> polite e k ->
  defined (envListen k e) /\ forall b e', envListen k e = Ok (b, e') -> job e' k s.
Proof.
  intros RS H [WF PM]. destruct (job_ok next show read seedE strOf pid RS e k s H) as [[K CN] _]. pose proof (proj1 (eo_u e K)) as G3.
  assert (X : (exists b e', envListen k e = Ok (b, e') /\ (b = true -> usable (e_p e') /\ calmly e e')) \/ envListen k e = Abort).
  { unfold envListen at 2. rewrite G3. cbn [andb]. destruct (k_msg k) as [| |o] eqn:KM; cbn [ftry obind]; [left; exists false, e|now right|].
    { split; [|discriminate]. unfold envListen. rewrite G3, KM. reflexivity. }
    pose proof (def_msg o) as DM. destruct (msgLoad o) as [ms| |] eqn:ML; [|now right|now contradict DM]. cbn [obind].
    destruct (Z.leb_spec (ms_version ms) (p_version (e_p e))) as [LV|LV].
    { left. exists false, e. split; [|discriminate]. unfold envListen. rewrite G3, KM. cbn [andb ftry obind]. rewrite ML. cbn [obind]. destruct (Z.leb_spec (ms_version ms) (p_version (e_p e))); [reflexivity|lia]. }
    destruct (k_weight k) as [| |w] eqn:KW; cbn [ftry obind]; [|now right|].
    { left. exists false, e. split; [|discriminate]. unfold envListen. rewrite G3, KM. cbn [andb ftry obind]. rewrite ML. cbn [obind]. destruct (Z.leb_spec (ms_version ms) (p_version (e_p e))); [reflexivity|]. rewrite KW. reflexivity. }
    cbv zeta. destruct (PM o ms eq_refl ML LV) as [U CA]. pose proof (def_loadGW (updateWith ms (e_p e)) k w U (WF w eq_refl)) as DL.
    destruct (loadGW (updateWith ms (e_p e)) k w) as [[[gs ws] wd]| |] eqn:LG; [|now right|now contradict DL].
    destruct (rltb (rofZ 0) (ms_squeeze ms)) eqn:SQ.
    - destruct (envListen_ok k e o ms w gs ws wd K KM ML LV KW LG U CA SQ) as (e' & K' & E1 & _ & _ & _ & _ & _ & LI).
      pose proof (check_defined (e_cfg e') (e_d e') (eo_i e' K')) as CD. change (c_tab (e_cfg e')) with (e_tab e') in CD.
      destruct (CheckDiagram (e_tab e') (e_d e')) as [[]| |]; cbn [obind] in LI; [left; exists true, e'|right|right|now contradict CD].
      + split; [exact LI|]. intros _. rewrite E1. split; [exact U|]. destruct CA as (C1 & C2 & C3 & C4). unfold calmly. rewrite E1. auto.
      + unfold envListen in LI. rewrite G3, KM in LI. cbn [andb ftry obind] in LI. rewrite ML in LI. cbn [obind] in LI. destruct (Z.leb_spec (ms_version ms) (p_version (e_p e))); [lia|]. rewrite KW in LI. cbn [ftry obind] in LI. cbv zeta in LI. rewrite LG in LI. exact LI.
      + unfold envListen in LI. rewrite G3, KM in LI. cbn [andb ftry obind] in LI. rewrite ML in LI. cbn [obind] in LI. destruct (Z.leb_spec (ms_version ms) (p_version (e_p e))); [lia|]. rewrite KW in LI. cbn [ftry obind] in LI. cbv zeta in LI. rewrite LG in LI. exact LI.
    - right. cbn [obind]. change (p_g3 (updateWith ms (e_p e))) with (p_g3 (e_p e)). rewrite G3. cbn [obind].
      destruct CA as (C1 & C2 & C3 & C4). set (p := updateWith ms (e_p e)) in *. set (T := tabOf p gs ws wd (m_GG (e_m e)) (m_GW (e_m e))).
      assert (CO : cfg_ok (cfgWith p T)) by (apply U; reflexivity).
      assert (HN : hotter_not (e_cfg e) (cfgWith p T)) by (repeat split; auto).
      destruct (anneal_inv (e_cfg e) (cfgWith p T) (e_d e) HN CO (eo_i e K) (ok_gamma e K) C4) as (d & DR & _). change (c_tab (cfgWith p T)) with T in DR. rewrite DR. cbn [obind].
      unfold monSqueeze, weSqueeze. rewrite SQ. reflexivity. }
  destruct X as [(b & e' & X & Q)|X]; rewrite X; split; try discriminate. intros b2 e2 Y. injection Y as <- <-. eapply jb_listen; eauto.
Qed.

(** counters of the loop: together they have counted at most [n] measurements *)
Definition counted (n : Z) (f : Z -> Z) : Prop := forall i, 0 <= f i <= n.
Lemma bump_ok o f n : 0 <= o <= 9 -> counted n f -> n < 2 ^ 31 - 1 -> exists f', bump o f = Ok f' /\ counted (n + 1) f'.
Proof.
  intros O C B. unfold bump. destruct (Z.ltb_spec o 0); [lia|]. destruct (Z.leb_spec 10 o); [lia|]. cbn [orb]. pose proof (C o). destruct (Z.eqb_spec (f o) (2 ^ 31 - 1)); [lia|].
  eexists. split; [reflexivity|]. intros i. pose proof (C i). cbv beta. destruct (i =? o); lia.
Qed.
(** the state of the loop after [n] iterations *)
Record running (n : Z) (x : @mloop N E) (s : option env) : Prop := {
  ru_job : job (l_e x) (l_k x) s; ru_s : counted n (l_sig x); ru_p : counted n (l_pol x) }.
Lemma order_small c d : @cfg_ok N c -> Inv c d -> 0 <= order d <= 9.
Proof. intros C HI. pose proof (co_order _ C) as O. destruct (i_cnt _ _ HI) as (A & B & D & F & G). lia. Qed.
Theorem main_step (RS : forall x, read (show x) = Some x) n t x s : running n x s -> n < 2 ^ 31 - 1 ->
  p_counter (e_p (l_e x)) + Z.max (p_sweep (e_p (l_e x))) 0 < 2 ^ 63 -> p_order (e_p (l_e x)) < Z.of_nat (List.length (p_otr (e_p (l_e x)))) ->
  (t_msg t = true -> forall e1 e2 e3, envHop next (p_sweep (e_p (l_e x))) (l_e x) = Ok e1 -> envMeasure e1 = Ok e2 ->
     e3 = e2 \/ envPrint e2 = Ok e3 -> polite e3 (t_files t)) ->
  (exists x' s', mainIter t x = Ok x' /\ running (n + 1) x' s') \/ mainIter t x = Abort /\ (t_print t = true \/ t_msg t = true).
Proof.
  intros [H CS CP] Hn HC HO PO. unfold MainLoop.mainIter. set (k := outside (t_files t) (l_k x)).
  assert (H0 : job (l_e x) k s) by (eapply jb_files; [exact H|reflexivity|reflexivity]).
  destruct (job_ok next show read seedE strOf pid RS _ _ _ H) as [[K CN] _].
  destruct (hop_ok next (p_sweep (e_p (l_e x))) (l_e x) K) as (e1 & HH & K1 & _ & C1). rewrite HH. cbn [obind].
  assert (H1 : job e1 k s) by (eapply jb_hop; [exact H0|exact HH|lia]).
  destruct (envMeasure_ok e1 K1) as (e2 & xx & HM & K2 & P2 & D2 & _). rewrite HM. cbn [obind]. assert (H2 : job e2 k s) by (eapply jb_measure; eauto).
  assert (OT : p_otr (e_p e1) = p_otr (e_p (l_e x)) /\ p_order (e_p e1) = p_order (e_p (l_e x))).
  { unfold envHop in HH. apply obind_ok in HH as ([u s1] & _ & HH). injection HH as <-. split; reflexivity. }
  pose proof (order_small _ _ (ok_cfg e2 K2) (eo_i e2 K2)) as O9. cbv zeta.
  match goal with |- context [obind ?o _] => assert (B : exists sg pl, o = Ok (sg, pl) /\ counted (n + 1) sg /\ counted (n + 1) pl) end.
  { assert (W : forall f, counted n f -> counted (n + 1) f) by (intros f Q i; specialize (Q i); lia).
    destruct (wm_ex (e_d e2)); [exists (l_sig x), (l_pol x); auto|]. destruct (measG (e_d e2)).
    - destruct (bump_ok _ _ n O9 CS Hn) as (f & -> & Q). cbn [obind]. eauto 6.
    - destruct (bump_ok _ _ n O9 CP Hn) as (f & -> & Q). cbn [obind]. eauto 6. }
  destruct B as (sg & pl & -> & B1 & B2). cbn [obind]. destruct (negb _).
  { left. do 2 eexists. split; [reflexivity|]. constructor; cbn [l_e l_k l_sig l_pol]; eauto. }
  assert (X3 : (exists e3, (if t_print t then obind (CheckDiagram (e_tab e2) (e_d e2)) (fun b : bool => if b then envPrint e2 else Abort) else Ok e2) = Ok e3 /\ job e3 k s /\ (e3 = e2 \/ envPrint e2 = Ok e3) /\ p_otr (e_p e3) = p_otr (e_p e2) /\ p_order (e_p e3) = p_order (e_p e2)) \/
    ((if t_print t then obind (CheckDiagram (e_tab e2) (e_d e2)) (fun b : bool => if b then envPrint e2 else Abort) else Ok e2) = Abort /\ t_print t = true)).
  { destruct (t_print t); [|left; eauto 7]. pose proof (check_defined (e_cfg e2) (e_d e2) (eo_i e2 K2)) as CD. change (c_tab (e_cfg e2)) with (e_tab e2) in CD.
    destruct (CheckDiagram (e_tab e2) (e_d e2)) as [[]| |]; cbn [obind]; [left|now right|now right|now contradict CD].
    destruct (envPrint_ok e2 K2) as (e3 & B & _). exists e3. split; [exact B|]. split; [eapply jb_print; eauto|]. split; [now right|]. unfold envPrint in B. apply obind_ok in B as (c & _ & B). injection B as <-. auto. }
  destruct X3 as [(e3 & -> & H3 & M3 & T3 & O3)|[-> T]]; [|right; cbn [obind]; auto]. cbn [obind].
  destruct (job_ok next show read seedE strOf pid RS _ _ _ H3) as [[K3 CN3] _].
  assert (X4 : exists k4 s4, (if t_disk t then envSave show pid e3 k else Ok k) = Ok k4 /\ job e3 k4 s4 /\ k_weight k4 = k_weight (t_files t) /\ k_msg k4 = k_msg (t_files t)).
  { destruct (t_disk t); [|eauto 6]. rewrite (envSave_ok show pid e3 k K3). do 2 eexists. split; [reflexivity|]. split; [|split; reflexivity]. eapply jb_save; [exact H3|]. exact (envSave_ok show pid e3 k K3). }
  destruct X4 as (k4 & s4 & -> & H4 & KW & KM). cbn [obind].
  assert (X5 : (exists b e5, (if t_msg t then envListen k4 e3 else Ok (false, e3)) = Ok (b, e5) /\ job e5 k4 s4 /\ p_otr (e_p e5) = p_otr (e_p e3) /\ p_order (e_p e5) = p_order (e_p e3)) \/ ((if t_msg t then envListen k4 e3 else Ok (false, e3)) = Abort /\ t_msg t = true)).
  { destruct (t_msg t); [|left; exists false, e3; auto]. assert (PL : polite e3 k4) by (destruct (PO eq_refl e1 e2 e3 HH HM M3) as [Q1 Q2]; split; [rewrite KW; exact Q1|rewrite KM; exact Q2]). destruct (listen_defined e3 k4 s4 RS H4 PL) as [DL LJ]. destruct (envListen k4 e3) as [[b e5]| |] eqn:Q; [left|now right|now contradict DL].
    exists b, e5. split; [reflexivity|]. split; [now apply (LJ b)|]. destruct b; [|apply listen_false in Q as ->; auto]. destruct (listen_true k4 e3 e5 Q) as (o & ms & w & gs & ws & wd & _ & _ & _ & _ & _ & EP & _). rewrite EP. auto. }
  destruct X5 as [(b & e5 & -> & H5 & T5 & O5)|[-> T]]; [|right; cbn [obind]; auto]. cbn [obind].
  destruct (job_ok next show read seedE strOf pid RS _ _ _ H5) as [[K5 CN5] _]. destruct OT as [OT1 OT2]. rewrite P2 in T3, O3.
  assert (OL : p_order (e_p e5) < Z.of_nat (List.length (p_otr (e_p e5)))) by (rewrite T5, O5, T3, O3, OT1, OT2; exact HO).
  assert (X6 : exists e6, (if t_rew t then envAdjust e5 else Ok e5) = Ok e6 /\ job e6 k4 s4).
  { destruct (t_rew t); [|eauto]. destruct (envAdjust_ok e5 K5 OL) as (e6 & B & _). exists e6. split; [exact B|]. eapply jb_adjust; eauto. }
  destruct X6 as (e6 & -> & H6). cbn [obind]. left. do 2 eexists. split; [reflexivity|]. constructor; cbn [l_e l_k l_sig l_pol]; eauto.
Qed.
(** thermalisation *)
Lemma toss_ok (RS : forall x, read (show x) = Some x) k s : forall n e, job e k s -> p_counter (e_p e) + Z.of_nat n * Z.max (p_sweep (e_p e)) 0 < 2 ^ 63 ->
  exists e', toss next n e = Ok e' /\ job e' k s.
Proof.
  induction n as [|n IH]; intros e H C; cbn [toss]; [eauto|]. destruct (job_ok next show read seedE strOf pid RS e k s H) as [[K CN] _].
  destruct (hop_ok next (p_sweep (e_p e)) e K) as (e1 & HH & K1 & _ & C1). rewrite HH. cbn [obind].
  assert (S1 : p_sweep (e_p e1) = p_sweep (e_p e)) by (unfold envHop in HH; apply obind_ok in HH as ([u s1] & _ & HH); injection HH as <-; reflexivity).
  apply IH; [eapply jb_hop; [exact H|exact HH|nia]|]. rewrite S1, C1. nia.
Qed.
Theorem main_start (RS : forall x, read (show x) = Some x) e k s : job e k s -> polite e k -> 0 <= p_toss (e_p e) ->
  p_counter (e_p e) + p_toss (e_p e) * Z.max (p_sweep (e_p e)) 0 < 2 ^ 63 ->
  (exists x, mainStart next k e = Ok x /\ running 0 x s) \/ mainStart next k e = Abort.
Proof.
  intros H P T0 C. unfold mainStart. destruct (listen_defined e k s RS H P) as [DL LJ]. destruct (envListen k e) as [[b e1]| |] eqn:Q; [|now right|now contradict DL]. cbn [obind].
  assert (Sm : p_toss (e_p e1) = p_toss (e_p e) /\ p_sweep (e_p e1) = p_sweep (e_p e) /\ p_counter (e_p e1) = p_counter (e_p e)).
  { destruct b; [|apply listen_false in Q as ->; auto]. destruct (listen_true k e e1 Q) as (o & ms & w & gs & ws & wd & _ & _ & _ & _ & _ & EP & _). rewrite EP. auto. }
  destruct Sm as (S1 & S2 & S3). pose proof (LJ b e1 eq_refl) as J1. destruct (job_ok next show read seedE strOf pid RS e k s H) as [[K _] _].
  pose proof (po_toss _ (eo_p e K)) as TI. unfold is_int in TI. cbn [withCounter p_toss] in TI. rewrite S1. replace (u32 (p_toss (e_p e))) with (p_toss (e_p e)) by (unfold u32; rewrite Z.mod_small; lia).
  destruct (toss_ok RS k s (Z.to_nat (p_toss (e_p e))) e1 J1) as (e2 & -> & J2); [rewrite Z2Nat.id by lia; rewrite S2, S3; exact C|]. cbn [obind].
  left. eexists. split; [reflexivity|]. constructor; cbn; [exact J2| |]; intros i; lia.
Qed.
End Main.
