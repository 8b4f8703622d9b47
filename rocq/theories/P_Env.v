(** The environment keeps its promises along the main loop *)
From Coq Require Import ZArith List Bool Arith Lia String.
From Verif Require Import Base Num Complex Lattice Bundle IndexMap Weights Diagram Markov DiagramIO DiagramCheck History Life
  Estimator WeightEstimator Gamma3 Monitor PyDict Param ConfigPy Env
  P_RNG P_Bundle P_IndexMap P_WP P_Inv P_Hop P_Fix P_IO P_History P_Promises P_IOProm P_Estimator P_WeightEst P_Monitor P_Life P_Param P_ParamIO.
Import ListNotations.
Open Scope string_scope.
Open Scope Z_scope.

Section PEnv.
Context {N : Num} {E : Type} (next : E -> Z * E).
Context (show : E -> string) (read : string -> option E) (seedE : Z -> E) (strOf : @py N -> string) (pid : @py N).
Notation para := (@para N E).
Notation env := (@env N E).

(** a job's parameters are usable: no three-point functions, and every table built from them is *)
Definition usable (p : para) : Prop :=
  p_g3 p = false /\ new_ok (p_lat p) /\ wepar (gmapOf p) (p_order p) /\ wepar (wmapOf p) (p_order p) /\
  forall T, gmap T = gmapOf p -> wmap T = wmapOf p -> cfg_ok (cfgWith p T).
Definition withCounter (n : Z) (p : para) : para :=
  mkPara (p_version p) (p_beta p) (p_mtb p) (p_mtbt p) (p_order p) (p_nsub p) (p_L p)
    n (p_toss p) (p_sweep p) (p_seed p) (p_rng p) (p_wsr p) (p_pr p) (p_g3 p) (p_ggr p) (p_gwr p)
    (p_orw p) (p_otr p) (p_tprint p) (p_tdisk p) (p_tmsg p) (p_trew p).
Record EnvOk (e : env) : Prop := {
  eo_p : para_ok (withCounter 0 (e_p e)); eo_u : usable (e_p e);
  eo_i : Inv (e_cfg e) (e_d e); eo_m : MonOk (e_cfg e) 0 0 0 0 (e_m e);
  eo_n : named (e_cfg e) (e_m e); eo_h : counters (fun x => e_hist x = []) (e_m e) }.

Lemma para_counter p : para_ok (withCounter 0 p) -> is_ll (p_counter p) -> para_ok p.
Proof. intros K C. destruct K. constructor; assumption. Qed.
Lemma ok_cfg (e : env) : EnvOk e -> cfg_ok (e_cfg e).
Proof. intros K. apply (eo_u e K); reflexivity. Qed.
Lemma usable_setup p T : usable p -> gmap T = gmapOf p -> wmap T = wmapOf p -> setup (cfgWith p T) 0 0 0 0.
Proof.
  intros (G & _ & A & B & _) E1 E2. constructor; cbn [cfgWith c_tab c_order c_gamma3]; rewrite ?E1, ?E2, ?G; auto; discriminate.
Qed.
Lemma ok_setup (e : env) : EnvOk e -> setup (e_cfg e) 0 0 0 0.
Proof. intros K. apply usable_setup; [apply (eo_u e K)|reflexivity|reflexivity]. Qed.
Lemma ok_gamma (e : env) : EnvOk e -> gamma (e_d e) = 0.
Proof.
  intros K. pose proof (i_gam _ _ (eo_i e K)) as G. pose proof (proj1 (eo_u e K)) as G3. change (c_gamma3 (e_cfg e)) with (p_g3 (e_p e)) in G. rewrite G3 in G.
  destruct G as [(G & _)|[(_ & _ & G & _)|(_ & _ & G & _)]]; [exact G|discriminate|discriminate].
Qed.
Lemma ok_ext (e : env) : EnvOk e -> ExtOk (e_cfg e) (e_d e).
Proof. intros K G. now rewrite (ok_gamma e K) in G. Qed.
Lemma tab_none (p : para) gs ws wd GG GW GG' GW' : p_g3 p = false -> tabOf p gs ws wd GG GW = tabOf p gs ws wd GG' GW'.
Proof. intros H. unfold tabOf. now rewrite H. Qed.

(** *** changes of the factors *)
Lemma usable_factors p p' : p_beta p' = p_beta p -> p_mtb p' = p_mtb p -> p_L p' = p_L p -> p_nsub p' = p_nsub p -> p_order p' = p_order p -> p_g3 p' = p_g3 p ->
  List.length (p_orw p') = List.length (p_orw p) -> usable p -> usable p'.
Proof.
  intros E1 E2 E3 E4 E5 E6 E7 (U1 & U2 & U3 & U4 & U5).
  assert (EL : p_lat p' = p_lat p) by (unfold p_lat; congruence).
  assert (EG : gmapOf p' = gmapOf p) by (unfold gmapOf; congruence). assert (EW : wmapOf p' = wmapOf p) by (unfold wmapOf; congruence).
  split; [congruence|]. split; [congruence|]. split; [congruence|]. split; [congruence|]. intros T T1 T2. rewrite EG in T1. rewrite EW in T2.
  apply (retuned_ok (cfgWith p T)); [auto|]. repeat split; cbn [cfgWith c_tab c_lat c_beta c_order c_gamma3 c_orw]; auto. rewrite E7. apply (co_orw _ (U5 T T1 T2)).
Qed.
Lemma hop_ok n e : EnvOk e -> exists e', envHop next n e = Ok e' /\ EnvOk e' /\ hsteps (e_cfg e) (Z.to_nat n) (e_d e) (e_d e') /\ p_counter (e_p e') = p_counter (e_p e) + Z.max n 0.
Proof.
  intros K. destruct (Hop_ok next (e_cfg e) n (e_s e) (ok_cfg e K) (eo_i e K)) as (s & B & H1 & H2 & H3). unfold envHop. rewrite B. cbn [obind].
  eexists. split; [reflexivity|]. split; [|split; [exact H1|exact H3]]. destruct K as [K1 K2 K3 K4 K5 K6]. constructor; auto.
  destruct K1. constructor; assumption.
Qed.
Lemma withMon_cfg (e : env) m : p_g3 (e_p e) = false -> e_cfg (withMon e m) = e_cfg e.
Proof. intros G. unfold e_cfg, e_tab. cbn [withMon e_p e_gs e_ws e_wd e_m]. f_equal. now apply tab_none. Qed.
Lemma envMeasure_ok (e : env) : EnvOk e -> exists e' x, envMeasure e = Ok e' /\ EnvOk e' /\ e_p e' = e_p e /\ e_d e' = e_d e /\
  rat (c_orw (e_cfg e)) (order (e_d e)) = Ok x /\ effect (e_cfg e) 0 0 0 0 (e_d e) (rdiv (rofZ 1) x) (e_m e) (e_m e').
Proof.
  intros K. destruct (measure_spec (e_cfg e) 0 0 0 0 (e_d e) (e_m e) (ok_cfg e K) (ok_setup e K) (eo_i e K) (ok_ext e K) (eo_m e K)) as (x & m & X & B & M & F).
  unfold envMeasure. rewrite B. cbn [obind]. do 2 eexists. split; [reflexivity|]. split; [|repeat (split; [reflexivity|]); split; [exact X|exact F]].
  pose proof (measure_fst _ _ _ _ B) as [F1 F2].
  pose proof (measure_counters (fun x => e_hist x = []) (e_cfg e) _ _ _ (fun _ H => H) B (eo_h e K)) as CC.
  pose proof (withMon_cfg e m (proj1 (eo_u e K))) as CF. destruct K as [K1 K2 K3 K4 [K5 K5'] K6].
  constructor; rewrite ?CF; auto. split; cbn [withMon e_m]; congruence.
Qed.
(** a change of the factors that keeps the number of order factors *)
Lemma factors_ok (e : env) c : EnvOk e -> List.length (c_orw c) = List.length (p_orw (e_p e)) -> EnvOk (withFactors e c).
Proof.
  intros K H. assert (R : retuned (e_cfg e) (e_cfg (withFactors e c))).
  { repeat split. cbn [e_cfg cfgWith c_order c_orw withFactors e_p p_orw]. rewrite H. apply (co_orw _ (ok_cfg e K)). }
  destruct K as [K1 K2 K3 K4 K5 K6]. constructor; cbn [withFactors e_d e_m]; auto.
  - destruct K1 as [Q1 Q2 Q3 Q4 Q5 Q6 Q7 Q8 Q9 Q10 Q11 Q12 Q13 Q14 Q15]. constructor; cbn in *; try assumption. now rewrite H.
  - apply (usable_factors (e_p e)); auto.
  - now apply (retuned_Inv _ _ _ R).
  - now apply (retuned_mon _ _ 0 0 0 0 _ R).
Qed.
Lemma ebAt_ok i (b : ebundle) : 0 <= i < Z.of_nat (List.length (eb_vec b)) -> exists x, ebAt i b = Ok x.
Proof.
  intros H. unfold ebAt. destruct (Z.ltb_spec i 0); [lia|]. destruct (nth_error (eb_vec b) (Z.to_nat i)) as [[a q]|] eqn:Q; [eauto|]. apply nth_error_None in Q. lia.
Qed.
Lemma sums_ok (m : mon) n : List.length (eb_vec (m_worm m)) = n -> List.length (eb_vec (m_phy m)) = n ->
  forall l a b, (forall i, In i l -> (i < n)%nat) -> exists x, Monitor.sums l m a b = Ok x.
Proof.
  intros W P. induction l as [|i l IH]; intros a b H; cbn [Monitor.sums]; [eauto|]. pose proof (H i (or_introl eq_refl)) as L. unfold ebValue.
  destruct (ebAt_ok (Z.of_nat i) (m_worm m)) as (x & ->); [rewrite W; lia|]. destruct (ebAt_ok (Z.of_nat i) (m_phy m)) as (y & ->); [rewrite P; lia|]. cbn [obind].
  apply IH. intros j J. apply H. now right.
Qed.
Lemma envPrint_ok (e : env) : EnvOk e -> exists e', envPrint e = Ok e' /\ EnvOk e' /\ e_d e' = e_d e /\ e_m e' = e_m e.
Proof.
  intros K. destruct (eo_m e K) as [M1 M2 _ _ _ _]. unfold envPrint, monPrint.
  destruct (ebAt_ok 0 (m_worm (e_m e))) as (x & ->); [rewrite M1; lia|]. destruct (ebAt_ok 0 (m_phy (e_m e))) as (y & ->); [rewrite M2; lia|]. cbn [obind].
  destruct (sums_ok (e_m e) _ M1 M2 (seq 1 (Z.to_nat (c_order (e_cfg e)))) (rofZ 0) (rofZ 0)) as ([w q] & ->); [intros i I; apply in_seq in I; lia|]. cbn [obind].
  eexists. split; [reflexivity|]. split; [|auto]. now apply factors_ok.
Qed.
Lemma tooFew_some (m : mon) n : List.length (eb_vec (m_phy m)) = n -> forall l, (forall i, In i l -> (i < n)%nat) -> exists b, tooFew l m = Ok b.
Proof.
  intros P. induction l as [|i l IH]; intros H; cbn [tooFew]; [eauto|]. pose proof (H i (or_introl eq_refl)) as L. unfold ebNorm.
  destruct (ebAt_ok (Z.of_nat i) (m_phy m)) as (y & ->); [rewrite P; lia|]. cbn [obind]. destruct (rltb _ _); [eauto|]. apply IH. intros j J. apply H. now right.
Qed.
Lemma lset_len (l : list real) i x : List.length (lset l i x) = List.length l.
Proof. unfold lset. apply lupd_length. Qed.
Lemma adjLoop_some (m : mon) n ratio w0 : List.length (eb_vec (m_worm m)) = n -> List.length (eb_vec (m_phy m)) = n -> (n <= List.length ratio)%nat ->
  forall l orw a b, (n <= List.length orw)%nat -> (forall i, In i l -> (i < n)%nat) ->
  exists orw' x y, adjLoop l ratio m w0 orw a b = Ok (orw', x, y) /\ List.length orw' = List.length orw.
Proof.
  intros W P R. induction l as [|i l IH]; intros orw a b O H; cbn [adjLoop]; [eauto|]. pose proof (H i (or_introl eq_refl)) as L. unfold ebValue.
  destruct (ebAt_ok (Z.of_nat i) (m_worm m)) as (x & ->); [rewrite W; lia|]. destruct (ebAt_ok (Z.of_nat i) (m_phy m)) as (y & ->); [rewrite P; lia|]. cbn [obind].
  assert (H' : forall j, In j l -> (j < n)%nat) by (intros j J; apply H; now right).
  destruct (isZero _); cbn [obind]; [now apply IH|]. destruct (rat_ok orw (Z.of_nat i)) as (o & -> & _); [lia|lia|]. destruct (rat_ok ratio (Z.of_nat i)) as (t & -> & _); [lia|lia|]. cbn [obind].
  destruct (IH (lset orw (Z.of_nat i) (rmul o (rdiv (rmul t w0) (radd (eValue x) (eValue y))))) (radd a (eValue x)) (radd b (eValue y))) as (o' & u & v & Q & Q'); [rewrite lset_len; exact O|exact H'|].
  exists o', u, v. split; [exact Q|]. now rewrite Q', lset_len.
Qed.
Lemma envAdjust_ok (e : env) : EnvOk e -> p_order (e_p e) < Z.of_nat (List.length (p_otr (e_p e))) -> exists e', envAdjust e = Ok e' /\ EnvOk e' /\ e_d e' = e_d e /\ e_m e' = e_m e.
Proof.
  intros K R. destruct (eo_m e K) as [M1 M2 _ _ _ _]. pose proof (co_order _ (ok_cfg e K)) as O. pose proof (co_orw _ (ok_cfg e K)) as OL.
  change (c_order (e_cfg e)) with (p_order (e_p e)) in *. change (c_orw (e_cfg e)) with (p_orw (e_p e)) in *.
  assert (Same : forall c, c_orw c = p_orw (e_p e) -> exists e', Ok (withFactors e c) = Ok e' /\ EnvOk e' /\ e_d e' = e_d e /\ e_m e' = e_m e).
  { intros c Hc. eexists. split; [reflexivity|]. split; [apply factors_ok; [exact K|now rewrite Hc]|auto]. }
  unfold envAdjust, monAdjust. change (c_order (e_cfg e)) with (p_order (e_p e)).
  destruct (tooFew_some (e_m e) _ M2 (seq 0 (S (Z.to_nat (p_order (e_p e)))))) as (b & ->); [intros i I; apply in_seq in I; lia|]. cbn [obind]. destruct b; [now apply Same|].
  destruct (rltb _ _); [now apply Same|]. destruct (isZero _ || isZero _); [now apply Same|]. change (c_gamma3 (e_cfg e)) with (p_g3 (e_p e)). rewrite (proj1 (eo_u e K)). cbn [andb]. unfold ebValue.
  destruct (ebAt_ok 0 (m_worm (e_m e))) as (x & ->); [rewrite M1; lia|]. destruct (ebAt_ok 0 (m_phy (e_m e))) as (y & ->); [rewrite M2; lia|]. cbn [obind].
  destruct (adjLoop_some (e_m e) _ (p_otr (e_p e)) (radd (eValue x) (eValue y)) M1 M2 ltac:(lia) (seq 1 (Z.to_nat (p_order (e_p e)))) (c_orw (e_cfg e)) (rofZ 0) (rofZ 0)) as (orw & w & q & -> & Q);
    [change (c_orw (e_cfg e)) with (p_orw (e_p e)); lia|intros i I; apply in_seq in I; lia|]. cbn [obind]. change (c_orw (e_cfg e)) with (p_orw (e_p e)) in Q.
  destruct (rat_ok orw 0) as (z & -> & _); [lia|lia|]. cbn [obind].
  assert (Len : forall c, c_orw c = lset orw 0 (rofZ 1) -> exists e', Ok (withFactors e c) = Ok e' /\ EnvOk e' /\ e_d e' = e_d e /\ e_m e' = e_m e).
  { intros c Hc. eexists. split; [reflexivity|]. split; [apply factors_ok; [exact K|now rewrite Hc, lset_len]|auto]. }
  destruct (isZero w); [now apply Len|]. cbn [obind]. apply Len. cbn [s_orw s_wsr s_pr c_gamma3 c_orw]. destruct (c_gamma3 (e_cfg e)); reflexivity.
Qed.

(** *** saving *)
Definition saved (e : env) (k : disk) : disk :=
  s_k_stat (s_k_para k (FHas (toDict (dOf [("Para", toDict (paraToDict show (e_p e))); ("Config", toDict (confToPy (tconf (e_d e)))); ("PID", pid)]))))
    (FHas (mkSF (weToDict (m_S (e_m e))) (weToDict (m_P (e_m e))) None None (monToDict (e_cfg e) (e_m e)))).
Lemma envSave_ok e k : EnvOk e -> envSave show pid e k = Ok (saved e k).
Proof.
  intros K. unfold envSave, envSavePara. rewrite (ok_gamma e K). cbn [Z.eqb]. rewrite (ToDict_spec _ _ (Inv_Pre _ _ (eo_i e K))). cbn [obind].
  unfold envStat. rewrite (proj1 (eo_u e K)). reflexivity.
Qed.

(** *** loading *)
Lemma section_get k (m v : dict) : dget k m = Some (toDict v) -> exists v', dGet cvDict k m = Ok v' /\ forall j, dget j v' = dget j v.
Proof. intros H. destruct (cvDict_some v) as (v' & V & J). exists v'. split; [|exact J]. now apply (dGet_ok cvDict k m (toDict v)). Qed.
Lemma load_dict (m : dict) : exists m', dLoad (toDict m) [] = Ok m' /\ forall k, dget k m' = dget k m.
Proof. eexists. split; [reflexivity|]. intros k. rewrite dget_inss. reflexivity. Qed.
Lemma loadGW_basis (p : para) k w a : loadGW p k w = Ok a -> exists n, diskBasis (p_beta p) k = Ok n.
Proof. unfold loadGW. intros H. apply obind_ok in H as (n & H & _). eauto. Qed.
Lemma reload_same m o e e0 : wepar m o -> WEok m o e -> WEok m o e0 ->
  exists e', weFromDict (weToDict e) e0 = Ok e' /\ WEok m o e' /\ weToDict e' = weToDict e /\ we_beta e' = we_beta e0.
Proof.
  intros P [L W S] [L0 W0 S0]. pose proof (wepar_o m o P) as [Lo Eo]. destruct P as (P1 & P2 & P3). pose proof (tab_pos m P1) as TP.
  unfold weFromDict. cbn [weToDict wf_shape wf_data wf_norm wf_nacc]. rewrite S, S0. cbn [tl].
  change (List.length (o :: shape m) - 1)%nat with (List.length (shape m)). rewrite eq_upto_refl. cbn [obind].
  assert (Q : prod32 (o :: shape m) = o * tabsize m) by (rewrite prod32_spec; [apply shape_prod|constructor; [lia|now apply shape_pos]|now rewrite shape_prod]).
  rewrite Q. assert (LL : List.length (wa_data (we_accu e)) = Z.to_nat (o * tabsize m)) by (unfold wa_size in L; lia).
  rewrite LL, Nat.ltb_irrefl, <- LL, firstn_all. unfold waCopy.
  assert (L0' : List.length (wa_data (waFill c0 (we_accu e0))) = Z.to_nat (o * tabsize m)) by (unfold wa_size in L0; cbn; rewrite repeat_length; lia).
  destruct (Z.ltb_spec (wa_size (waFill c0 (we_accu e0))) (Z.of_nat (List.length (wa_data (we_accu e))))) as [X|_]; [unfold wa_size in X; lia|].
  cbn [obind]. assert (SK : skipn (List.length (wa_data (we_accu e))) (wa_data (waFill c0 (we_accu e0))) = []) by (apply skipn_all2; lia).
  rewrite SK, app_nil_r. eexists. split; [reflexivity|]. split; [|split].
  - split; cbn [we_accu we_wsize wa_shape waFill]; auto.
  - unfold weToDict. cbn [we_norm we_nacc we_accu wa_shape wa_data waFill]. now rewrite S0, S.
  - reflexivity.
Qed.
Lemma mon_reload c m0 eS eP G W : 1 <= c_order c <= 9 -> named c m0 -> counters (fun x => e_hist x = []) m0 -> c_gamma3 c = false ->
  exists m, monFromDict c (monToDict c m0) eS eP G W = Ok m /\ restored (m_worm m0) (m_worm m) (Z.to_nat (c_order c)) (Z.to_nat (c_order c)) /\
    restored (m_phy m0) (m_phy m) (Z.to_nat (c_order c)) (Z.to_nat (c_order c)) /\
    (e_acc (m_sig m) = e_acc (m_sig m0) /\ e_norm (m_sig m) = e_norm (m_sig m0)) /\ (e_acc (m_pol m) = e_acc (m_pol m0) /\ e_norm (m_pol m) = e_norm (m_pol m0)).
Proof.
  intros O [N1 N2] (C1 & C2 & C3 & C4 & C5 & C6) G3. unfold monFromDict. destruct (orders_ok c O) as (b & B1 & B2). rewrite B1. cbn [obind]. unfold monToDict. cbn [mf_worm mf_phy mf_sig mf_pol mf_gg mf_gw].
  destruct (load_bundle (m_worm m0) b (Z.to_nat (c_order c)) (Z.to_nat (c_order c))) as (wb & W1 & W2); auto; try lia.
  destruct (load_bundle (m_phy m0) b (Z.to_nat (c_order c)) (Z.to_nat (c_order c))) as (pb & P1 & P2); auto; try lia.
  rewrite W1, P1. cbn [obind]. destruct (load_one _ C3) as (es & -> & S1 & S2). destruct (load_one _ C4) as (ep & -> & S3 & S4). cbn [obind]. rewrite G3. cbn [obind].
  eexists. split; [reflexivity|]. cbn [m_worm m_phy m_sig m_pol m_gg m_gw]. auto.
Qed.
Lemma loadSP_ok (p : para) k s : usable p -> (exists n, diskBasis (p_beta p) k = Ok n) -> forall eS eP, WEok (gmapOf p) (p_order p) eS -> WEok (wmapOf p) (p_order p) eP ->
  sf_S s = weToDict eS -> sf_P s = weToDict eP ->
  exists eS' eP', loadSP p k s = Ok (eS', eP') /\ WEok (gmapOf p) (p_order p) eS' /\ WEok (wmapOf p) (p_order p) eP' /\
    weToDict eS' = weToDict eS /\ weToDict eP' = weToDict eP /\ we_beta eS' = p_beta p /\ we_beta eP' = p_beta p.
Proof.
  intros (_ & _ & W1 & W2 & _) (n & B) eS eP K1 K2 F1 F2. unfold loadSP. rewrite B. cbn [obind].
  destruct (allocate_ok _ _ (normOf p) W1) as (aS & -> & A1 & A2 & _). destruct (allocate_ok _ _ (normOf p) W2) as (aP & -> & A3 & A4 & _). cbn [obind].
  destruct (reload_same _ _ eS aS W1 K1 A1) as (eS' & R1 & R2 & R3 & R4). destruct (reload_same _ _ eP aP W2 K2 A3) as (eP' & R5 & R6 & R7 & R8).
  rewrite F1, F2, R1, R5. cbn [obind]. exists eS', eP'. split; [reflexivity|]. rewrite R4, R8, A2, A4. auto 10.
Qed.
Lemma usable_no_seed p : usable p -> usable (no_seed p).
Proof. apply usable_factors; reflexivity. Qed.

(** what a restart brings back. Line weights are recomputed from the weight file found then. *)
Record back (e e' : env) : Prop := {
  bk_p : e_p e' = no_seed (e_p e);
  bk_d : exists fv fg fw, same_diagram fv fg fw (e_d e) (e_d e') /\ order (e_d e') = Z.max 1 (order (e_d e)) /\
    (e_gs e' = e_gs e -> e_ws e' = e_ws e -> e_wd e' = e_wd e ->
     (forall g, bexist (gB (e_d e)) g = true -> g_W (e_d e') (fg g) = g_W (e_d e) g) /\
     (forall w, bexist (wB (e_d e)) w = true -> w_W (e_d e') (fw w) = w_W (e_d e) w));
  bk_S : weToDict (m_S (e_m e')) = weToDict (m_S (e_m e)); bk_P : weToDict (m_P (e_m e')) = weToDict (m_P (e_m e));
  bk_n : let o := Z.to_nat (p_order (e_p e)) in restored (m_worm (e_m e)) (m_worm (e_m e')) o o /\ restored (m_phy (e_m e)) (m_phy (e_m e')) o o;
  bk_c : e_acc (m_sig (e_m e')) = e_acc (m_sig (e_m e)) /\ e_norm (m_sig (e_m e')) = e_norm (m_sig (e_m e)) /\
         e_acc (m_pol (e_m e')) = e_acc (m_pol (e_m e)) /\ e_norm (m_pol (e_m e')) = e_norm (m_pol (e_m e)) }.
Lemma small_ok (p : para) : para_ok p -> small_lat (p_lat p).
Proof.
  intros K. split; [apply K|]. split; cbn [p_lat Size SublatVol]; [|pose proof (po_nsub _ K) as Q; unfold is_int in Q; lia].
  eapply Forall_impl; [|exact (po_Li _ K)]. unfold is_int. intros; cbv beta in *; lia.
Qed.
Lemma Pre_tab (c c' : cfg) d : c_lat c' = c_lat c -> c_order c' = c_order c -> c_beta c' = c_beta c -> Pre c d -> Pre c' d.
Proof.
  intros E1 E2 E3 P. destruct P. constructor; auto; rewrite ?E1, ?E2; auto. intros v L. specialize (p_tau v L). unfold tau_gen in *. now rewrite E3.
Qed.
Lemma envLoad_ok e k d0 w gs ws wd : EnvOk e -> is_ll (p_counter (e_p e)) -> (forall x, read (show x) = Some x) -> constructed d0 ->
  k_weight k = FHas w -> loadGW (e_p e) k w = Ok (gs, ws, wd) ->
  k_para k = k_para (saved e k) -> k_stat k = k_stat (saved e k) ->
  exists e', envLoad read seedE strOf d0 k = Ok e' /\ EnvOk e' /\ back e e' /\ e_gs e' = gs /\ e_ws e' = ws /\ e_wd e' = wd.
Proof.
  intros K CN RS D0 HW LG HP HS. pose proof (para_counter _ (eo_p e K) CN) as PK. pose proof (eo_u e K) as U. pose proof (usable_no_seed _ U) as U'.
  pose proof (loadGW_basis _ _ _ _ LG) as LB. unfold envLoad. rewrite HP. cbn [saved s_k_stat s_k_para k_para ftry obind].
  match goal with |- context [dLoad (toDict ?m) []] => destruct (load_dict m) as (m' & -> & M) end. cbn [obind].
  destruct (section_get "Para" m' (paraToDict show (e_p e))) as (pm & -> & PM); [rewrite M, dget_of; reflexivity|]. cbn [obind].
  rewrite (para_round show read seedE strOf (e_p e) pm PK RS PM). cbn [obind]. rewrite HW, HS. cbn [saved s_k_stat k_stat fmust obind].
  change (loadGW (no_seed (e_p e)) k w) with (loadGW (e_p e) k w). rewrite LG. cbn [obind].
  set (sf := mkSF _ _ _ _ _). destruct (eo_m e K) as [M1 M2 M3 M4 M5 M6].
  destruct (loadSP_ok (no_seed (e_p e)) k sf U' LB (m_S (e_m e)) (m_P (e_m e)) M3 M4 eq_refl eq_refl) as (eS & eP & -> & S1 & S2 & S3 & S4 & _ & _). cbn [obind].
  change (p_g3 (no_seed (e_p e))) with (p_g3 (e_p e)). rewrite (proj1 U). cbn [obind].
  set (T := tabOf (no_seed (e_p e)) gs ws wd PWild PWild). set (c := cfgWith (no_seed (e_p e)) T).
  assert (CO : cfg_ok c) by (apply U'; reflexivity). change T with (c_tab c).
  destruct (section_get "Config" m' (confToPy (tconf (e_d e)))) as (cm & -> & CM); [rewrite M, dget_of; reflexivity|]. cbn [obind].
  rewrite (conf_round (tconf (e_d e)) cm); [|apply (tconf_fits (e_cfg e)); [exact (small_ok _ PK)|exact (eo_i e K)]|exact CM]. cbn [obind].
  destruct (load_inv c (e_d e) d0 CO (Pre_tab (e_cfg e) c _ eq_refl eq_refl eq_refl (Inv_Pre _ _ (eo_i e K))) D0) as (d1 & d' & -> & Y & F & HI & G0 & _). cbn [obind]. change (cfgWith (no_seed (e_p e)) (c_tab c)) with c.
  destruct (mon_reload c (e_m e) eS eP PWild PWild (co_order _ CO) (eo_n e K) (eo_h e K) (proj1 U)) as (m & LM & R1 & R2 & R3 & R4).
  change (sf_mon sf) with (monToDict c (e_m e)). rewrite LM. cbn [obind]. eexists. split; [reflexivity|].
  destruct (fromDict_shape _ _ _ _ _ _ _ (co_order _ CO) LM) as (B1 & B2 & B3 & B4 & _).
  set (e' := mkEnv _ _ _ _ _ _ _ _). assert (CE : e_cfg e' = c). { unfold e_cfg, e_tab, c, T, e'. cbn [e_p e_gs e_ws e_wd e_m]. f_equal. apply tab_none. exact (proj1 U). }
  split; [|split; [|auto]].
  - constructor; rewrite ?CE; unfold e'; cbn [e_p e_d e_m]; auto.
    + destruct (eo_p e K). constructor; assumption.
    + constructor; rewrite ?B3, ?B4; auto.
      * apply (f_equal (@List.length _)) in B1. now rewrite !map_length, seq_length in B1.
      * apply (f_equal (@List.length _)) in B2. now rewrite !map_length, seq_length in B2.
      * intros X. change (c_gamma3 c) with (p_g3 (e_p e)) in X. rewrite (proj1 U) in X. discriminate.
      * intros X. change (c_gamma3 c) with (p_g3 (e_p e)) in X. rewrite (proj1 U) in X. discriminate.
    + split; assumption.
    + apply (load_counters (fun x => e_hist x = []) c c (e_m e) eS eP PWild PWild); auto; [apply (co_order _ CO)| |exact (eo_h e K)].
      intros x e0 x' Q X. destruct (save_load x e0) as (e2 & E1 & _ & _ & E2 & _); [rewrite Q; unfold HSIZE; cbn; lia|]. rewrite X in E1. injection E1 as <-. congruence.
  - destruct (copy_same2 (e_cfg e) c _ _ _ (eo_i e K) Y F HI) as (SD & OD & SW).
    constructor; unfold e'; cbn [e_p e_gs e_ws e_wd e_d e_m]; rewrite ?B3, ?B4; auto.
    + do 3 eexists. split; [exact SD|]. split; [exact OD|]. intros -> -> ->. apply SW; [|exact (ok_gamma e K)|exact G0].
      unfold c, T, e_cfg, e_tab. cbn [cfgWith c_tab]. change (tabOf (no_seed (e_p e))) with (tabOf (e_p e)). apply tab_none. exact (proj1 U).
    + destruct R3, R4. auto.
Qed.

(** *** starting *)
Lemma clear_ok m o e : WEok m o e -> WEok m o (weClear e).
Proof. intros [L W S]. split; cbn [weClear we_accu we_wsize waFill wa_shape]; auto. unfold wa_size in *. cbn. now rewrite repeat_length. Qed.
Lemma para_counter0 p : para_ok p -> para_ok (withCounter 0 p).
Proof. intros K. destruct K. constructor; auto. unfold is_ll. cbn. lia. Qed.
Lemma envBuildNew_ok d0 k o m pm (p : para) w gs ws wd : constructed d0 ->
  k_input k = FHas o -> dLoad o [] = Ok m -> dGet cvDict "Para" m = Ok pm -> paraFromDict read seedE strOf pm = Ok p ->
  usable p -> para_ok p -> k_weight k = FHas w -> loadGW p k w = Ok (gs, ws, wd) ->
  exists e k', envBuildNew read seedE strOf d0 k = Ok (e, k') /\ EnvOk e /\ e_p e = p /\ e_gs e = gs /\ e_ws e = ws /\ e_wd e = wd /\
    BuildNew (c_tab (e_cfg e)) (p_lat p) d0 = Ok (e_d e) /\ k_stat k' = k_stat k.
Proof.
  intros D0 HI HL HP HR U PK HW LG. pose proof (loadGW_basis _ _ _ _ LG) as (nb & LB). unfold envBuildNew. rewrite HI. cbn [fmust obind]. rewrite HL. cbn [obind]. rewrite HP. cbn [obind]. rewrite HR. cbn [obind]. rewrite HW. cbn [fmust obind]. rewrite LG. cbn [obind].
  rewrite (proj1 U). cbn [obind]. unfold newSP. rewrite LB. cbn [obind]. set (T := tabOf p gs ws wd PWild PWild). set (c := cfgWith p T).
  assert (CO : cfg_ok c) by (apply U; reflexivity). pose proof (co_order _ CO) as OO. change (c_order c) with (p_order p) in OO.
  destruct (Z.eqb_spec (p_order p) 0) as [X|_]; [lia|]. pose proof U as (_ & NK & W1 & W2 & _).
  destruct (allocate_ok _ _ (normOf p) W1) as (aS & -> & A1 & _). destruct (allocate_ok _ _ (normOf p) W2) as (aP & -> & A2 & _). cbn [obind]. cbv zeta.
  destruct (BuildNew_inv c d0 CO (proj1 NK) (proj2 NK) D0) as (co & d1 & d & _ & B & _ & _ & IV & _).
  change (BuildNew (c_tab c) (c_lat c) d0) with (BuildNew T (p_lat p) d0) in B. fold T. rewrite B. cbn [obind]. fold c.
  destruct (buildNew_ok c (weClear aS) (weClear aP) PWild PWild OO) as (mn & -> & N1 & N2 & N3 & N4 & N5 & N6 & N7 & N8 & N9 & _). cbn [obind].
  rewrite (ToDict_spec c _ (Inv_Pre _ _ IV)). cbn [obind]. do 2 eexists. split; [reflexivity|].
  set (e := mkEnv _ _ _ _ _ _ _ _). assert (CE : e_cfg e = c). { unfold e_cfg, e_tab, c, T, e. cbn [e_p e_gs e_ws e_wd e_m]. f_equal. apply tab_none. exact (proj1 U). }
  split.
  - constructor; rewrite ?CE; unfold e; cbn [e_p e_d e_m]; auto.
    + now apply para_counter0.
    + constructor; rewrite ?N8, ?N9.
      * apply (f_equal (@List.length _)) in N1. now rewrite !map_length, seq_length in N1.
      * apply (f_equal (@List.length _)) in N2. now rewrite !map_length, seq_length in N2.
      * now apply clear_ok.
      * now apply clear_ok.
      * intros X. change (c_gamma3 c) with (p_g3 p) in X. rewrite (proj1 U) in X. discriminate.
      * intros X. change (c_gamma3 c) with (p_g3 p) in X. rewrite (proj1 U) in X. discriminate.
    + split; assumption.
    + unfold counters. rewrite N4, N5, N6, N7. split; [|split; [|repeat split]]; apply Forall_forall; intros [n x] I; cbn [snd]; rewrite (N3 n x); auto.
  - repeat (split; [reflexivity|]). split; [|reflexivity]. rewrite CE. exact B.
Qed.
Lemma accepted_ok pm (p : para) : paraFromDict read seedE strOf pm = Ok p -> usable p -> Z.of_nat (List.length (p_orw p)) < 2 ^ 63 -> para_ok p.
Proof.
  intros H U L. destruct (para_accepted read seedE strOf pm p H L) as (A1 & A2 & A3 & A4 & A5 & A6 & A7 & A8 & A9 & A10 & A11 & A12 & A13 & A14 & A15).
  pose proof (co_order _ (proj2 (proj2 (proj2 (proj2 U))) (tabOf p (waAllocate []) (waAllocate []) (waAllocate []) PWild PWild) eq_refl eq_refl)) as OO. cbn [cfgWith c_order] in OO. constructor; auto. lia.
Qed.
Lemma envBuildNew_inv d0 k e k' : constructed d0 -> envBuildNew read seedE strOf d0 k = Ok (e, k') -> usable (e_p e) -> Z.of_nat (List.length (p_orw (e_p e))) < 2 ^ 63 ->
  EnvOk e /\ is_ll (p_counter (e_p e)).
Proof.
  intros D0 H U L. pose proof H as H0. unfold envBuildNew in H. apply obind_ok in H as (o & H1 & H). apply obind_ok in H as (m & H2 & H). apply obind_ok in H as (pm & H3 & H). apply obind_ok in H as (p & H4 & H).
  apply obind_ok in H as (w & H5 & H). apply obind_ok in H as ([[gs ws] wd] & H6 & H). apply obind_ok in H as ([GG GW] & H7 & H). apply obind_ok in H as ([eS eP] & H8 & H). cbv zeta in H.
  apply obind_ok in H as (d & H9 & H). apply obind_ok in H as (mn & H10 & H). apply obind_ok in H as (F & H11 & H).
  assert (EP : e_p e = p) by (injection H as <- _; reflexivity). rewrite EP in *. pose proof (accepted_ok pm p H4 U L) as PK.
  destruct (k_input k) as [| |o'] eqn:KI; try discriminate. injection H1 as ->. destruct (k_weight k) as [| |w'] eqn:KW; try discriminate. injection H5 as ->.
  destruct (envBuildNew_ok d0 k o m pm p w gs ws wd D0 KI H2 H3 H4 U PK KW H6) as (e2 & k2 & Q & EO & _). rewrite H0 in Q. injection Q as <- _. split; [exact EO|apply PK].
Qed.
Lemma envBuildNew_fresh d0 k e k' : constructed d0 -> envBuildNew read seedE strOf d0 k = Ok (e, k') -> usable (e_p e) ->
  wm_ex (e_d e) = false /\ order (e_d e) = 1 /\ measG (e_d e) = true.
Proof.
  intros D0 H U. unfold envBuildNew in H. apply obind_ok in H as (o & H1 & H). apply obind_ok in H as (m & H2 & H). apply obind_ok in H as (pm & H3 & H). apply obind_ok in H as (p & H4 & H).
  apply obind_ok in H as (w & H5 & H). apply obind_ok in H as ([[gs ws] wd] & H6 & H). apply obind_ok in H as ([GG GW] & H7 & H). apply obind_ok in H as ([eS eP] & H8 & H). cbv zeta in H.
  apply obind_ok in H as (d & H9 & H). apply obind_ok in H as (mn & H10 & H). apply obind_ok in H as (F & H11 & H). injection H as <- _. cbn [e_p e_d] in *.
  pose proof U as (_ & NK & _ & _ & UC). destruct (fresh_structural (cfgWith p (tabOf p gs ws wd GG GW)) d0 (UC (tabOf p gs ws wd GG GW) eq_refl eq_refl) NK D0) as (d' & B & _ & O & W & _ & M).
  cbn [cfgWith c_tab c_lat] in B. rewrite H9 in B. injection B as <-. auto.
Qed.

(** *** messages *)
Lemma wepar_beta b m t L f n o : wepar (mkIM b t L f n) o -> wepar (mkIM m t L f n) o.
Proof. intros (A & B). split; [destruct A; constructor; auto|exact B]. Qed.
Lemma WEok_beta m m' o e : im_maxtau m' = im_maxtau m -> im_lat m' = im_lat m -> im_nsp m' = im_nsp m -> WEok m o e -> WEok m' o e.
Proof. intros E1 E2 E3 [L W S]. unfold tabsize in *. constructor; unfold tabsize, shape in *; rewrite ?E1, ?E2, ?E3; auto. Qed.
Lemma annealed_ok (c c' : cfg) b m : c_order c' = c_order c -> c_gamma3 c = false -> c_gamma3 c' = false ->
  (forall k, WEok (gmap (c_tab c)) k (m_S m) -> WEok (gmap (c_tab c')) k (m_S m)) -> (forall k, WEok (wmap (c_tab c)) k (m_P m) -> WEok (wmap (c_tab c')) k (m_P m)) ->
  MonOk c 0 0 0 0 m -> MonOk c' 0 0 0 0 (annealed b m (m_GG m) (m_GW m)).
Proof.
  intros O G G' HS HP [M1 M2 M3 M4 M5 M6]. constructor; rewrite ?O, ?G'; cbn [annealed s_m_GW s_m_GG s_m_P s_m_S m_worm m_phy m_S m_P m_GG m_GW]; auto; try discriminate.
  - apply HS in M3. destruct M3. constructor; auto.
  - apply HP in M4. destruct M4. constructor; auto.
Qed.
(** the state after a message has been taken, before the final check *)
Definition taken (k : disk) (ms : message) (e e' : env) : Prop := exists gs ws wd w d m,
  k_weight k = FHas w /\ loadGW (updateWith ms (e_p e)) k w = Ok (gs, ws, wd) /\
  DReset (tabOf (updateWith ms (e_p e)) gs ws wd (m_GG (e_m e)) (m_GW (e_m e))) (e_d e) = Ok d /\
  e' = mkEnv (updateWith ms (e_p e)) gs ws wd d (e_prop e) (e_accs e) m.
Definition calm (e : env) (ms : message) : Prop :=
  rmul (rofZ 1) (p_beta (e_p e)) = p_beta (e_p e) /\ rleb beta_min (p_beta (e_p e)) = true /\ rleb (p_beta (e_p e)) (ms_beta ms) = true /\ ends_settled (e_d e).
Lemma msg_int o (ms : message) : msgLoad o = Ok ms -> is_int (ms_version ms).
Proof.
  unfold msgLoad. intros H. apply obind_ok in H as (m & _ & H). apply obind_ok in H as (b & _ & H). apply obind_ok in H as (v & V & H). apply obind_ok in H as (q & _ & H).
  injection H as <-. apply (dGet_range cvInt is_int) in V; [exact V|exact cvInt_range].
Qed.
Lemma envListen_ok k e o ms w gs ws wd : EnvOk e -> k_msg k = FHas o -> msgLoad o = Ok ms -> p_version (e_p e) < ms_version ms ->
  k_weight k = FHas w -> loadGW (updateWith ms (e_p e)) k w = Ok (gs, ws, wd) -> usable (updateWith ms (e_p e)) -> calm e ms -> rltb (rofZ 0) (ms_squeeze ms) = true ->
  exists e', EnvOk e' /\ e_p e' = updateWith ms (e_p e) /\ e_gs e' = gs /\ e_ws e' = ws /\ e_wd e' = wd /\ DReset (e_tab e') (e_d e) = Ok (e_d e') /\ fixed (e_d e) (e_d e') /\
    envListen k e = obind (CheckDiagram (e_tab e') (e_d e')) (fun b => if b then Ok (true, e') else Abort).
Proof.
  intros K HM HL HV HW LG U' (CB1 & CB2 & CB3 & CE) SQ. pose proof (eo_u e K) as U. unfold envListen. rewrite (proj1 U). cbn [andb]. rewrite HM. cbn [ftry obind]. rewrite HL. cbn [obind].
  destruct (Z.leb_spec (ms_version ms) (p_version (e_p e))) as [X|_]; [lia|]. rewrite HW. cbn [ftry obind]. cbv zeta. rewrite LG. cbn [obind].
  set (p := updateWith ms (e_p e)) in *. rewrite (proj1 U'). cbn [obind]. set (T := tabOf p gs ws wd (m_GG (e_m e)) (m_GW (e_m e))). set (c := cfgWith p T).
  assert (CO : cfg_ok c) by (apply U'; reflexivity).
  assert (HN : hotter_not (e_cfg e) c) by (repeat split; auto).
  destruct (anneal_inv (e_cfg e) c (e_d e) HN CO (eo_i e K) (ok_gamma e K) CE) as (d & DR & FX & IV). change (c_tab c) with T in DR. rewrite DR. cbn [obind].
  assert (MA : MonOk c 0 0 0 0 (annealed (p_beta p) (e_m e) (m_GG (e_m e)) (m_GW (e_m e)))).
  { apply (annealed_ok (e_cfg e) c); auto; try (apply U); try (apply U'); try (intros; eapply WEok_beta; [..|eassumption]; reflexivity). exact (eo_m e K). }
  destruct (squeeze_ok c 0 0 0 0 (ms_squeeze ms) _ SQ MA) as (m & SM & MO). fold c. rewrite SM. cbn [obind].
  set (e' := mkEnv p gs ws wd d (e_prop e) (e_accs e) m). assert (CE' : e_cfg e' = c). { unfold e_cfg, e_tab, c, T, e'. cbn [e_p e_gs e_ws e_wd e_m]. f_equal. apply tab_none. exact (proj1 U'). }
  assert (CT : e_tab e' = T) by (change (c_tab (e_cfg e') = T); now rewrite CE').
  exists e'. split; [|repeat (split; [reflexivity|]); rewrite CT; auto]. constructor; rewrite ?CE'; unfold e'; cbn [e_p e_d e_m]; auto.
  - destruct (eo_p e K). constructor; auto. exact (msg_int o ms HL).
  - pose proof SM as SN. unfold monSqueeze in SN. apply obind_ok in SN as (x1 & _ & SN). apply obind_ok in SN as (x2 & _ & SN). apply obind_ok in SN as (wb & E1 & SN). apply obind_ok in SN as (pb & E2 & SN).
    apply obind_ok in SN as (x3 & _ & SN). apply obind_ok in SN as (x4 & _ & SN). change (c_gamma3 c) with (p_g3 (e_p e)) in SN. rewrite (proj1 U) in SN. injection SN as <-.
    apply ebSqueeze_fst in E1, E2. destruct (eo_n e K) as [N1 N2]. split; cbn [m_worm m_phy]; [rewrite E1; exact N1|rewrite E2; exact N2].
  - eapply squeeze_counters; [|exact SM|].
    + intros x x' Q S. unfold eSqueeze in S. destruct (rltb _ _); [|discriminate]. injection S as <-. exact Q.
    + exact (eo_h e K).
Qed.
End PEnv.
