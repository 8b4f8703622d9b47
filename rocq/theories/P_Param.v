(** * Proofs about dictionaries, parameters and messages *)
From Coq Require Import ZArith List Bool String Ascii Lia.
From Verif Require Import Base Num Lattice DiagramIO PyDict Param ConfigPy.
Import ListNotations.
Open Scope string_scope.
Open Scope Z_scope.

Section PP.
Context {N : Num}.

(** ** std::map *)
Lemma dget_rem k k' (m : dict) : dget k (drem k' m) = if String.eqb k' k then None else dget k m.
Proof.
  induction m as [|[a v] m IH]; cbn [drem filter dget fst].
  - destruct (String.eqb k' k); reflexivity.
  - destruct (String.eqb_spec k' a); cbn [negb].
    + subst a. change (filter _ m) with (drem k' m). rewrite IH. destruct (String.eqb_spec k' k) as [->|n].
      * reflexivity.
      * rewrite (proj2 (String.eqb_neq k k')) by congruence. reflexivity.
    + cbn [dget]. change (filter _ m) with (drem k' m). rewrite IH. destruct (String.eqb_spec k a) as [->|].
      * rewrite (proj2 (String.eqb_neq k' a)) by congruence. reflexivity.
      * reflexivity.
Qed.
Lemma dget_set k k' v (m : dict) : dget k (dset k' v m) = if String.eqb k k' then Some v else dget k m.
Proof. unfold dset. cbn [dget]. rewrite dget_rem, (String.eqb_sym k' k). destruct (String.eqb k k'); reflexivity. Qed.
Lemma dget_ins k k' v (m : dict) : dget k (dins k' v m) = match dget k m with Some x => Some x | None => if String.eqb k k' then Some v else None end.
Proof.
  unfold dins. destruct (dget k' m) eqn:E.
  - destruct (dget k m) eqn:F; [reflexivity|]. destruct (String.eqb_spec k k'); [congruence|reflexivity].
  - cbn [dget]. destruct (String.eqb_spec k k') as [->|]; [rewrite E; reflexivity|]. destruct (dget k m); reflexivity.
Qed.
(** the last assignment wins *)
Fixpoint dlast (k : string) (l : list (string * py)) : option py :=
  match l with [] => None | (k', v) :: r => match dlast k r with Some x => Some x | None => if String.eqb k k' then Some v else None end end.
Lemma dget_sets k l : forall m : dict, dget k (fold_left (fun a p => dset (fst p) (snd p) a) l m) = match dlast k l with Some x => Some x | None => dget k m end.
Proof.
  induction l as [|[a v] l IH]; intro m; [reflexivity|]. cbn [fold_left dlast fst snd]. rewrite IH, dget_set.
  destruct (dlast k l); [reflexivity|]. destruct (String.eqb k a); reflexivity.
Qed.
(** the first insertion wins, and what was there before wins over both *)
Lemma dget_inss k l : forall m : dict, dget k (fold_left (fun a p => dins (fst p) (snd p) a) l m) = match dget k m with Some x => Some x | None => dget k l end.
Proof.
  induction l as [|[a v] l IH]; intro m; cbn [fold_left fst snd]; [cbn; destruct (dget k m); reflexivity|].
  rewrite IH, dget_ins. cbn [dget]. destruct (dget k m); [reflexivity|]. destruct (String.eqb k a); reflexivity.
Qed.
Lemma dget_of k l : dget k (dOf l) = dlast k l.
Proof. unfold dOf. rewrite dget_sets. destruct (dlast k l); reflexivity. Qed.
(** reading a dictionary object into an empty dictionary loses nothing *)
Lemma dget_cv k m m' : cvDict (toDict m) = Some m' -> dget k m' = dget k m.
Proof. unfold cvDict, cvMapInto, toDict. intros [= <-]. rewrite dget_inss. reflexivity. Qed.
Lemma cvDict_some (m : dict) : exists m', cvDict (toDict m) = Some m' /\ forall k, dget k m' = dget k m.
Proof. eexists. split; [reflexivity|]. intro k. apply (dget_cv k m _ eq_refl). Qed.

(** ** Conversions *)
Definition is_int (z : Z) : Prop := - 2 ^ 31 <= z < 2 ^ 31.
Definition is_uint (z : Z) : Prop := 0 <= z < 2 ^ 32.
Definition is_ll (z : Z) : Prop := - 2 ^ 63 <= z < 2 ^ 63.
Lemma asLong_id z : is_ll z -> asLong z = z.
Proof. unfold is_ll, asLong, in_s64. intros H. destruct (Z.leb_spec (- 2 ^ 63) z), (Z.ltb_spec z (2 ^ 63)); cbn [andb]; try reflexivity; lia. Qed.
Lemma s32_id z : is_int z -> s32 z = z.
Proof.
  unfold is_int, s32. intros H. destruct (Z_lt_le_dec z 0).
  - replace (z mod 2 ^ 32) with (z + 2 ^ 32); [|apply (Z.mod_unique z (2 ^ 32) (-1)); lia].
    destruct (Z.ltb_spec (z + 2 ^ 32) (2 ^ 31)); lia.
  - rewrite Z.mod_small by lia. destruct (Z.ltb_spec z (2 ^ 31)); lia.
Qed.
Lemma cvInt_ok z : is_int z -> cvInt (PInt z) = Some z.
Proof. intro H. unfold cvInt. cbn [asInt option_map]. rewrite asLong_id by (unfold is_ll, is_int in *; lia). rewrite s32_id by exact H. reflexivity. Qed.
Lemma cvUInt_ok z : is_uint z -> cvUInt (PInt z) = Some z.
Proof.
  intro H. unfold cvUInt, asULong, u32, is_uint in *. cbn [asInt option_map].
  destruct (Z.leb_spec 0 z), (Z.ltb_spec z (2 ^ 64)); cbn [andb]; try lia. rewrite Z.mod_small by lia. reflexivity.
Qed.
Lemma cvLL_ok z : is_ll z -> cvLL (PInt z) = Some z.
Proof. intro H. unfold cvLL. cbn [asInt option_map]. rewrite asLong_id by exact H. reflexivity. Qed.
Lemma cvAll_map {A} (f : py -> option A) (g : A -> py) l : Forall (fun a => f (g a) = Some a) l -> cvAll f (map g l) = Some l.
Proof. induction 1 as [|a l H _ IH]; cbn [map cvAll]; [reflexivity|]. rewrite H, IH. reflexivity. Qed.
Lemma cvList_ok {A} (f : py -> option A) (g : A -> py) l : Forall (fun a => f (g a) = Some a) l -> cvList f (toList g l) = Some l.
Proof. apply cvAll_map. Qed.
Lemma cvVec_ok {A} (f : py -> option A) (g : A -> py) l : List.length l = DIM -> Forall (fun a => f (g a) = Some a) l -> cvVec f (toList g l) = Some l.
Proof.
  intros L H. unfold cvVec, toList. rewrite map_length, L, Nat.ltb_irrefl.
  rewrite firstn_all2 by (rewrite map_length; lia). apply cvAll_map. exact H.
Qed.
Lemma reals_ok l : Forall (fun x => cvReal (PFloat x) = Some x) l.
Proof. induction l; constructor; auto. Qed.
Lemma ints_ok l : Forall is_int l -> Forall (fun z => cvInt (PInt z) = Some z) l.
Proof. induction 1; constructor; auto. apply cvInt_ok. assumption. Qed.
Lemma dGet_ok {A} (f : py -> option A) k m o a : dget k m = Some o -> f o = Some a -> dGet f k m = Ok a.
Proof. intros G F. unfold dGet. rewrite G, F. reflexivity. Qed.
Lemma dGetOr_ok {A} (f : py -> option A) k m o a x : dget k m = Some o -> f o = Some a -> dGetOr f k x m = Ok a.
Proof. intros G F. unfold dGetOr, dhas. rewrite G. apply (dGet_ok f k m o a G F). Qed.

(** ** Parameters *)
Context {E : Type} (show : E -> string) (read : string -> option E) (seedE : Z -> E) (strOf : py -> string).
(** what the types and the two assertions of FromDict allow *)
Record para_ok (p : @para N E) : Prop := {
  po_version : is_int (p_version p); po_mtb : is_uint (p_mtb p); po_mtbt : is_uint (p_mtbt p);
  po_order : 0 <= p_order p < 10; po_orw : p_order p < Z.of_nat (List.length (p_orw p));
  po_nsub : is_int (p_nsub p); po_L : List.length (p_L p) = DIM; po_Li : Forall is_int (p_L p);
  po_counter : is_ll (p_counter p); po_toss : is_int (p_toss p); po_sweep : is_int (p_sweep p);
  po_t1 : is_int (p_tprint p); po_t2 : is_int (p_tdisk p); po_t3 : is_int (p_tmsg p); po_t4 : is_int (p_trew p) }.
Definition no_seed (p : @para N E) : para :=
  mkPara (p_version p) (p_beta p) (p_mtb p) (p_mtbt p) (p_order p) (p_nsub p) (p_L p)
    (p_counter p) (p_toss p) (p_sweep p) 0 (p_rng p) (p_wsr p) (p_pr p) (p_g3 p) (p_ggr p) (p_gwr p)
    (p_orw p) (p_otr p) (p_tprint p) (p_tdisk p) (p_tmsg p) (p_trew p).

Lemma para_round p m : para_ok p -> (forall e, read (show e) = Some e) -> (forall k, dget k m = dget k (paraToDict show p)) ->
  paraFromDict read seedE strOf m = Ok (no_seed p).
Proof.
  intros K RS M. destruct K. unfold paraFromDict, paraToDict, baseToDict in *. cbv zeta in *.
  assert (MV : dget "Version" m = Some (PInt (p_version p))) by (rewrite M; unfold dupdate; rewrite dget_sets; reflexivity).
  match type of M with forall k, dget k m = dget k (dupdate (dOf [(_, ?lt); (_, ?tau); _]) (dOf [(_, ?mk)])) =>
    assert (MT : dget "Tau" m = Some tau) by (rewrite M; unfold dupdate; rewrite dget_sets; reflexivity);
    assert (ML : dget "Lattice" m = Some lt) by (rewrite M; unfold dupdate; rewrite dget_sets; reflexivity);
    assert (MM : dget "Markov" m = Some mk) by (rewrite M; unfold dupdate; rewrite dget_sets; reflexivity) end.
  clear M.
  match type of MT with _ = Some (toDict ?t) => destruct (cvDict_some t) as (tau & T1 & T2) end.
  match type of ML with _ = Some (toDict ?t) => destruct (cvDict_some t) as (lt & L1 & L2) end.
  match type of MM with _ = Some (toDict ?t) => destruct (cvDict_some t) as (k & K1 & K2) end.
  rewrite (dGetOr_ok cvInt _ _ _ (p_version p) _ MV) by (apply cvInt_ok; assumption). cbn [obind].
  rewrite (dGet_ok cvDict _ _ _ tau MT T1). cbn [obind].
  rewrite (dGet_ok cvReal "Beta" tau (PFloat (p_beta p)) (p_beta p)) by (try rewrite T2; reflexivity). cbn [obind].
  rewrite (dGet_ok cvUInt "MaxTauBin" tau (PInt (p_mtb p)) (p_mtb p)) by first [rewrite T2; reflexivity|apply cvUInt_ok; assumption]. cbn [obind].
  rewrite (dGet_ok cvUInt "MaxTauBinTiny" tau (PInt (p_mtbt p)) (p_mtbt p)) by first [rewrite T2; reflexivity|apply cvUInt_ok; assumption]. cbn [obind].
  rewrite (dGet_ok cvDict _ _ _ lt ML L1). cbn [obind].
  rewrite (dGet_ok cvInt "NSublat" lt (PInt (p_nsub p)) (p_nsub p)) by first [rewrite L2; reflexivity|apply cvInt_ok; assumption]. cbn [obind].
  assert (GL : dget "L" lt = Some (toList PInt (p_L p))) by (rewrite L2; reflexivity).
  rewrite (dGet_ok _ _ _ _ (p_L p) GL) by (apply cvVec_ok; [assumption|apply ints_ok; assumption]). cbn [obind].
  rewrite (dGet_ok _ _ _ _ (p_L p) GL) by (apply cvList_ok, ints_ok; assumption). cbn [obind].
  rewrite po_L0, Nat.eqb_refl. cbn [negb].
  rewrite (dGet_ok cvDict _ _ _ k MM K1). cbn [obind].
  rewrite (dGet_ok cvInt "Toss" k (PInt (p_toss p)) (p_toss p)) by first [rewrite K2; reflexivity|apply cvInt_ok; assumption]. cbn [obind].
  rewrite (dGet_ok cvInt "Sweep" k (PInt (p_sweep p)) (p_sweep p)) by first [rewrite K2; reflexivity|apply cvInt_ok; assumption]. cbn [obind].
  rewrite (dGet_ok cvReal "WormSpaceReweight" k (PFloat (p_wsr p)) (p_wsr p)) by (try rewrite K2; reflexivity). cbn [obind].
  rewrite (dGet_ok cvReal "PolarReweight" k (PFloat (p_pr p)) (p_pr p)) by (try rewrite K2; reflexivity). cbn [obind].
  rewrite (dGet_ok cvBool "runGamma3" k (PBool (p_g3 p)) (p_g3 p)) by (try rewrite K2; reflexivity). cbn [obind].
  rewrite (dGet_ok cvReal "GammaGReweight" k (PFloat (p_ggr p)) (p_ggr p)) by (try rewrite K2; reflexivity). cbn [obind].
  rewrite (dGet_ok cvReal "GammaWReweight" k (PFloat (p_gwr p)) (p_gwr p)) by (try rewrite K2; reflexivity). cbn [obind].
  rewrite (dGet_ok (cvList cvReal) "OrderReWeight" k (toList PFloat (p_orw p)) (p_orw p)) by first [rewrite K2; reflexivity|apply cvList_ok, reals_ok]. cbn [obind].
  rewrite (dGet_ok (cvList cvReal) "OrderTimeRatio" k (toList PFloat (p_otr p)) (p_otr p)) by first [rewrite K2; reflexivity|apply cvList_ok, reals_ok]. cbn [obind].
  rewrite (dGet_ok cvInt "Order" k (PInt (p_order p)) (p_order p)) by first [rewrite K2; reflexivity|apply cvInt_ok; unfold is_int; lia]. cbn [obind].
  rewrite (dGetOr_ok cvLL "Counter" k (PInt (p_counter p)) (p_counter p)) by first [rewrite K2; reflexivity|apply cvLL_ok; assumption]. cbn [obind].
  assert (SD : dhas "Seed" k = false) by (unfold dhas; rewrite K2; reflexivity).
  unfold dGetOr at 1. rewrite SD. cbn [obind].
  assert (GR : dget "RNG" k = Some (PStr (show (p_rng p)))) by (rewrite K2; reflexivity).
  assert (HR : dhas "RNG" k = true) by (unfold dhas; rewrite GR; reflexivity).
  rewrite HR. rewrite (dGet_ok (cvRNG read strOf) "RNG" k _ (p_rng p) GR) by apply RS. cbn [obind].
  replace (p_order p <? 10) with true by (symmetry; apply Z.ltb_lt; lia). cbn [negb].
  replace (Z.of_nat (List.length (p_orw p)) <? u64 (p_order p + 1)) with false by (symmetry; apply Z.ltb_ge; unfold u64; rewrite Z.mod_small by lia; lia).
  assert (GT : exists td, dget "Timer" k = Some (toDict td) /\ dget "PrinterTimer" td = Some (PInt (p_tprint p)) /\ dget "DiskWriterTimer" td = Some (PInt (p_tdisk p))
     /\ dget "MessageTimer" td = Some (PInt (p_tmsg p)) /\ dget "ReweightTimer" td = Some (PInt (p_trew p)))
    by (eexists; split; [rewrite K2; reflexivity|]; repeat split).
  destruct GT as (td & GT & D1 & D2 & D3 & D4). destruct (cvDict_some td) as (t & Q1 & Q2). rewrite <- Q2 in D1, D2, D3, D4.
  rewrite (dGet_ok cvDict _ _ _ t GT Q1). cbn [obind].
  rewrite (dGet_ok cvInt _ t _ _ D1 (cvInt_ok _ po_t5)). cbn [obind].
  rewrite (dGet_ok cvInt _ t _ _ D2 (cvInt_ok _ po_t6)). cbn [obind].
  rewrite (dGet_ok cvInt _ t _ _ D3 (cvInt_ok _ po_t7)). cbn [obind].
  rewrite (dGet_ok cvInt _ t _ _ D4 (cvInt_ok _ po_t8)). cbn [obind].
  reflexivity.
Qed.
Lemma para_file_round p : para_ok p -> (forall e, read (show e) = Some e) ->
  exists m, dLoad (toDict (paraToDict show p)) [] = Ok m /\ paraFromDict read seedE strOf m = Ok (no_seed p).
Proof.
  intros K RS. eexists. split; [reflexivity|]. apply para_round; [exact K|exact RS|]. intro k. rewrite dget_inss. reflexivity.
Qed.

(** ** Messages *)
Lemma msg_round (ms : message) : is_int (ms_version ms) -> msgLoad (toDict (msgToDict ms)) = Ok ms.
Proof.
  intro H. unfold msgLoad. change (dLoad (toDict (msgToDict ms)) []) with (Ok (fold_left (fun a p => dins (fst p) (snd p) a) (msgToDict ms) [])).
  cbn [obind]. set (m := fold_left _ _ _). assert (M : forall k, dget k m = dget k (msgToDict ms)) by (intro k; unfold m; rewrite dget_inss; reflexivity).
  clearbody m. rewrite (dGet_ok cvReal "Beta" m (PFloat (ms_beta ms)) (ms_beta ms)) by (try rewrite M; reflexivity). cbn [obind].
  rewrite (dGet_ok cvInt "Version" m (PInt (ms_version ms)) (ms_version ms)) by first [rewrite M; reflexivity|apply cvInt_ok; assumption]. cbn [obind].
  rewrite (dGet_ok cvReal "SqueezeFactor" m (PFloat (ms_squeeze ms)) (ms_squeeze ms)) by (try rewrite M; reflexivity). cbn [obind].
  destruct ms; reflexivity.
Qed.

(** ** Diagrams *)
Definition is_name (n : nat) : Prop := is_int (Z.of_nat n).
Definition v_fits (x : vdict) : Prop := is_name (vd_name x) /\ is_int (sub (vd_R x)) /\ List.length (coord (vd_R x)) = DIM /\ Forall is_int (coord (vd_R x)).
Definition g_fits (x : gdict) : Prop := is_name (gd_in x) /\ is_name (gd_out x) /\ is_int (gd_K x).
Definition w_fits (x : wdict) : Prop := is_name (wd_in x) /\ is_name (wd_out x) /\ is_int (wd_K x).
Definition worm_fits (x : wormdict) : Prop := is_name (wo_ira x) /\ is_name (wo_masha x) /\ is_int (wo_ds x) /\ is_int (wo_K x).
Record fits (F : config) : Prop := {
  ft_v : Forall v_fits (cf_v F); ft_g : Forall g_fits (cf_g F); ft_w : Forall w_fits (cf_w F);
  ft_worm : match cf_worm F with Some x => worm_fits x | None => True end }.
Lemma rdName_ok k m n : dget k m = Some (pyName n) -> is_name n -> rdName k m = Ok n.
Proof.
  intros G H. unfold rdName. rewrite (dGet_ok cvInt k m _ _ G (cvInt_ok _ H)). cbn [obind].
  destruct (Z.ltb_spec (Z.of_nat n) 0); [lia|]. rewrite Nat2Z.id. reflexivity.
Qed.
Lemma rdSpin_ok k m s : dget k m = Some (PInt (spinZ s)) -> rdSpin k m = Ok s.
Proof. intros G. unfold rdSpin. rewrite (dGet_ok cvInt k m _ (spinZ s) G) by (apply cvInt_ok; unfold is_int; destruct s; cbn; lia). destruct s; reflexivity. Qed.
Lemma vOf_ok x : v_fits x -> exists m', cvDict (vToPy x) = Some m' /\ vOfPy m' = Ok x.
Proof.
  intros (A & B & C & D). destruct (cvDict_some (dOf [("Name", pyName (vd_name x)); ("Sublat", PInt (sub (vd_R x)));
  ("Coordi", toList PInt (coord (vd_R x))); ("Tau", PFloat (vd_T x)); ("SpinIn", PInt (spinZ (vd_in x))); ("SpinOut", PInt (spinZ (vd_out x)))])) as (m' & M1 & M2).
  exists m'. split; [exact M1|]. unfold vOfPy.
  rewrite (rdName_ok "Name" m' (vd_name x)) by (try rewrite M2; first [reflexivity|assumption]). cbn [obind].
  rewrite (dGet_ok cvInt "Sublat" m' (PInt (sub (vd_R x))) (sub (vd_R x))) by (try rewrite M2; first [reflexivity|apply cvInt_ok; assumption]). cbn [obind].
  rewrite (dGet_ok (cvVec cvInt) "Coordi" m' (toList PInt (coord (vd_R x))) (coord (vd_R x))) by (try rewrite M2; first [reflexivity|apply cvVec_ok; [assumption|apply ints_ok; assumption]]). cbn [obind].
  rewrite (dGet_ok cvReal "Tau" m' (PFloat (vd_T x)) (vd_T x)) by (try rewrite M2; reflexivity). cbn [obind].
  rewrite (rdSpin_ok "SpinIn" m' (vd_in x)) by (rewrite M2; reflexivity). cbn [obind].
  rewrite (rdSpin_ok "SpinOut" m' (vd_out x)) by (rewrite M2; reflexivity). cbn [obind].
  destruct x as [? [? ?] ? ? ?]; reflexivity.
Qed.
Lemma gOf_ok x : g_fits x -> exists m', cvDict (gToPy x) = Some m' /\ gOfPy m' = Ok x.
Proof.
  intros (A & B & C). destruct (cvDict_some (dOf [("IN", pyName (gd_in x)); ("OUT", pyName (gd_out x)); ("K", PInt (gd_K x));
  ("IsMeasure", PBool (gd_meas x)); ("IsGGGammaG", PBool (gd_gg x))])) as (m' & M1 & M2).
  exists m'. split; [exact M1|]. unfold gOfPy.
  rewrite (rdName_ok "IN" m' (gd_in x)) by (try rewrite M2; first [reflexivity|assumption]). cbn [obind].
  rewrite (rdName_ok "OUT" m' (gd_out x)) by (try rewrite M2; first [reflexivity|assumption]). cbn [obind].
  rewrite (dGet_ok cvInt "K" m' (PInt (gd_K x)) (gd_K x)) by (try rewrite M2; first [reflexivity|apply cvInt_ok; assumption]). cbn [obind].
  rewrite (dGet_ok cvBool "IsMeasure" m' (PBool (gd_meas x)) (gd_meas x)) by (try rewrite M2; reflexivity). cbn [obind].
  rewrite (dGet_ok cvBool "IsGGGammaG" m' (PBool (gd_gg x)) (gd_gg x)) by (try rewrite M2; reflexivity). cbn [obind].
  destruct x; reflexivity.
Qed.
Lemma wOf_ok x : w_fits x -> exists m', cvDict (wToPy x) = Some m' /\ wOfPy m' = Ok x.
Proof.
  intros (A & B & C). destruct (cvDict_some (dOf [("IN", pyName (wd_in x)); ("OUT", pyName (wd_out x)); ("K", PInt (wd_K x));
  ("IsDelta", PBool (wd_delta x)); ("IsMeasure", PBool (wd_meas x)); ("IsWWGammaW", PBool (wd_ww x))])) as (m' & M1 & M2).
  exists m'. split; [exact M1|]. unfold wOfPy.
  rewrite (rdName_ok "IN" m' (wd_in x)) by (try rewrite M2; first [reflexivity|assumption]). cbn [obind].
  rewrite (rdName_ok "OUT" m' (wd_out x)) by (try rewrite M2; first [reflexivity|assumption]). cbn [obind].
  rewrite (dGet_ok cvInt "K" m' (PInt (wd_K x)) (wd_K x)) by (try rewrite M2; first [reflexivity|apply cvInt_ok; assumption]). cbn [obind].
  rewrite (dGet_ok cvBool "IsDelta" m' (PBool (wd_delta x)) (wd_delta x)) by (try rewrite M2; reflexivity). cbn [obind].
  rewrite (dGet_ok cvBool "IsMeasure" m' (PBool (wd_meas x)) (wd_meas x)) by (try rewrite M2; reflexivity). cbn [obind].
  rewrite (dGet_ok cvBool "IsWWGammaW" m' (PBool (wd_ww x)) (wd_ww x)) by (try rewrite M2; reflexivity). cbn [obind].
  destruct x; reflexivity.
Qed.
Lemma wormOf_ok x : worm_fits x -> exists m', cvDict (wormToPy x) = Some m' /\ wormOfPy m' = Ok x.
Proof.
  intros (A & B & C & D). destruct (cvDict_some (dOf [("Ira", pyName (wo_ira x)); ("Masha", pyName (wo_masha x)); ("dSpin", PInt (wo_ds x)); ("K", PInt (wo_K x))])) as (m' & M1 & M2).
  exists m'. split; [exact M1|]. unfold wormOfPy.
  rewrite (rdName_ok "Ira" m' (wo_ira x)) by (try rewrite M2; first [reflexivity|assumption]). cbn [obind].
  rewrite (rdName_ok "Masha" m' (wo_masha x)) by (try rewrite M2; first [reflexivity|assumption]). cbn [obind].
  rewrite (dGet_ok cvInt "dSpin" m' (PInt (wo_ds x)) (wo_ds x)) by (try rewrite M2; first [reflexivity|apply cvInt_ok; assumption]). cbn [obind].
  rewrite (dGet_ok cvInt "K" m' (PInt (wo_K x)) (wo_K x)) by (try rewrite M2; first [reflexivity|apply cvInt_ok; assumption]). cbn [obind].
  destruct x; reflexivity.
Qed.
Lemma list_ok {A} (ok : A -> Prop) (to : A -> py) (of : dict -> outcome A) l : (forall x, ok x -> exists m', cvDict (to x) = Some m' /\ of m' = Ok x) ->
  Forall ok l -> exists q, cvList cvDict (toList to l) = Some q /\ omapAll of q = Ok l.
Proof.
  intros H F. induction F as [|x l Hx _ IH]; [exists []; split; reflexivity|].
  destruct IH as (q & Q1 & Q2). destruct (H x Hx) as (m & M1 & M2). exists (m :: q). unfold cvList, toList in *. cbn [map cvAll omapAll].
  rewrite M1, Q1, M2. cbn [obind]. rewrite Q2. split; reflexivity.
Qed.
Lemma conf_round F m : fits F -> (forall k, dget k m = dget k (confToPy F)) -> confOfPy m = Ok F.
Proof.
  intros K M. destruct K as [K1 K2 K3 K4].
  assert (M1 : dget "Ver" m = Some (toList vToPy (cf_v F))) by (rewrite M; unfold confToPy; rewrite dget_of; destruct (cf_worm F); reflexivity).
  assert (M2 : dget "G" m = Some (toList gToPy (cf_g F))) by (rewrite M; unfold confToPy; rewrite dget_of; destruct (cf_worm F); reflexivity).
  assert (M3 : dget "W" m = Some (toList wToPy (cf_w F))) by (rewrite M; unfold confToPy; rewrite dget_of; destruct (cf_worm F); reflexivity).
  assert (M4 : dget "Worm" m = option_map wormToPy (cf_worm F)) by (rewrite M; unfold confToPy; rewrite dget_of; destruct (cf_worm F); reflexivity).
  assert (M5 : dget "SignFermiLoop" m = Some (PFloat (cf_sfl F))) by (rewrite M; unfold confToPy; rewrite dget_of; destruct (cf_worm F); reflexivity).
  clear M. unfold confOfPy.
  destruct (list_ok v_fits vToPy vOfPy _ vOf_ok K1) as (qv & A1 & A2).
  destruct (list_ok w_fits wToPy wOfPy _ wOf_ok K3) as (qw & B1 & B2).
  destruct (list_ok g_fits gToPy gOfPy _ gOf_ok K2) as (qg & C1 & C2).
  rewrite (dGet_ok _ _ _ _ _ M1 A1). cbn [obind]. rewrite A2. cbn [obind].
  rewrite (dGet_ok _ _ _ _ _ M3 B1). cbn [obind]. rewrite B2. cbn [obind].
  rewrite (dGet_ok _ _ _ _ _ M2 C1). cbn [obind]. rewrite C2. cbn [obind].
  unfold dhas. rewrite M4. destruct F as [fv fg fw [x|] sf]; cbn [cf_v cf_g cf_w cf_worm cf_sfl option_map] in *.
  - destruct (wormOf_ok x K4) as (q & Q1 & Q2). rewrite (dGet_ok _ _ _ _ _ M4 Q1). cbn [obind]. rewrite Q2. cbn [obind].
    rewrite (dGet_ok cvReal _ _ _ sf M5) by reflexivity. reflexivity.
  - cbn [obind]. rewrite (dGet_ok cvReal _ _ _ sf M5) by reflexivity. reflexivity.
Qed.
End PP.
