(** * Parameter files, messages and dictionaries (C81-C86) *)
From Coq Require Import ZArith List Bool String Reals Lra Lia.
From Verif Require Import Base Num NumR Lattice Momentum Bundle Diagram Markov DiagramIO History
  P_Inv P_IO P_History P_Promises P_IOProm Prop_Markov Estimator PyDict Param ConfigPy P_Param P_ParamIO.
Import ListNotations.
Open Scope string_scope.
Open Scope Z_scope.

(** ** C81: a parameter set written to a dictionary and loaded from it is the same set, engine state
    included, with Seed 0. [show]/[read] are the text form of the engine. *)
Theorem C81_parameters_round_trip :
  forall (N : Num) (E : Type) (show : E -> string) (read : string -> option E) (seedE : Z -> E) (strOf : py -> string)
    (p : @para N E),
  (forall e, read (show e) = Some e) -> para_ok p ->
  exists m p', dLoad (toDict (paraToDict show p)) [] = Ok m /\ paraFromDict read seedE strOf m = Ok p' /\
    p_rng p' = p_rng p /\ p_counter p' = p_counter p /\ p_version p' = p_version p /\ p_beta p' = p_beta p /\
    p_mtb p' = p_mtb p /\ p_mtbt p' = p_mtbt p /\ p_order p' = p_order p /\ p_lat p' = p_lat p /\
    p_toss p' = p_toss p /\ p_sweep p' = p_sweep p /\ p_wsr p' = p_wsr p /\ p_pr p' = p_pr p /\ p_g3 p' = p_g3 p /\
    p_ggr p' = p_ggr p /\ p_gwr p' = p_gwr p /\ p_orw p' = p_orw p /\ p_otr p' = p_otr p /\
    p_tprint p' = p_tprint p /\ p_tdisk p' = p_tdisk p /\ p_tmsg p' = p_tmsg p /\ p_trew p' = p_trew p.
Proof.
  intros N E show read seedE strOf p RS K. destruct (para_file_round show read seedE strOf p K RS) as (m & A & B).
  exists m, (no_seed p). split; [exact A|]. split; [exact B|]. repeat (split; [reflexivity|]). reflexivity.
Qed.
Print Assumptions C81_parameters_round_trip.
Definition ex_para : @para NumR string :=
  @mkPara NumR string 3 2%R 64 32 3 2 [4; 4] 1234567890123 1000 10 17 "5489 624" 1%R 2%R true 1%R 1%R [1%R; 2%R; 3%R; 4%R] [1%R; 1%R; 1%R] 60 600 60 60.
Example C81_case : para_ok ex_para /\ (forall e : string, Some ((fun x => x) e) = Some e).
Proof. split; [constructor; cbn; unfold is_int, is_uint, is_ll; try lia; repeat constructor; lia|reflexivity]. Qed.

(** the same for a message *)
Theorem C81_message_round_trip :
  forall (N : Num) (ms : @message N), - 2 ^ 31 <= ms_version ms < 2 ^ 31 -> msgLoad (toDict (msgToDict ms)) = Ok ms.
Proof. exact @msg_round. Qed.
Print Assumptions C81_message_round_trip.
Example C81_message_case : - 2 ^ 31 <= ms_version (@mkMsg NumR 7 2%R 1%R) < 2 ^ 31.
Proof. cbn. lia. Qed.

(** ** C82: the dictionaries of any reachable diagram are read back as exactly what was written *)
Theorem C82_diagram_through_dictionaries :
  forall (N : Num) (E : Type) (next : E -> Z * E) (c : @cfg N) (s : mstate) (d0 : diagram),
  cfg_ok c -> new_ok (c_lat c) -> history next c s -> constructed d0 ->
  List.length (Size (c_lat c)) = 2%nat -> Forall (fun n => n <= 2 ^ 31) (Size (c_lat c)) -> SublatVol (c_lat c) <= 2 ^ 31 ->
  let d := md s in
  exists F m d' fv fg fw, ToDict d = Ok F /\ dLoad (toDict (confToPy F)) [] = Ok m /\
    obind (confOfPy m) (fun F' => FromDict4 (c_tab c) F' d0) = Ok d' /\
    same_diagram fv fg fw d d' /\ structural c d' /\ (order d <> 0 -> order d' = order d).
Proof.
  intros N E next c s d0 C L H K S1 S2 S3 d.
  destruct (history_save_load next c s d0 C L H K) as (F & d' & fv & fg & fw & T & R & SD & ST & _ & O & _).
  exists F. eexists. exists d', fv, fg, fw. split; [exact T|]. split; [reflexivity|]. split.
  - rewrite (history_dict_round next c s [] _ F C L (Logic.conj S1 (Logic.conj S2 S3)) H T eq_refl eq_refl). exact R.
  - split; [exact SD|]. split; [exact ST|exact O].
Qed.
Print Assumptions C82_diagram_through_dictionaries.
Example C82_case : exists s, cfg_ok ex_cfg /\ new_ok (c_lat ex_cfg) /\ history ex_next ex_cfg s /\ mcount s = 1000 /\
  constructed (@diagram_new NumR) /\ List.length (Size (c_lat ex_cfg)) = 2%nat /\
  Forall (fun n => n <= 2 ^ 31) (Size (c_lat ex_cfg)) /\ SublatVol (c_lat ex_cfg) <= 2 ^ 31.
Proof.
  destruct ex_history as (s & H & Hc). exists s. split; [exact ex_cfg_ok|]. split; [exact ex_new_ok|].
  split; [exact H|]. split; [exact Hc|]. split; [repeat split|]. split; [reflexivity|]. split; [|cbn; lia].
  constructor; [cbn; lia|]. constructor; [cbn; lia|constructor].
Qed.

(** ** C83: loading a file into a dictionary does not replace what the dictionary holds *)
Theorem C83_load_keeps_old_entries :
  forall (N : Num) (o : @py N) (m m' : dict) (k : string), dLoad o m = Ok m' ->
  exists l, o = PDict l /\ dget k m' = match dget k m with Some v => Some v | None => dget k l end.
Proof. exact @load_get. Qed.
Print Assumptions C83_load_keeps_old_entries.
Example C83_case : dLoad (@PDict NumR [("Beta", @PFloat NumR 2%R)]) [("Version", PInt 1)] = Ok [("Beta", @PFloat NumR 2%R); ("Version", PInt 1)].
Proof. reflexivity. Qed.
Theorem C83_load_replaces_contents_refuted :
  exists (m m' : @dict NumR) l k v, dLoad (PDict l) m = Ok m' /\ dget k l = Some v /\ dget k m' <> Some v.
Proof. exists [("Version", PInt 1)], [("Version", PInt 1)], [("Version", PInt 2)], "Version", (PInt 2). repeat split. discriminate. Qed.
Print Assumptions C83_load_replaces_contents_refuted.

(** ** C84: the basis used for bosonic functions is the fermionic one, and BoseBasis.dat is not looked at *)
Theorem C84_bose_basis_is_fermi_basis :
  forall (N : Num) (beta : real) (fermi bose : @py N) F B, loadBasis beta fermi bose = Ok (F, B) ->
  B = F /\ forall l, loadBasis beta fermi (PDict l) = Ok (F, B).
Proof.
  intros N beta fermi bose F B H. split; [exact (basis_same _ _ _ _ _ H)|].
  intros l. eapply basis_ignores; [exact H|]. exists l. reflexivity.
Qed.
Print Assumptions C84_bose_basis_is_fermi_basis.
Definition basis_file {N : Num} (b x : real) : @py N :=
  PDict [("Beta", PFloat b); ("MaxTauBin", PInt 2); ("Number", PInt 1); ("Basis", PList [PList [PFloat x; PFloat x]])].
Lemma basis_loads {N : Num} (beta b x y : real) : rltb (e_abs (rsub beta beta)) eps10 = true ->
  loadBasis beta (basis_file beta x) (basis_file b y) = Ok ([[x; x]], [[x; x]]).
Proof. intros Q. unfold loadBasis, basis_file, dLoad, cvMapInto, readBasis. cbn -[rofZ e_abs eps10]. rewrite !Q. cbn -[rofZ e_abs eps10]. rewrite ?Q. reflexivity. Qed.
Lemma close_R (b : R) : @rltb NumR (e_abs (@rsub NumR b b)) eps10 = true.
Proof.
  change (Rltb (e_abs (N := NumR) (b - b)%R) (1 / IZR (10 ^ 10))%R = true). unfold Rltb. destruct (Rlt_dec _ _) as [|Hn]; [reflexivity|].
  exfalso. apply Hn. clear Hn. unfold e_abs. replace (b - b)%R with 0%R by lra.
  change (@rleb NumR (@rofZ NumR 0) 0%R) with (Rleb 0 0). unfold Rleb. destruct (Rle_dec 0 0); [|lra]. apply Rdiv_lt_0_compat; [lra|]. apply IZR_lt. reflexivity.
Qed.
Example C84_case : loadBasis (N := NumR) 2%R (basis_file (N := NumR) 2%R 1%R) (basis_file (N := NumR) 2%R 3%R) = Ok ([[1; 1]], [[1; 1]])%R.
Proof. exact (basis_loads (N := NumR) 2%R 2%R 1%R 3%R (close_R 2)). Qed.
(** what a user expects: the bosonic basis is the one of BoseBasis.dat, and its Beta must match *)
Theorem C84_bose_basis_is_loaded_refuted :
  exists (beta b x y : R) F B, b <> beta /\ y <> x /\
    loadBasis (N := NumR) beta (basis_file (N := NumR) beta x) (basis_file (N := NumR) b y) = Ok (F, B) /\ B <> [[y; y]].
Proof.
  exists 2%R, 5%R, 1%R, 3%R, [[1; 1]]%R, [[1; 1]]%R. split; [lra|]. split; [lra|].
  split; [exact (basis_loads (N := NumR) 2%R 5%R 1%R 3%R (close_R 2))|]. intros X. injection X as X. lra.
Qed.
Print Assumptions C84_bose_basis_is_loaded_refuted.

(** ** C85: integers *)
Theorem C85_in_range_integers_exact :
  forall (N : Num) (z : Z),
  (- 2 ^ 31 <= z < 2 ^ 31 -> cvInt (@PInt N z) = Some z) /\ (0 <= z < 2 ^ 32 -> cvUInt (@PInt N z) = Some z) /\
  (- 2 ^ 63 <= z < 2 ^ 63 -> cvLL (@PInt N z) = Some z).
Proof. intros N z. split; [exact (cvInt_ok z)|]. split; [exact (cvUInt_ok z)|exact (cvLL_ok z)]. Qed.
Print Assumptions C85_in_range_integers_exact.
Example C85_case : - 2 ^ 31 <= -7 < 2 ^ 31 /\ 0 <= 4000000000 < 2 ^ 32.
Proof. lia. Qed.
(** an integer that does not fit is not refused: 2^32 becomes Order 0, -1 time bins become 2^32-1 *)
Theorem C85_out_of_range_rejected_refuted :
  exists z z' a b, ~ (- 2 ^ 31 <= z < 2 ^ 31) /\ cvInt (@PInt NumR z) = Some a /\ a <> z /\
    z' < 0 /\ cvUInt (@PInt NumR z') = Some b /\ b <> z'.
Proof. exists (2 ^ 32), (-1), 0, (2 ^ 32 - 1). repeat split; try reflexivity; lia. Qed.
Print Assumptions C85_out_of_range_rejected_refuted.

(** ** C86: what ParaMC::FromDict lets pass *)
Theorem C86_accepted_parameters :
  forall (N : Num) (E : Type) (read : string -> option E) (seedE : Z -> E) (strOf : py -> string) (m : @dict N) p,
  paraFromDict read seedE strOf m = Ok p -> Z.of_nat (List.length (p_orw p)) < 2 ^ 63 ->
  -1 <= p_order p <= 9 /\ p_order p < Z.of_nat (List.length (p_orw p)) /\ List.length (p_L p) = 2%nat.
Proof. intros N E read seedE strOf m p H L. destruct (para_accepted read seedE strOf m p H L) as (A & B & C & _). auto. Qed.
Print Assumptions C86_accepted_parameters.
Definition ex_read (s : string) : option string := Some s.
Definition para_dict (order toss L0 : Z) : @dict NumR :=
  let p := @mkPara NumR string 3 2%R 64 32 order 2 [L0; 4] 0 toss 10 17 "s" 1%R 2%R true 1%R 1%R [1%R; 2%R; 3%R; 4%R] [1%R] 60 600 60 60 in
  paraToDict (fun s => s) p.
Example C86_case : exists p, paraFromDict ex_read (fun _ => "") (fun _ => "") (para_dict 3 1000 4) = Ok p /\
  Z.of_nat (List.length (p_orw p)) < 2 ^ 63 /\ p_order p = 3.
Proof. eexists. split; [reflexivity|]. split; [cbn; lia|reflexivity]. Qed.
(** it does not follow that the parameters make sense: Order -1, a negative number of thermalisation
    steps and a lattice without sites all pass *)
Theorem C86_accepted_parameters_sensible_refuted :
  exists (m : @dict NumR) p, paraFromDict ex_read (fun _ => "") (fun _ => "") m = Ok p /\
    p_order p = -1 /\ p_toss p < 0 /\ nth 0 (p_L p) 1 = 0.
Proof. exists (para_dict (-1) (-5) 0). eexists. split; [reflexivity|]. repeat split. Qed.
Print Assumptions C86_accepted_parameters_sensible_refuted.
