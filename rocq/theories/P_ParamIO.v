(** * A reachable diagram goes through Python dictionaries unchanged *)
From Coq Require Import ZArith List Bool Arith Lia.
From Verif Require Import Base Num Lattice Momentum Bundle IndexMap Weights Diagram Markov DiagramIO DiagramCheck History
  P_RNG P_Bundle P_IndexMap P_WP P_Inv P_Hop P_Fix P_IO P_History P_Promises P_IOProm PyDict ConfigPy P_Param.
Import ListNotations.
Open Scope Z_scope.

Section PIO.
Context {N : Num}.

Definition small_lat (L : lattice) : Prop :=
  List.length (Size L) = DIM /\ Forall (fun n => n <= 2 ^ 31) (Size L) /\ SublatVol L <= 2 ^ 31.

Lemma vec_ints (L : lattice) v : vec_ok L v -> Forall (fun n => n <= 2 ^ 31) (Size L) -> List.length v = List.length (Size L) /\ Forall is_int v.
Proof.
  unfold vec_ok. intros V F. revert F. induction V as [|x n l l' H V IH]; intros F; [split; [reflexivity|constructor]|].
  inversion_clear F. destruct IH as [A B]; [assumption|]. split; [cbn; lia|]. constructor; [unfold is_int; lia|assumption].
Qed.
Lemma nm_is b v : BInv b -> live b v -> is_name (nm b v).
Proof. intros B [_ H]. pose proof (bi_av b B). unfold is_name, is_int. lia. Qed.
Lemma in_map_live {A} (f : nat -> A) (Q : A -> Prop) b : BInv b -> (forall x, live b x -> Q (f x)) -> Forall Q (map f (liveL b)).
Proof. intros B H. apply Forall_forall. intros y Hy. apply in_map_iff in Hy as (x & <- & Hx). apply H. now apply liveL_in. Qed.

Lemma tconf_fits c d : small_lat (c_lat c) -> Inv c d -> fits (tconf d).
Proof.
  intros (L1 & L2 & L3) HI. pose proof (Inv_Pre c d HI) as P. constructor; cbn [tconf cf_v cf_g cf_w cf_worm].
  - apply in_map_live; [apply P|]. intros v Lv. destruct (i_site _ _ HI v Lv) as [S1 S2].
    destruct (vec_ints _ _ S2 L2) as [V1 V2]. unfold v_fits; cbn [tv vd_name vd_R]. split; [apply nm_is; [apply P|exact Lv]|].
    split; [unfold is_int; lia|]. split; [congruence|exact V2].
  - apply in_map_live; [apply P|]. intros g Lg. unfold g_fits; cbn [tg gd_in gd_out gd_K].
    split; [apply nm_is; [apply P|now apply P]|]. split; [apply nm_is; [apply P|now apply P]|].
    pose proof (proj1 (i_hG _ _ HI) g Lg) as K. unfold kindex, MAX_K in K. unfold is_int. lia.
  - apply in_map_live; [apply P|]. intros w Lw. unfold w_fits; cbn [tw wd_in wd_out wd_K].
    split; [apply nm_is; [apply P|now apply P]|]. split; [apply nm_is; [apply P|now apply P]|].
    pose proof (proj1 (i_hW _ _ HI) w Lw) as K. unfold kabs, MAX_K in K. unfold is_int. lia.
  - unfold two. destruct (wm_ex d) eqn:Ex; [|exact I].
    destruct (p_worm _ _ P Ex) as (Li & Lm & _ & _ & Ds & K). unfold worm_fits; cbn.
    split; [apply nm_is; [apply P|exact Li]|]. split; [apply nm_is; [apply P|exact Lm]|].
    unfold inrange, MAX_K in K. unfold is_int. split; lia.
Qed.

Theorem history_dict_round {E} (next : E -> Z * E) (c : @cfg N) (s : mstate) (m0 m : dict) F :
  cfg_ok c -> new_ok (c_lat c) -> small_lat (c_lat c) -> history next c s ->
  ToDict (md s) = Ok F -> cvMapInto (toDict (confToPy F)) m0 = Some m -> m0 = [] -> confOfPy m = Ok F.
Proof.
  intros C L SL H T M ->. pose proof (history_inv next c s C L H) as HI.
  rewrite (ToDict_spec c _ (Inv_Pre c _ HI)) in T. injection T as <-.
  apply conf_round; [now apply (tconf_fits c)|]. intros k. destruct (cvDict_some (confToPy (tconf (md s)))) as (m' & M1 & M2).
  unfold cvDict in M1. rewrite M in M1. injection M1 as ->. apply M2.
Qed.
End PIO.

(** ** Dictionaries loaded twice, basis files *)
From Coq Require Import String.
From Verif Require Import Param.
Open Scope string_scope.
Open Scope Z_scope.
Section Basis.
Context {N : Num}.

Lemma load_get o m m' k : dLoad o m = Ok m' -> exists l, o = PDict l /\
  dget k m' = match dget k m with Some v => Some v | None => dget k l end.
Proof.
  unfold dLoad, cvMapInto. destruct o; try discriminate. intros H. injection H as <-.
  exists l. split; [reflexivity|]. apply dget_inss.
Qed.
Lemma readBasis_ext beta m m' : (forall k v, dget k m = Some v -> dget k m' = Some v) ->
  forall F, readBasis beta m = Ok F -> readBasis beta m' = Ok F.
Proof.
  intros M F. unfold readBasis, dGet.
  destruct (dget "Beta" m) as [o1|] eqn:E1; [|discriminate]. rewrite (M _ _ E1).
  destruct (cvReal o1); [|discriminate]. cbn [obind]. destruct (negb _); [discriminate|].
  destruct (dget "MaxTauBin" m) as [o2|] eqn:E2; [|discriminate]. rewrite (M _ _ E2). destruct (cvReal o2); [|discriminate]. cbn [obind].
  destruct (dget "Number" m) as [o3|] eqn:E3; [|discriminate]. rewrite (M _ _ E3). destruct (cvReal o3); [|discriminate]. cbn [obind].
  destruct (dget "Basis" m) as [o4|] eqn:E4; [|discriminate]. rewrite (M _ _ E4). auto.
Qed.
Lemma basis_same beta fermi bose F B : loadBasis beta fermi bose = Ok (F, B) -> B = F.
Proof.
  unfold loadBasis. destruct (dLoad fermi []) as [m| |] eqn:L1; [|discriminate|discriminate]. cbn [obind].
  destruct (readBasis beta m) as [F0| |] eqn:R1; [|discriminate|discriminate]. cbn [obind].
  destruct (dLoad bose m) as [m'| |] eqn:L2; [|discriminate|discriminate]. cbn [obind].
  rewrite (readBasis_ext beta m m') with (F := F0).
  - cbn [obind]. congruence.
  - intros k v G. destruct (load_get bose m m' k L2) as (l & _ & D). now rewrite D, G.
  - exact R1.
Qed.
(** the second file does not matter at all, as long as it evaluates to a dictionary *)
Lemma basis_ignores beta fermi bose bose' F B : loadBasis beta fermi bose = Ok (F, B) ->
  (exists l, bose' = PDict l) -> loadBasis beta fermi bose' = Ok (F, B).
Proof.
  intros H (l & ->). pose proof (basis_same _ _ _ _ _ H) as ->. revert H. unfold loadBasis.
  destruct (dLoad fermi []) as [m| |] eqn:L1; [|discriminate|discriminate]. cbn [obind].
  destruct (readBasis beta m) as [F0| |] eqn:R1; [|discriminate|discriminate]. cbn [obind].
  destruct (dLoad bose m) as [m'| |] eqn:L2; [|discriminate|discriminate]. cbn [obind].
  intros H. assert (F0 = F) as ->. { destruct (readBasis beta m') as [x| |]; cbn [obind] in H; congruence. }
  destruct (dLoad (PDict l) m) as [m2| |] eqn:L3; [|discriminate|discriminate]. cbn [obind].
  rewrite (readBasis_ext beta m m2) with (F := F); [reflexivity| |exact R1].
  intros k v G. destruct (load_get _ m m2 k L3) as (q & _ & D). now rewrite D, G.
Qed.

(** ** What parameters pass *)
Lemma cvInt_range (o : @py N) z : cvInt o = Some z -> is_int z.
Proof. unfold cvInt. destruct (asInt o); [|discriminate]. cbn. intros H. injection H as <-. apply s32_range. Qed.
Lemma cvUInt_range (o : @py N) z : cvUInt o = Some z -> is_uint z.
Proof. unfold cvUInt. destruct (asInt o); [|discriminate]. cbn. intros H. injection H as <-. unfold is_uint, u32. apply Z.mod_pos_bound. lia. Qed.
Lemma cvLL_range (o : @py N) z : cvLL o = Some z -> is_ll z.
Proof. unfold cvLL. destruct (asInt o); [|discriminate]. cbn. intros H. injection H as <-. unfold asLong, is_ll, in_s64.
  destruct (Z.leb_spec (- 2 ^ 63) z0); destruct (Z.ltb_spec z0 (2 ^ 63)); cbn [andb]; lia. Qed.
Lemma dGet_range {A} (f : @py N -> option A) (Q : A -> Prop) k m a : (forall o z, f o = Some z -> Q z) -> dGet f k m = Ok a -> Q a.
Proof. intros H. unfold dGet. destruct (dget k m); [|discriminate]. destruct (f p) eqn:E; [|discriminate]. intros X. injection X as <-. eauto. Qed.
Lemma dGetOr_range {A} (f : @py N -> option A) (Q : A -> Prop) k a0 m a : (forall o z, f o = Some z -> Q z) -> Q a0 -> dGetOr f k a0 m = Ok a -> Q a.
Proof. intros H H0. unfold dGetOr. destruct (dhas k m); [now apply dGet_range|]. intros X. now injection X as <-. Qed.
Lemma cvList_range {A} (f : @py N -> option A) (Q : A -> Prop) o l : (forall o z, f o = Some z -> Q z) -> cvList f o = Some l -> Forall Q l.
Proof.
  intros H. unfold cvList. destruct o as [| | | | |l0| |]; try discriminate. revert l. induction l0 as [|x r IH]; cbn; intros l E.
  - injection E as <-. constructor.
  - destruct (f x) eqn:Ef; [|discriminate]. destruct (cvAll f r); [|discriminate]. injection E as <-. constructor; eauto.
Qed.

Theorem para_accepted {E} (read : string -> option E) seedE strOf (m : @dict N) p : paraFromDict read seedE strOf m = Ok p ->
  Z.of_nat (List.length (p_orw p)) < 2 ^ 63 ->
  -1 <= p_order p <= 9 /\ p_order p < Z.of_nat (List.length (p_orw p)) /\ List.length (p_L p) = DIM /\
  is_int (p_version p) /\ is_uint (p_mtb p) /\ is_uint (p_mtbt p) /\ is_int (p_nsub p) /\ Forall is_int (p_L p) /\
  is_ll (p_counter p) /\ is_int (p_toss p) /\ is_int (p_sweep p) /\ is_int (p_tprint p) /\ is_int (p_tdisk p) /\
  is_int (p_tmsg p) /\ is_int (p_trew p).
Proof.
  unfold paraFromDict.
  repeat lazymatch goal with
  | |- obind ?x _ = Ok p -> _ => let E := fresh "E" in destruct x eqn:E; cbn [obind]; [|discriminate|discriminate]
  | |- (if negb ?b then Abort else _) = Ok p -> _ => let E := fresh "E" in destruct b eqn:E; cbn [negb]; [|discriminate]
  | |- (if ?b then Abort else _) = Ok p -> _ => let E := fresh "E" in destruct b eqn:E; [discriminate|]
  end.
  intros X. injection X as <-. intros LEN. revert LEN. cbn [p_order p_orw p_L p_version p_mtb p_mtbt p_nsub p_counter p_toss p_sweep p_tprint p_tdisk p_tmsg p_trew].
  repeat match goal with
  | H : dGet cvInt _ _ = Ok _ |- _ => apply (dGet_range cvInt is_int) in H; [|exact cvInt_range]
  | H : dGet cvUInt _ _ = Ok _ |- _ => apply (dGet_range cvUInt is_uint) in H; [|exact cvUInt_range]
  | H : dGetOr cvInt _ _ _ = Ok _ |- _ => apply (dGetOr_range cvInt is_int) in H; [|exact cvInt_range|unfold is_int; lia]
  | H : dGetOr cvLL _ _ _ = Ok _ |- _ => apply (dGetOr_range cvLL is_ll) in H; [|exact cvLL_range|unfold is_ll; lia]
  | H : dGet (cvList cvInt) _ _ = Ok _ |- _ => apply (dGet_range (cvList cvInt) (Forall is_int)) in H; [|intros ? ?; apply cvList_range; exact cvInt_range]
  | H : Nat.eqb _ _ = true |- _ => apply Nat.eqb_eq in H
  | H : (_ <? _)%Z = true |- _ => apply Z.ltb_lt in H
  | H : (_ <? _)%Z = false |- _ => apply Z.ltb_ge in H
  end.
  intros LEN.
  match goal with H : u64 (?o + 1) <= Z.of_nat (List.length ?l), K : is_int ?o |- _ =>
    assert (O : -1 <= o); [destruct (Z.le_gt_cases (-1) o) as [Y|Y]; [exact Y|exfalso];
      unfold u64, is_int in *; rewrite <- (Z_mod_plus_full (o + 1) 1), Z.mod_small in H by lia; lia|
      unfold u64, is_int in H, K; rewrite Z.mod_small in H by lia] end.
  split; [split; [exact O|lia]|]. split; [lia|]. split; [congruence|]. repeat (split; [assumption|]). assumption.
Qed.
End Basis.
