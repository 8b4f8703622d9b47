(** ParaMC::FromDict uses the values of the file *)
From Coq Require Import ZArith List Bool Arith Lia String.
From Verif Require Import Base Num PyDict Param P_WP P_Monitor P_Param P_ParamIO.
Import ListNotations.
Open Scope string_scope.
Open Scope Z_scope.

Section PP2.
Context {N : Num}.
Notation py := (@py N).
Notation dict := (@dict N).
(** *** specification: which value a Python object stands for *)
(** the integer [n]; True and False are integers *)
Definition integer (v : py) (n : Z) : Prop := v = PInt n \/ (v = PBool true /\ n = 1) \/ (v = PBool false /\ n = 0).
(** [z] is the integer of the file provided it is at least [lo] and less than [hi] *)
Definition whole (lo hi z : Z) (v : py) : Prop := exists n, integer v n /\ (lo <= n < hi -> z = n).
Definition wholeI := whole (- 2 ^ 31) (2 ^ 31).
Definition wholeU := whole 0 (2 ^ 32).
Definition wholeL := whole (- 2 ^ 63) (2 ^ 63).
Definition number (x : real) (v : py) : Prop := v = PFloat x \/ exists n, integer v n /\ x = rofZ n.
Definition truth (b : bool) (v : py) : Prop := v = PBool b.
Definition each {A} (Q : A -> py -> Prop) (l : list A) (v : py) : Prop := exists o, v = PList o /\ Forall2 Q l o.
(** the entry [k] of the dictionary [m] *)
Definition entry (k : string) (m : dict) (Q : py -> Prop) : Prop := exists v, dget k m = Some v /\ Q v.
Definition section (k : string) (m : dict) (s : dict) : Prop := dget k m = Some (PDict s).
Definition optional (k : string) (m : dict) (Q : py -> Prop) (D : Prop) : Prop := match dget k m with Some v => Q v | None => D end.

Lemma asInt_spec v n : asInt v = Some n -> integer v n.
Proof. unfold integer. destruct v; cbn; intros H; try discriminate H; injection H as <-; auto. destruct b; auto. Qed.
Lemma cvInt_spec v z : cvInt v = Some z -> wholeI z v.
Proof.
  unfold cvInt. intros H. destruct (asInt v) as [n|] eqn:A; [|discriminate]. cbn in H. injection H as <-. exists n. split; [now apply asInt_spec|]. intros R.
  unfold asLong, in_s64. destruct (Z.leb_spec (- 2 ^ 63) n); [|lia]. destruct (Z.ltb_spec n (2 ^ 63)); [|lia]. cbn [andb]. apply s32_id; exact R.
Qed.
Lemma cvUInt_spec v z : cvUInt v = Some z -> wholeU z v.
Proof.
  unfold cvUInt. intros H. destruct (asInt v) as [n|] eqn:A; [|discriminate]. cbn in H. injection H as <-. exists n. split; [now apply asInt_spec|]. intros R.
  unfold asULong. destruct (Z.leb_spec 0 n); [|lia]. destruct (Z.ltb_spec n (2 ^ 64)); [|lia]. cbn [andb]. unfold u32. apply Z.mod_small. lia.
Qed.
Lemma cvLL_spec v z : cvLL v = Some z -> wholeL z v.
Proof.
  unfold cvLL. intros H. destruct (asInt v) as [n|] eqn:A; [|discriminate]. cbn in H. injection H as <-. exists n. split; [now apply asInt_spec|]. intros R.
  unfold asLong, in_s64. destruct (Z.leb_spec (- 2 ^ 63) n); [|lia]. destruct (Z.ltb_spec n (2 ^ 63)); [|lia]. reflexivity.
Qed.
Lemma cvReal_spec v x : cvReal v = Some x -> number x v.
Proof.
  unfold cvReal. intros H. assert (G : option_map rofZ (asInt v) = Some x -> number x v).
  { intros Q. destruct (asInt v) as [n|] eqn:A; [|discriminate]. injection Q as <-. right. exists n. split; [now apply asInt_spec|reflexivity]. }
  destruct v; auto. injection H as <-. now left.
Qed.
Lemma cvBool_spec v b : cvBool v = Some b -> truth b v.
Proof. destruct v; intros H; try discriminate H. now injection H as <-. Qed.
Lemma cvAll_spec {A} (f : py -> option A) (Q : A -> py -> Prop) : (forall v a, f v = Some a -> Q a v) -> forall o l, cvAll f o = Some l -> Forall2 Q l o.
Proof.
  intros HQ. induction o as [|v o IH]; cbn; intros l H; [injection H as <-; constructor|]. destruct (f v) as [a|] eqn:F; [|discriminate]. destruct (cvAll f o) as [q|] eqn:G; [|discriminate].
  injection H as <-. constructor; auto.
Qed.
Lemma cvList_spec {A} (f : py -> option A) (Q : A -> py -> Prop) : (forall v a, f v = Some a -> Q a v) -> forall v l, cvList f v = Some l -> each Q l v.
Proof. intros HQ v l H. destruct v as [| | | | |o| |]; try discriminate. exists o. split; [reflexivity|]. now apply (cvAll_spec f Q HQ). Qed.
Lemma dGet_spec {A} (f : py -> option A) (Q : A -> py -> Prop) : (forall v a, f v = Some a -> Q a v) -> forall k m a, dGet f k m = Ok a -> entry k m (Q a).
Proof. intros HQ k m a H. unfold dGet in H. destruct (dget k m) as [v|] eqn:D; [|discriminate]. destruct (f v) as [b|] eqn:F; [|discriminate]. injection H as <-. exists v. auto. Qed.
Lemma dGetOr_spec {A} (f : py -> option A) (Q : A -> py -> Prop) : (forall v a, f v = Some a -> Q a v) -> forall k m a d, dGetOr f k d m = Ok a -> optional k m (Q a) (a = d).
Proof.
  intros HQ k m a d H. unfold dGetOr, dhas in H. unfold optional. destruct (dget k m) as [v|] eqn:D; [|now injection H]. destruct (dGet_spec f Q HQ k m a H) as (v' & D' & Y). rewrite D in D'. now injection D' as <-.
Qed.
(** a section is read key by key: only the first entry for a key counts *)
Lemma dGet_section k m s : dGet cvDict k m = Ok s -> exists s', section k m s' /\ forall j, dget j s = dget j s'.
Proof.
  unfold dGet. destruct (dget k m) as [v|] eqn:D; [|discriminate]. destruct (cvDict v) as [s2|] eqn:C; [|discriminate]. intros H. injection H as <-. destruct v as [| | | | | | |l]; try discriminate.
  exists l. split; [exact D|]. intros j. exact (dget_cv j l s2 C).
Qed.
Lemma entry_eq k m m' Q : (forall j, dget j m = dget j m') -> entry k m Q -> entry k m' Q.
Proof. intros H (v & D & X). exists v. rewrite <- H. auto. Qed.
Lemma optional_eq k m m' Q D : (forall j, dget j m = dget j m') -> optional k m Q D -> optional k m' Q D.
Proof. intros H X. unfold optional. now rewrite <- H. Qed.

Context {E : Type} (read : string -> option E) (seedE : Z -> E) (strOf : py -> string).
Theorem para_reads (m : dict) (p : @para N E) : paraFromDict read seedE strOf m = Ok p ->
  exists tau lat mk tm seed,
    section "Tau" m tau /\ section "Lattice" m lat /\ section "Markov" m mk /\ section "Timer" mk tm /\
    optional "Version" m (wholeI (p_version p)) (p_version p = 0) /\
    entry "Beta" tau (number (p_beta p)) /\ entry "MaxTauBin" tau (wholeU (p_mtb p)) /\ entry "MaxTauBinTiny" tau (wholeU (p_mtbt p)) /\
    entry "NSublat" lat (wholeI (p_nsub p)) /\ entry "L" lat (each wholeI (p_L p)) /\
    entry "Toss" mk (wholeI (p_toss p)) /\ entry "Sweep" mk (wholeI (p_sweep p)) /\ entry "Order" mk (wholeI (p_order p)) /\
    entry "WormSpaceReweight" mk (number (p_wsr p)) /\ entry "PolarReweight" mk (number (p_pr p)) /\
    entry "runGamma3" mk (truth (p_g3 p)) /\ entry "GammaGReweight" mk (number (p_ggr p)) /\ entry "GammaWReweight" mk (number (p_gwr p)) /\
    entry "OrderReWeight" mk (each number (p_orw p)) /\ entry "OrderTimeRatio" mk (each number (p_otr p)) /\
    optional "Counter" mk (wholeL (p_counter p)) (p_counter p = 0) /\ optional "Seed" mk (wholeI seed) (seed = 0) /\
    optional "RNG" mk (fun v => match v with PStr s => read s = Some (p_rng p) | _ => read (strOf v) = Some (p_rng p) end) (p_rng p = seedE seed) /\
    entry "PrinterTimer" tm (wholeI (p_tprint p)) /\ entry "DiskWriterTimer" tm (wholeI (p_tdisk p)) /\
    entry "MessageTimer" tm (wholeI (p_tmsg p)) /\ entry "ReweightTimer" tm (wholeI (p_trew p)).
Proof.
  unfold paraFromDict. intros H.
  apply obind_ok in H as (version & E1 & H). apply obind_ok in H as (tau & E2 & H). apply obind_ok in H as (beta & E3 & H). apply obind_ok in H as (mtb & E4 & H). apply obind_ok in H as (mtbt & E5 & H).
  apply obind_ok in H as (lt & E6 & H). apply obind_ok in H as (nsub & E7 & H). apply obind_ok in H as (L0 & E8 & H). apply obind_ok in H as (L & E9 & H). destruct (negb _); [discriminate|].
  apply obind_ok in H as (mk & E10 & H). apply obind_ok in H as (toss & E11 & H). apply obind_ok in H as (sweep & E12 & H). apply obind_ok in H as (wsr & E13 & H). apply obind_ok in H as (pr & E14 & H).
  apply obind_ok in H as (g3 & E15 & H). apply obind_ok in H as (ggr & E16 & H). apply obind_ok in H as (gwr & E17 & H). apply obind_ok in H as (orw & E18 & H). apply obind_ok in H as (otr & E19 & H).
  apply obind_ok in H as (order & E20 & H). apply obind_ok in H as (counter & E21 & H). apply obind_ok in H as (seed & E22 & H). apply obind_ok in H as (rng & E23 & H). destruct (negb _); [discriminate|]. destruct (_ <? _); [discriminate|].
  apply obind_ok in H as (t & E24 & H). apply obind_ok in H as (t1 & E25 & H). apply obind_ok in H as (t2 & E26 & H). apply obind_ok in H as (t3 & E27 & H). apply obind_ok in H as (t4 & E28 & H). injection H as <-.
  cbn [p_version p_beta p_mtb p_mtbt p_order p_nsub p_L p_counter p_toss p_sweep p_rng p_wsr p_pr p_g3 p_ggr p_gwr p_orw p_otr p_tprint p_tdisk p_tmsg p_trew].
  apply dGet_section in E2 as (tau' & ST & T). apply dGet_section in E6 as (lt' & SL & LL). apply dGet_section in E10 as (mk' & SM & M). apply dGet_section in E24 as (t' & STM & TM).
  exists tau', lt', mk', t', seed. unfold section in *. rewrite M in STM.
  split; [exact ST|]. split; [exact SL|]. split; [exact SM|]. split; [exact STM|].
  split; [exact (dGetOr_spec _ wholeI cvInt_spec _ _ _ _ E1)|].
  split; [exact (entry_eq _ _ _ _ T (dGet_spec _ number cvReal_spec _ _ _ E3))|].
  split; [exact (entry_eq _ _ _ _ T (dGet_spec _ wholeU cvUInt_spec _ _ _ E4))|].
  split; [exact (entry_eq _ _ _ _ T (dGet_spec _ wholeU cvUInt_spec _ _ _ E5))|].
  split; [exact (entry_eq _ _ _ _ LL (dGet_spec _ wholeI cvInt_spec _ _ _ E7))|].
  split; [exact (entry_eq _ _ _ _ LL (dGet_spec _ (each wholeI) (cvList_spec _ _ cvInt_spec) _ _ _ E9))|].
  split; [exact (entry_eq _ _ _ _ M (dGet_spec _ wholeI cvInt_spec _ _ _ E11))|].
  split; [exact (entry_eq _ _ _ _ M (dGet_spec _ wholeI cvInt_spec _ _ _ E12))|].
  split; [exact (entry_eq _ _ _ _ M (dGet_spec _ wholeI cvInt_spec _ _ _ E20))|].
  split; [exact (entry_eq _ _ _ _ M (dGet_spec _ number cvReal_spec _ _ _ E13))|].
  split; [exact (entry_eq _ _ _ _ M (dGet_spec _ number cvReal_spec _ _ _ E14))|].
  split; [exact (entry_eq _ _ _ _ M (dGet_spec _ truth cvBool_spec _ _ _ E15))|].
  split; [exact (entry_eq _ _ _ _ M (dGet_spec _ number cvReal_spec _ _ _ E16))|].
  split; [exact (entry_eq _ _ _ _ M (dGet_spec _ number cvReal_spec _ _ _ E17))|].
  split; [exact (entry_eq _ _ _ _ M (dGet_spec _ (each number) (cvList_spec _ _ cvReal_spec) _ _ _ E18))|].
  split; [exact (entry_eq _ _ _ _ M (dGet_spec _ (each number) (cvList_spec _ _ cvReal_spec) _ _ _ E19))|].
  split; [exact (optional_eq _ _ _ _ _ M (dGetOr_spec _ wholeL cvLL_spec _ _ _ _ E21))|].
  split; [exact (optional_eq _ _ _ _ _ M (dGetOr_spec _ wholeI cvInt_spec _ _ _ _ E22))|].
  split; [|].
  { apply (optional_eq _ _ _ _ _ M). unfold optional. unfold dhas in E23. destruct (dget "RNG" mk) as [v|] eqn:D; [|now injection E23].
    unfold dGet in E23. rewrite D in E23. destruct (cvRNG read strOf v) as [r|] eqn:C; [|discriminate]. injection E23 as <-. unfold cvRNG in C. destruct v; auto. }
  split; [exact (entry_eq _ _ _ _ TM (dGet_spec _ wholeI cvInt_spec _ _ _ E25))|].
  split; [exact (entry_eq _ _ _ _ TM (dGet_spec _ wholeI cvInt_spec _ _ _ E26))|].
  split; [exact (entry_eq _ _ _ _ TM (dGet_spec _ wholeI cvInt_spec _ _ _ E27))|].
  exact (entry_eq _ _ _ _ TM (dGet_spec _ wholeI cvInt_spec _ _ _ E28)).
Qed.
End PP2.
