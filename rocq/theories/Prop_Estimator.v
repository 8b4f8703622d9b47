(** Scalar estimators: C43 and C53-C58. See DESIGN.md. *)
From Coq Require Import ZArith List Bool Arith Lia Reals Lra String.
From Verif Require Import Base Num NumR Estimator P_Estimator.
Import ListNotations.
Open Scope Z_scope.

(** ** C43: the estimate is the average of the measurements *)
(** [Measure] accumulates the exact sum and one unit of norm per sample. *)
Theorem C43_accumulates : forall (l : list R),
  let e := fold_left (fun e x => @eMeasure NumR x e) l est_new in
  eValue e = fold_right Rplus 0%R l /\ eNorm e = (1 + INR (List.length l))%R /\
  fst (fst (eEstimate e)) = (fold_right Rplus 0 l / (1 + INR (List.length l)))%R.
Proof.
  intros l e. assert (E : eValue e = fold_right Rplus 0%R l /\ eNorm e = (1 + INR (List.length l))%R).
  { unfold e. rewrite measures. unfold eValue, eNorm, s_norm, s_acc. cbn [e_acc e_norm]. split; [|reflexivity].
    change (0 + rsum l = fold_right Rplus 0 l)%R. unfold rsum. ring. }
  destruct E as [E1 E2]. split; [exact E1|]. split; [exact E2|].
  unfold eEstimate. cbn [fst]. destruct (update_hist e) as (_ & _ & _ & _ & _ & ->).
  change (e_acc e) with (eValue e). change (e_norm e) with (eNorm e). now rewrite E1, E2.
Qed.
Print Assumptions C43_accumulates.
(** the norm starts at one, so the reported mean is not the average of the samples *)
Theorem C43_mean_is_average_refuted : exists l : list R, l <> [] /\
  fst (fst (eEstimate (fold_left (fun e x => @eMeasure NumR x e) l est_new))) <> (fold_right Rplus 0 l / INR (List.length l))%R.
Proof.
  exists [1%R]. split; [discriminate|]. destruct (C43_accumulates [1%R]) as (_ & _ & ->). cbn. lra.
Qed.
Print Assumptions C43_mean_is_average_refuted.

(** ** C53: the history never overflows and only thins *)
Theorem C53_history_bounded : forall {N : Num} (l : list eop), Forall eop_ok l ->
  exists e, erun l est_new = Ok e /\ e_end e <= HSIZE /\ sub (e_hist e) (trace l est_new []) /\
    (Z.of_nat (List.length (trace l est_new [])) <= HSIZE -> e_hist e = trace l est_new []).
Proof.
  intros N l F. destruct (erun_inv l est_new [] F EI_new) as (e & E & H1 & H2 & H3). exists e.
  split; [exact E|]. split; [exact H1|]. split; [exact H2|]. intros L. exact (proj1 (H3 L)).
Qed.
Print Assumptions C53_history_bounded.
Theorem C53_squeeze_guard : forall {N : Num} (f : real) (e : est), rltb (rofZ 0) f = false -> eSqueeze f e = Abort.
Proof. intros N f e H. unfold eSqueeze. now rewrite H. Qed.
Print Assumptions C53_squeeze_guard.
(** a run with measurements, three records (one dropped by the clear) and a squeeze *)
Example C53_case : let l := [@OMeasure NumR 3%R; OAdd; OClear; @OMeasure NumR 1%R; OAdd; @OSqueeze NumR 2%R; @OMeasure NumR 2%R; OAdd; OEstimate] in
  Forall (@eop_ok NumR) l /\ trace l (@est_new NumR) [] = [(1 / 2)%R; (5 / 4)%R].
Proof.
  cbv zeta. assert (P : @rltb NumR (rofZ 0) 2%R = true) by (apply Rltb_spec; change (0 < 2)%R; lra). split.
  - repeat (constructor; [first [exact I|exact P]|]). constructor.
  - unfold trace, eop1, eAdd, eSqueeze. rewrite P.
    assert (Q : forall a b c d : R, a = c -> b = d -> [a; b] = [c; d]) by (now intros; subst).
    transitivity [((0 + 1) / (1 + 1))%R; (((0 + 1) / 2 + 2) / ((1 + 1) / 2 + 1))%R]; [reflexivity|]. apply Q; field.
Qed.

(** ** C54: saving and loading *)
Theorem C54_save_load : forall {N : Num} (l : list eop) (e e0 : est), Forall eop_ok l -> erun l est_new = Ok e ->
  exists e', eFromDict (eToDict e) e0 = Ok e' /\
  eValue e' = eValue e /\ eNorm e' = eNorm e /\ e_hist e' = e_hist e /\
  fst (fst (eEstimate e')) = fst (fst (eEstimate e)) /\
  (e_hist e <> [] -> snd (fst (eEstimate e')) = snd (fst (eEstimate e))).
Proof.
  intros N l e e0 F E. destruct (erun_inv l est_new [] F EI_new) as (e1 & E1 & H1 & _). rewrite E in E1. injection E1 as <-.
  destruct (save_load e e0 H1) as (e' & A1 & A2 & A3 & A4 & A5 & A6). exists e'. repeat (split; [assumption|]). intros Ne. now rewrite (A5 Ne).
Qed.
Print Assumptions C54_save_load.
(** the recording interval is not saved: the next AddStatistics records after a reload, not before it *)
Theorem C54_continues_identically_refuted : forall {N : Num}, exists l e e' r r',
  Forall eop_ok l /\ erun l est_new = Ok e /\ eFromDict (eToDict e) est_new = Ok e' /\
  eAdd e = Ok r /\ eAdd e' = Ok r' /\ e_hist r <> e_hist r'.
Proof.
  intros N. destruct interval_lost as (l & e & e' & r & r' & H1 & H2 & H3 & H4 & H5 & H6 & _). exists l, e, e', r, r'. repeat (split; [assumption|]). assumption.
Qed.
Print Assumptions C54_continues_identically_refuted.
(** a file with a longer history than the array overruns it *)
Theorem C54_long_history_refuted : forall {N : Num}, exists f e, eFromDict f e = UB.
Proof.
  intros N. exists (mkED (rofZ 1) (rofZ 0) (repeat (rofZ 0) (Z.to_nat (HSIZE + 1))) (rofZ 0) (rofZ 0)), est_new.
  unfold eFromDict. cbn [ed_hist]. rewrite repeat_length, Z2Nat.id by (unfold HSIZE; lia).
  destruct (Z.ltb_spec HSIZE (HSIZE + 1)); [reflexivity|lia].
Qed.
Print Assumptions C54_long_history_refuted.

(** ** C55: the saved estimate describes the saved accumulators *)
Theorem C55_saved_mean_refuted : exists e : @est NumR, erun [@OMeasure NumR 1%R] est_new = Ok e /\
  ed_mean (eToDict e) <> (eValue e / eNorm e)%R.
Proof. eexists. split; [reflexivity|]. cbn. lra. Qed.
Print Assumptions C55_saved_mean_refuted.
(** what does hold: it is right when Estimate was the last call *)
Theorem C55_after_estimate : forall {N : Num} (e : est), let e' := snd (eEstimate e) in
  ed_mean (eToDict e') = rdiv (eValue e') (eNorm e') /\ eValue e' = eValue e /\ eNorm e' = eNorm e.
Proof.
  intros N e e'. unfold e', eEstimate, eToDict, eValue, eNorm. cbn [snd ed_mean]. destruct (update_hist e) as (_ & _ & _ & -> & -> & ->). auto.
Qed.
Print Assumptions C55_after_estimate.

(** ** C56: the error bar is half the spread of the last two thirds of the history *)
Theorem C56_error_bar : forall (e : @est NumR), e_hist e <> [] ->
  (forall x : R, In x (e_hist e) -> (- 10 ^ 30 < x < 10 ^ 30)%R) ->
  let tail := skipn (List.length (e_hist e) / 3) (e_hist e) in
  let err : R := snd (fst (eEstimate e)) in
  (forall x y : R, In x tail -> In y tail -> (Rabs (x - y) <= 2 * err)%R) /\
  (exists x y : R, In x tail /\ In y tail /\ (x - y = 2 * err)%R).
Proof. exact error_bar. Qed.
Print Assumptions C56_error_bar.
Example C56_case : exists e : @est NumR, erun [@OMeasure NumR 1%R; OAdd; @OMeasure NumR 4%R; OAdd] est_new = Ok e /\
  e_hist e <> [] /\ (forall x : R, In x (e_hist e) -> (- 10 ^ 30 < x < 10 ^ 30)%R) /\ snd (fst (eEstimate e)) <> 0%R.
Proof.
  eexists. split; [reflexivity|].
  match goal with |- e_hist ?e <> [] /\ _ => assert (Q : e_hist e = [((0 + 1) / (1 + 1))%R; ((0 + 1 + 4) / (1 + 1 + 1))%R]) by reflexivity; set (e0 := e) in * end.
  assert (B : forall x : R, In x (e_hist e0) -> (- 10 ^ 30 < x < 10 ^ 30)%R).
  { rewrite Q. intros x [<-|[<-|[]]]; split; lra. }
  assert (Ne : e_hist e0 <> []) by (rewrite Q; discriminate).
  split; [exact Ne|]. split; [exact B|]. intros Z0.
  destruct (C56_error_bar e0 Ne B) as [H _]. rewrite Z0, Q in H. cbn [List.length Nat.div Nat.divmod fst skipn] in H.
  specialize (H _ _ (or_introl eq_refl) (or_intror (or_introl eq_refl))).
  unfold Rabs in H. destruct (Rcase_abs _) in H; lra.
Qed.

(** ** C57: clearing resets the estimate *)
Theorem C57_clear_resets_refuted : exists (l : list (@eop NumR)) e, erun l est_new = Ok e /\
  let e' := Clear e in snd (fst (eEstimate e')) <> snd (fst (eEstimate (@est_new NumR))).
Proof.
  destruct C56_case as (e & E & _ & _ & Ne). exists ([@OMeasure NumR 1%R; OAdd; @OMeasure NumR 4%R; OAdd] ++ [OEstimate]), (snd (eEstimate e)).
  split; [rewrite erun_app, E; reflexivity|]. intros e' Q. apply Ne. exact Q.
Qed.
Print Assumptions C57_clear_resets_refuted.
(** what clearing does reset *)
Theorem C57_clear_accumulators : forall {N : Num} (e : est), eValue (Clear e) = eValue est_new /\ eNorm (Clear e) = eNorm est_new /\
  e_hist (Clear e) = [] /\ fst (fst (eEstimate (Clear e))) = fst (fst (eEstimate est_new)).
Proof. intros. repeat split; reflexivity. Qed.
Print Assumptions C57_clear_accumulators.

(** ** C58: an estimator is found under its own name *)
Theorem C58_named_lookup : forall {N : Num} (l : list string), NoDup l -> exists b, eb_adds l eb_new = Ok b /\
  forall n i, nth_error l i = Some n -> ebLookup n b = Ok (est_new, b) /\ eb_map b n = Some i /\ nth_error (eb_vec b) i = Some (n, est_new).
Proof.
  intros N l ND. destruct (eb_adds_ok l eb_new ND) as (b & E & V & M & _); [reflexivity|discriminate|].
  exists b. split; [exact E|]. intros n i Hi. pose proof (M n i Hi) as Q. cbn in Q.
  assert (W : nth_error (eb_vec b) i = Some (n, est_new)).
  { rewrite V. cbn [eb_new eb_vec app]. rewrite nth_error_map, Hi. reflexivity. }
  split; [|split; [exact Q|exact W]]. unfold ebLookup. now rewrite Q, W.
Qed.
Print Assumptions C58_named_lookup.
Theorem C58_duplicate_rejected : forall {N : Num} (n : string) (b : ebundle) i, eb_map b n = Some i -> ebAdd n b = Abort.
Proof. intros N n b i H. unfold ebAdd. now rewrite H. Qed.
Print Assumptions C58_duplicate_rejected.
Example C58_case : NoDup ["1"; "2"; "Norm"]%string.
Proof. repeat constructor; cbn; intuition discriminate. Qed.
(** a name that was never added silently gives the first estimator *)
Theorem C58_missing_name_refuted : forall {N : Num}, exists l b n e b', eb_adds l eb_new = Ok b /\ ~ In n l /\
  ebLookup n (mkEB (map (fun p => (fst p, eMeasure (rofZ 1) (snd p))) (eb_vec b)) (eb_map b)) = Ok (e, b') /\
  eb_map b' n = eb_map b "1"%string.
Proof.
  intros N. exists ["1"%string]. eexists. exists "2"%string. do 2 eexists. split; [reflexivity|]. split; [|split; reflexivity].
  intros [X|[]]. discriminate.
Qed.
Print Assumptions C58_missing_name_refuted.
