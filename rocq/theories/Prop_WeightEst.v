(** Estimators of weight functions: C39-C42, C59, C60. See DESIGN.md. *)
From Coq Require Import ZArith List Bool Lia Reals Lra.
From Verif Require Import Base Num NumR Complex Lattice IndexMap WeightEstimator P_Lattice P_IndexMap Prop_IndexMap P_WeightEst.
Import ListNotations.
Open Scope Z_scope.

(** ** C39: cells do not overlap
    [cell m e n i] is entry [n-1][i] of the array that ToDict writes. *)
Theorem C39_one_cell : forall (N : Num) (m : imap) (o : Z) (norm : real), imap_ok m -> 0 < o -> o * tabsize m < 2^32 ->
  exists e0, weAllocate m o norm = Ok e0 /\
  forall l, Forall (wop_ok m o) l -> exists e, wrun l e0 = Ok e /\
    wa_size (we_accu e) = o * tabsize m /\
    forall n i w, 1 <= n <= o -> 0 <= i < tabsize m ->
    exists e' c, weMeasure i n w e = Ok e' /\ cell m e n i = Some c /\ cell m e' n i = Some (cadd c w) /\ we_nacc e' = we_nacc e /\
    forall n' i', 1 <= n' <= o -> 0 <= i' < tabsize m -> (n', i') <> (n, i) -> cell m e' n' i' = cell m e n' i'.
Proof.
  intros N m o norm H1 H2 H3. assert (P : wepar m o) by (split; [assumption|split; assumption]). destruct (allocate_ok m o norm P) as (e0 & A & W & _).
  exists e0. split; [exact A|]. intros l F. destruct (wrun_ok m o P l e0 F W) as (e & E & We). exists e. split; [exact E|]. split; [exact (ok_len m o e We)|].
  intros n i w Hn Hi. destruct (measure_ok m o e n i w P We) as (e' & Q1 & _ & _ & _ & Q2 & (c & Q3 & Q4) & Q5); [now split|].
  exists e', c. repeat (split; [assumption|]). intros n' i' Hn' Hi' Ne. apply Q5; [now split|assumption].
Qed.
Print Assumptions C39_one_cell.
(** Sigma and Polar measurements with different order, spins, sublattices, displacement or time
    bin go to different cells; those that agree in all of them go to the same cell. *)
Theorem C39_arguments_to_cell : forall (N : Num) (m : imap) (o : Z) e, imap_ok m -> 0 < o -> o * tabsize m < 2^32 -> WEok m o e ->
  forall a b rin rout tin tout n, args_ok m a b rin rout -> 0 <= TauIndex m tin tout < im_maxtau m -> 1 <= n <= o ->
  exists i, 0 <= i < tabsize m /\
    (forall a' b' rin' rout' tin' tout', args_ok m a' b' rin' rout' -> 0 <= TauIndex m tin' tout' < im_maxtau m ->
       (GetIndexSmooth m a' b' rin' rout' tin' tout' = Ok i <->
        a = a' /\ b = b' /\ sub rin = sub rin' /\ sub rout = sub rout' /\
        disp (Size (im_lat m)) (coord rin) (coord rout) = disp (Size (im_lat m)) (coord rin') (coord rout') /\
        TauIndex m tin tout = TauIndex m tin' tout')) /\
    forall w, exists es ep c, cell m e n i = Some c /\
      sigmaMeasure m a b rin rout tin tout n w e = Ok es /\ cell m es n i = Some (cadd c (cmul_r w (rofZ (TauSym m tin tout)))) /\
      polarMeasure m a b rin rout tin tout n w e = Ok ep /\ cell m ep n i = Some (cadd c w) /\
      forall n' i', 1 <= n' <= o -> 0 <= i' < tabsize m -> (n', i') <> (n, i) -> cell m es n' i' = cell m e n' i' /\ cell m ep n' i' = cell m e n' i'.
Proof.
  intros N m o e H1 H2 H3 We a b rin rout tin tout n Ha Ht Hn. assert (P : wepar m o) by (split; [assumption|split; assumption]).
  destruct (proj1 (C35_index_injective N m H1) a b rin rout tin tout Ha Ht) as (i & Ei & Bi & Inj).
  exists i. split; [exact Bi|]. split; [exact Inj|]. intros w. assert (R : inr m o n i) by now split.
  unfold sigmaMeasure, polarMeasure. rewrite Ei. cbn [obind].
  destruct (measure_ok m o e n i (cmul_r w (rofZ (TauSym m tin tout))) P We R) as (es & S1 & _ & _ & _ & _ & (c & S3 & S4) & S5).
  destruct (measure_ok m o e n i w P We R) as (ep & T1 & _ & _ & _ & _ & (c' & T3 & T4) & T5).
  rewrite S3 in T3. injection T3 as <-. exists es, ep, c. repeat (split; [assumption|]). intros n' i' Hn' Hi' Ne. split; [apply S5|apply T5]; auto; now split.
Qed.
Print Assumptions C39_arguments_to_cell.

(** the example: a 2x2 lattice, 8 time bins, spin-1/2 propagator table, 3 orders *)
Definition we_map : @imap NumR := @mkIM NumR 1%R 8 (mkLat [2; 2] 1) (-1) 2.
Lemma we_map_ok : imap_ok we_map.
Proof. split; cbn; try lia; [discriminate|repeat constructor]. Qed.
Example C39_case : imap_ok we_map /\ 0 < 3 /\ 3 * tabsize we_map < 2^32 /\ args_ok we_map 1 0 (mkSite 0 [1; 0]) (mkSite 0 [0; 1]) /\
  exists e, @weAllocate NumR we_map 3 1%R = Ok e /\ WEok we_map 3 e /\ Forall (wop_ok we_map 3) [@WMeasure NumR 5 2 c0; @WNorm NumR 1%R; @WClear NumR].
Proof.
  split; [exact we_map_ok|]. split; [lia|]. split; [reflexivity|]. split.
  - repeat split; cbn; try lia; repeat constructor; cbn; lia.
  - destruct (@allocate_ok NumR we_map 3 1%R) as (e & A & W & _); [split; [exact we_map_ok|split; [lia|reflexivity]]|].
    exists e. split; [exact A|]. split; [exact W|]. repeat constructor; cbn; try lia.
Qed.

(** ** C59: a cell holds exactly the sum, in order, of what was measured there *)
Theorem C59_cell_is_sum : forall (N : Num) (m : imap) (o : Z) (norm : real), imap_ok m -> 0 < o -> o * tabsize m < 2^32 ->
  exists e0, weAllocate m o norm = Ok e0 /\
  forall l : list (Z * Z * cplx), Forall (fun q => 1 <= snd (fst q) <= o /\ 0 <= fst (fst q) < tabsize m) l ->
  exists e, wrun (map (fun q => WMeasure (fst (fst q)) (snd (fst q)) (snd q)) l) e0 = Ok e /\
  forall n i, 1 <= n <= o -> 0 <= i < tabsize m -> cell m e n i = Some (fold_left cadd (hits n i l) c0).
Proof.
  intros N m o norm H1 H2 H3. assert (P : wepar m o) by (split; [assumption|split; assumption]). destruct (allocate_ok m o norm P) as (e0 & A & W & _ & _ & _ & Z0).
  exists e0. split; [exact A|]. intros l F. destruct (sums m o P l e0 F W) as (e & E & _ & C). exists e. split; [exact E|].
  intros n i Hn Hi. assert (R : inr m o n i) by now split. apply C; auto.
Qed.
Print Assumptions C59_cell_is_sum.

(** ** C40: squeezing keeps the normalised estimate *)
Theorem C40_squeeze : forall (e e' : @west NumR) (f : R), @weSqueeze NumR f e = Ok e' -> (we_nacc e : R) <> 0%R ->
  (0 < f)%R /\ (we_nacc e' : R) <> 0%R /\ we_norm e' = we_norm e /\ wa_size (we_accu e') = wa_size (we_accu e) /\
  forall (k : nat) c, nth_error (wf_data (weToDict e)) k = Some c -> exists c', nth_error (wf_data (weToDict e')) k = Some c' /\
    (re c' / we_nacc e' = re c / we_nacc e)%R /\ (im c' / we_nacc e' = im c / we_nacc e)%R.
Proof.
  intros e e' f E Nz. unfold weSqueeze in E. destruct (@rltb NumR (rofZ 0) f) eqn:P; [|discriminate]. injection E as <-.
  apply Rltb_spec in P. change (0 < f)%R in P. split; [exact P|]. cbn [we_nacc we_norm we_accu]. split.
  { change ((we_nacc e / f)%R <> 0%R). apply Rmult_integral_contrapositive. split; auto. apply Rinv_neq_0_compat. lra. }
  split; [reflexivity|]. split; [unfold wa_size; cbn; now rewrite map_length|].
  intros k c Hc. exists (cmul_assign_r c (@rdiv NumR (rofZ 1) f)). split.
  - cbn [weToDict wf_data we_accu wa_data waScale]. rewrite nth_error_map. cbn [weToDict wf_data] in Hc. now rewrite Hc.
  - cbn [cmul_assign_r re im]. change (@rdiv NumR) with Rdiv. change (@rmul NumR) with Rmult. change (@rofZ NumR 1) with 1%R.
    change (@real NumR) with R in *. split; field; split; auto; lra.
Qed.
Print Assumptions C40_squeeze.
Theorem C40_guard : forall (N : Num) (e : west) (f : real), rltb (rofZ 0) f = false -> weSqueeze f e = Abort.
Proof. intros N e f H. unfold weSqueeze. now rewrite H. Qed.
Print Assumptions C40_guard.
Example C40_case : exists e e' : @west NumR, @weSqueeze NumR 2%R e = Ok e' /\ (we_nacc e : R) <> 0%R /\ wf_data (weToDict e) <> [].
Proof.
  exists (@mkWE NumR 1%R 1%R 3%R (mkWA [1] [c1]) 1). unfold weSqueeze.
  assert (P : @rltb NumR (rofZ 0) 2%R = true) by (apply Rltb_spec; change (0 < 2)%R; lra). rewrite P.
  eexists. split; [reflexivity|]. split; [cbn; lra|discriminate].
Qed.

(** ** C41: Anneal keeps the factor Norm/NormAccu *)
Theorem C41_anneal_keeps_factor_refuted : exists (e0 : @west NumR) (b : R), @weAllocate NumR we_map 3 1%R = Ok e0 /\ (0 < b)%R /\
  let e := @weMeasureNorm NumR 1%R e0 in
  (we_norm (@weAnneal NumR b e) / we_nacc (@weAnneal NumR b e) <> we_norm e / we_nacc e)%R.
Proof.
  destruct (@allocate_ok NumR we_map 3 1%R) as (e & A & _ & B & Nm & Z0 & _); [split; [exact we_map_ok|split; [lia|reflexivity]]|].
  exists e, 2%R. split; [exact A|]. split; [lra|]. cbv zeta. cbn [weAnneal weMeasureNorm we_norm we_nacc we_beta]. rewrite B, Nm, Z0.
  change (@rdiv NumR) with Rdiv. change (@rmul NumR) with Rmult. change (@radd NumR) with Rplus. change (@rofZ NumR) with IZR. change (@real NumR) with R.
  cbn [we_map im_beta im_maxtau im_lat]. change (Vol _) with 4. intros Q.
  assert (L : (1 * (8 / 1) / 1 / 4 / ((0 + 1) * (2 / 1 * (2 / 1))) = 1 / 2)%R) by field. rewrite L in Q. clear L.
  assert (L : (1 * (8 / 1) / 1 / 4 / (0 + 1) = 2)%R) by field. rewrite L in Q. lra.
Qed.
Print Assumptions C41_anneal_keeps_factor_refuted.
(** the stored beta is not updated, so cooling and heating back does not restore the factor either *)
Theorem C41_anneal_round_trip_refuted : exists (e0 : @west NumR) (b : R), @weAllocate NumR we_map 3 1%R = Ok e0 /\ (0 < b)%R /\
  let e := @weMeasureNorm NumR 1%R e0 in we_nacc (weAnneal (im_beta we_map) (@weAnneal NumR b e)) <> we_nacc e.
Proof.
  destruct (@allocate_ok NumR we_map 3 1%R) as (e & A & _ & B & _ & Z0 & _); [split; [exact we_map_ok|split; [lia|reflexivity]]|].
  exists e, 2%R. split; [exact A|]. split; [lra|]. cbv zeta. cbn [weAnneal weMeasureNorm we_nacc we_beta]. rewrite B, Z0.
  change (@rdiv NumR) with Rdiv. change (@rmul NumR) with Rmult. change (@radd NumR) with Rplus. change (@rofZ NumR) with IZR. change (@real NumR) with R.
  cbn [we_map im_beta]. intros Q.
  assert (L : ((0 + 1) * (2 / 1 * (2 / 1)) * (1 / 1 * (1 / 1)) = 4)%R) by field. rewrite L in Q. lra.
Qed.
Print Assumptions C41_anneal_round_trip_refuted.

(** ** C42: loading statistics stays in bounds *)
(** a file saved by an estimator with one order more passes the shape test and overruns the array *)
Theorem C42_load_in_bounds_refuted : exists e1 e2 : @west NumR, @weAllocate NumR we_map 2 1%R = Ok e1 /\ @weAllocate NumR we_map 1 1%R = Ok e2 /\
  weFromDict (weToDict e1) e2 = UB.
Proof.
  destruct (@allocate_ok NumR we_map 2 1%R) as (e1 & A1 & [L1 _ S1] & _); [split; [exact we_map_ok|split; [lia|reflexivity]]|].
  destruct (@allocate_ok NumR we_map 1 1%R) as (e2 & A2 & [L2 _ S2] & _); [split; [exact we_map_ok|split; [lia|reflexivity]]|].
  exists e1, e2. split; [exact A1|]. split; [exact A2|]. unfold weFromDict. cbn [weToDict wf_shape wf_data]. rewrite S1, S2. cbn [tl].
  change (List.length (1%Z :: shape we_map) - 1)%nat with (List.length (shape we_map)). rewrite eq_upto_refl. cbn [obind].
  change (prod32 (2 :: shape we_map)) with 256. unfold wa_size in *. change (2 * tabsize we_map) with 256 in L1. change (1 * tabsize we_map) with 128 in L2.
  destruct (Nat.ltb_spec (List.length (wa_data (we_accu e1))) (Z.to_nat 256)); [reflexivity|].
  unfold waCopy, wa_size. cbn [waFill wa_data]. rewrite repeat_length, firstn_length, L2.
  destruct (Z.ltb_spec 128 (Z.of_nat (Nat.min (Z.to_nat 256) (List.length (wa_data (we_accu e1)))))); [reflexivity|lia].
Qed.
Print Assumptions C42_load_in_bounds_refuted.

(** ** C60: statistics saved with a lower or equal maximum order are restored exactly *)
Theorem C60_reload : forall (N : Num) (m : imap) (o o' : Z) e e0, imap_ok m -> 0 < o <= o' -> o' * tabsize m < 2^32 ->
  WEok m o e -> WEok m o' e0 ->
  exists e', weFromDict (weToDict e) e0 = Ok e' /\ WEok m o' e' /\ we_norm e' = we_norm e /\ we_nacc e' = we_nacc e /\
  (forall n i, 1 <= n <= o -> 0 <= i < tabsize m -> cell m e' n i = cell m e n i) /\
  (forall n i, o < n <= o' -> 0 <= i < tabsize m -> cell m e' n i = Some c0).
Proof.
  intros N m o o' e e0 H1 H2 H3 W W0. pose proof (tab_pos m H1) as TP.
  assert (B : o * tabsize m < 2^32) by nia.
  destruct (reload m o o' e e0) as (e' & Q1 & Q2 & Q3 & Q4 & Q5 & Q6); auto; try (split; [exact H1|lia]); try lia.
  exists e'. repeat (split; [assumption|]). split; intros n i Hn Hi; [apply Q5|apply Q6]; repeat split; lia.
Qed.
Print Assumptions C60_reload.
Example C60_case : exists e e0 : @west NumR, WEok we_map 2 e /\ WEok we_map 3 e0 /\ imap_ok we_map /\ 3 * tabsize we_map < 2^32.
Proof.
  destruct (@allocate_ok NumR we_map 2 1%R) as (e1 & _ & W1 & _); [split; [exact we_map_ok|split; [lia|reflexivity]]|].
  destruct (@allocate_ok NumR we_map 3 1%R) as (e2 & _ & W2 & _); [split; [exact we_map_ok|split; [lia|reflexivity]]|].
  exists e1, e2. repeat (split; [assumption|]). split; [exact we_map_ok|reflexivity].
Qed.
