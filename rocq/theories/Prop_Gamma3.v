(** Three-point functions: C61-C67. See DESIGN.md. *)
From Coq Require Import ZArith List Bool Lia Reals Lra.
From Verif Require Import Base Num NumR Complex Lattice IndexMap WeightEstimator Gamma3 P_Lattice P_IndexMap Prop_IndexMap P_WeightEst P_Gamma3.
Import ListNotations.
Open Scope Z_scope.

(** ** C61: a GammaG measurement goes to one cell of its own
    [ggcell g s c b1 b2] is entry [s][c][b1][b2] of the array StatisToDict writes. *)
Theorem C61_one_cell : forall (N : Num) L beta mt norm, ggpar L mt ->
  forall l, Forall (gop_ok L beta mt) l -> exists g, grun l (ggNew L beta mt norm) = Ok g /\
  forall rin ur tin tout ut s w, site_ok L rin -> site_ok L ur -> bin_ok beta mt tin ut -> bin_ok beta mt tout ut ->
  let c := CoordiIndex L rin ur in let b1 := binTau beta mt (rsub tout ut) in let b2 := binTau beta mt (rsub tin ut) in
  exists g' x, ggMeasure rin ur tin tout ut s w g = Ok g' /\
    ggcell g s c b1 b2 = Some x /\ ggcell g' s c b1 b2 = Some (cadd x (cmul_r w (ggSign g tin tout ut))) /\ gg_nacc g' = gg_nacc g /\
    (forall s' c' b1' b2', 0 <= c' < Vol L -> 0 <= b1' < mt -> 0 <= b2' < mt -> (s', c', b1', b2') <> (s, c, b1, b2) ->
       ggcell g' s' c' b1' b2' = ggcell g s' c' b1' b2') /\
    forall rin' ur', site_ok L rin' -> site_ok L ur' ->
      (CoordiIndex L rin' ur' = c <-> disp (Size L) (coord rin') (coord ur') = disp (Size L) (coord rin) (coord ur)).
Proof.
  intros N L beta mt norm P l F. destruct (grun_ok L beta mt P l (ggNew L beta mt norm) F (ggNew_ok L beta mt norm P) eq_refl) as (g & E & K & B).
  exists g. split; [exact E|]. intros rin ur tin tout ut s w R1 R2 B1 B2 c b1 b2. rewrite <- B in B1, B2.
  destruct (ggMeasure_ok L mt g rin ur tin tout ut s w P K R1 R2 B1 B2) as (g' & H1 & _ & _ & _ & H2 & _ & (x & H3 & H4) & H5).
  rewrite B in *. exists g', x. repeat (split; [assumption|]). intros rin' ur' R1' R2'. unfold c. apply CoordiIndex_eq; auto. apply P.
Qed.
Print Assumptions C61_one_cell.
(** in exact arithmetic times in [0, beta) always have a bin, the bin is that of the difference
    modulo beta, and the sign is negative if exactly one of the two ends precedes the external point *)
Theorem C61_bins_exact : forall (L : lattice) (g : @ggam NumR) (mt : Z) (tin tout ut : R),
  let beta := gg_beta g : R in
  (0 < beta)%R -> 0 < mt -> (0 <= tin < beta)%R -> (0 <= tout < beta)%R -> (0 <= ut < beta)%R ->
  @bin_ok NumR beta mt tin ut /\ @bin_ok NumR beta mt tout ut /\
  (exists k : Z, let b := @binTau NumR beta mt (tin - ut)%R in
     (IZR b * (beta / IZR mt) <= tin - ut + IZR k * beta < IZR (b + 1) * (beta / IZR mt))%R) /\
  @ggSign NumR g tin tout ut = (if xorb (Rltb tout ut) (Rltb tin ut) then -1 else 1)%R.
Proof.
  intros L g mt tin tout ut beta HB HM H1 H2 H3. split; [now apply binTau_range|]. split; [now apply binTau_range|].
  assert (X : forall a b : R, Rltb (a - b) 0 = Rltb a b).
  { intros a b. destruct (Rltb (a - b) 0) eqn:E1, (Rltb a b) eqn:E2; auto.
    - apply Rltb_spec in E1. apply Rltb_false in E2. lra.
    - apply Rltb_false in E1. apply Rltb_spec in E2. lra. }
  split; [|rewrite ggSign_R, !X; reflexivity].
  exists (if Rltb (tin - ut) 0 then 1 else 0). cbv zeta.
  set (y := (tin - ut + IZR (if Rltb (tin - ut) 0 then 1 else 0) * beta)%R).
  assert (E : @binTau NumR beta mt (tin - ut)%R = Int_part (y * (IZR mt / beta))).
  { unfold binTau. rewrite wrapTau_R. unfold y. destruct (Rltb (tin - ut) 0); cbn [fst]; (change (@rfloor NumR) with Int_part); f_equal;
      [change ((tin - ut + beta) * (IZR mt / beta) = (tin - ut + 1 * beta) * (IZR mt / beta))%R|change ((tin - ut) * (IZR mt / beta) = (tin - ut + 0 * beta) * (IZR mt / beta))%R]; ring. }
  rewrite E. apply IZR_lt in HM. assert (HD : (0 < beta / IZR mt)%R) by (apply Rdiv_lt_0_compat; lra).
  destruct (base_Int_part (y * (IZR mt / beta))) as [Y1 Y2]. rewrite plus_IZR. set (z := IZR (Int_part (y * (IZR mt / beta)))) in *.
  assert (EY : (y = y * (IZR mt / beta) * (beta / IZR mt))%R) by (field; lra). rewrite EY. split; [apply Rmult_le_compat_r; lra|apply Rmult_lt_compat_r; lra].
Qed.
Print Assumptions C61_bins_exact.

(** a 2x2 lattice with 4 time bins *)
Definition g3_lat : lattice := mkLat [2; 2] 1.
Lemma g3_par : ggpar g3_lat 4.
Proof. split; [discriminate|]. split; [repeat constructor; lia|]. split; reflexivity. Qed.
Lemma g3_site a b : 0 <= a < 2 -> 0 <= b < 2 -> site_ok g3_lat (mkSite 0 [a; b]).
Proof. intros. split; cbn; [lia|]. repeat constructor; cbn; lia. Qed.
Example C61_case : ggpar g3_lat 4 /\ Forall (@gop_ok NumR g3_lat 1%R 4)
  [@GOMeasure NumR (mkSite 0 [1; 0]) (mkSite 0 [0; 1]) (1/4)%R (3/4)%R (1/2)%R UP c0; @GONorm NumR 2%R; @GOSqueeze NumR 2%R; @GOReload NumR (@ggNew NumR g3_lat 1%R 4 1%R); @GOClear NumR].
Proof.
  split; [exact g3_par|]. constructor; [|constructor; [exact I|constructor; [|constructor; [apply ggNew_ok, g3_par|constructor; [exact I|constructor]]]]].
  - repeat split; try (apply g3_site; lia); try (apply binTau_range; lra || lia).
  - cbn. apply Rltb_spec. lra.
Qed.

(** ** C62: what GammaG measures is what it returns once the statistics are loaded as weight *)
Theorem C62_readback : forall (L : lattice) (beta : R) mt (norm : R), ggpar L mt ->
  forall rin ur (tin tout ut : R) s (w : @cplx NumR), site_ok L rin -> site_ok L ur -> @bin_ok NumR beta mt tin ut -> @bin_ok NumR beta mt tout ut ->
  exists g1 g2, @ggMeasure NumR rin ur tin tout ut s w (@ggNew NumR L beta mt norm) = Ok g1 /\
    ggWeightFromDict (wf_shape (ggStatisToDict g1)) (wf_data (ggStatisToDict g1)) g1 = Ok g2 /\
    @ggWeight NumR rin ur tin tout ut s g2 = Ok w /\
    forall rin' ur' (tin' tout' ut' : R) s', site_ok L rin' -> site_ok L ur' -> @bin_ok NumR beta mt tin' ut' -> @bin_ok NumR beta mt tout' ut' ->
      (s', disp (Size L) (coord rin') (coord ur'), @binTau NumR beta mt (tout' - ut')%R, @binTau NumR beta mt (tin' - ut')%R) <>
      (s, disp (Size L) (coord rin) (coord ur), @binTau NumR beta mt (tout - ut)%R, @binTau NumR beta mt (tin - ut)%R) ->
      @ggWeight NumR rin' ur' tin' tout' ut' s' g2 = Ok c0.
Proof.
  intros L beta mt norm P rin ur tin tout ut s w R1 R2 B1 B2. pose proof (@ggNew_ok NumR L beta mt norm P) as K0. set (g0 := @ggNew NumR L beta mt norm) in *.
  destruct (@ggMeasure_ok NumR L mt g0 rin ur tin tout ut s w P K0 R1 R2 B1 B2) as (g1 & H1 & K1 & Hb & _ & _ & _ & (x & H3 & H4) & H5).
  change (gg_beta g0) with beta in *.
  assert (Z0 : forall s c b1 b2, 0 <= c < Vol L -> 0 <= b1 < mt -> 0 <= b2 < mt -> ggcell g0 s c b1 b2 = Some c0).
  { intros s' c' b1' b2' X1 X2 X3. pose proof (ggpos_range L mt _ _ _ _ (spin01 s') X1 X2 X3) as PR. unfold ggcell, g0, ggNew, ggClear, ggStatisToDict. cbn [wf_data gg_accu gg_lat gg_mt wa_data waFill].
    apply nth_repeat. pose proof (@gk_a NumR L mt g0 K0) as G. unfold g0, ggNew, ggClear in G. cbn [gg_accu] in G. rewrite fill_size in G. unfold wa_size in G. cbn [gg_accu]. lia. }
  assert (C : 0 <= CoordiIndex L rin ur < Vol L) by (apply CoordiIndex_range; [apply P|apply R1|apply R2]).
  assert (x = c0) by (rewrite Z0 in H3 by auto; congruence). subst x.
  pose (g2 := mkGG (gg_beta g1) (gg_mt g1) (gg_lat g1) (gg_norm g1) (gg_nacc g1) (gg_accu g1) (gg_accu g1)).
  assert (LD : ggWeightFromDict (wf_shape (ggStatisToDict g1)) (wf_data (ggStatisToDict g1)) g1 = Ok g2).
  { unfold ggStatisToDict, ggWeightFromDict. cbn [wf_shape wf_data]. rewrite waLoad_self; [reflexivity|rewrite (gk_sw _ _ _ K1), (gk_sa _ _ _ K1); reflexivity|rewrite (gk_w _ _ _ K1), (gk_a _ _ _ K1); reflexivity]. }
  exists g1, g2. split; [exact H1|]. split; [exact LD|].
  assert (K2 : GGok L mt g2) by (destruct K1 as [a b c d e f]; split; auto).
  assert (HB2 : gg_beta g2 = beta) by exact Hb.
  assert (RD : forall rin' ur' (tin' tout' ut' : R) s', site_ok L rin' -> site_ok L ur' -> @bin_ok NumR beta mt tin' ut' -> @bin_ok NumR beta mt tout' ut' ->
     exists y, ggcell g1 s' (CoordiIndex L rin' ur') (@binTau NumR beta mt (tout' - ut')%R) (@binTau NumR beta mt (tin' - ut')%R) = Some y /\
       @ggWeight NumR rin' ur' tin' tout' ut' s' g2 = Ok (cmul_r y (@ggSign NumR g2 tin' tout' ut'))).
  { intros rin' ur' tin' tout' ut' s' X1 X2 X3 X4. rewrite <- HB2 in X3, X4. destruct (@ggIndex_spec NumR L mt g2 rin' ur' tin' tout' ut' s' P K2 X1 X2 X3 X4) as [E I].
    unfold ggWeight. destruct (waGet_ok (gg_w g2) (@ggIndex NumR g2 rin' ur' tin' tout' ut' s')) as (y & Y1 & Y2); [rewrite (gk_w _ _ _ K2); exact I|].
    exists y. rewrite Y1. cbn [obind]. split; [|reflexivity]. unfold ggcell. rewrite (gk_lat _ _ _ K1), (gk_mt _ _ _ K1). rewrite E, HB2 in Y2. exact Y2. }
  split.
  - destruct (RD rin ur tin tout ut s R1 R2 B1 B2) as (y & Y1 & ->). change (tout - ut)%R with (@rsub NumR tout ut) in Y1. change (tin - ut)%R with (@rsub NumR tin ut) in Y1. rewrite H4 in Y1. injection Y1 as <-. f_equal.
    change (@ggSign NumR g2 tin tout ut) with (@ggSign NumR g1 tin tout ut).
    assert (ES : @ggSign NumR g1 tin tout ut = @ggSign NumR g0 tin tout ut) by (rewrite !ggSign_R; reflexivity). rewrite ES. pose proof (ggSign_sq g0 tin tout ut) as SQ.
    set (sg := @ggSign NumR g0 tin tout ut) in *. destruct w as [a b]. unfold cmul_r, cadd, c0, cofr, r0. cbn. change (@real NumR) with R in *. f_equal.
    + replace ((0 + a * sg) * sg)%R with (a * (sg * sg))%R by ring. rewrite SQ. ring.
    + replace ((0 + b * sg) * sg)%R with (b * (sg * sg))%R by ring. rewrite SQ. ring.
  - intros rin' ur' tin' tout' ut' s' X1 X2 X3 X4 Ne. destruct (RD rin' ur' tin' tout' ut' s' X1 X2 X3 X4) as (y & Y1 & ->).
    assert (C' : 0 <= CoordiIndex L rin' ur' < Vol L) by (apply CoordiIndex_range; [apply P|apply X1|apply X2]).
    rewrite H5, Z0 in Y1; auto.
    + injection Y1 as <-. f_equal. unfold cmul_r, c0, cofr, r0. cbn. f_equal; ring.
    + intros Q. injection Q as Q1 Q2 Q3 Q4. apply Ne. rewrite Q1. f_equal; [f_equal; [f_equal|]|]; try assumption. apply (CoordiIndex_eq L); auto. apply P.
Qed.
Print Assumptions C62_readback.
Example C62_case : ggpar g3_lat 4 /\ site_ok g3_lat (mkSite 0 [1; 0]) /\ site_ok g3_lat (mkSite 0 [0; 1]) /\ @bin_ok NumR 1%R 4 (1/4)%R (1/2)%R /\ @bin_ok NumR 1%R 4 (3/4)%R (1/2)%R.
Proof. split; [exact g3_par|]. split; [apply g3_site; lia|]. split; [apply g3_site; lia|]. split; apply binTau_range; lra || lia. Qed.

(** ** C63: GammaG keeps sublattices apart (false)
    No call distinguishes the sublattices of the two sites, and there are contributions from
    different sublattices that are accumulated in the same cell. *)
Theorem C63_sublattice_ignored : forall (N : Num) (g : ggam) rin ur tin tout ut s w k k',
  ggMeasure (mkSite k (coord rin)) (mkSite k' (coord ur)) tin tout ut s w g = ggMeasure rin ur tin tout ut s w g /\
  ggWeight (mkSite k (coord rin)) (mkSite k' (coord ur)) tin tout ut s g = ggWeight rin ur tin tout ut s g.
Proof. intros. split; reflexivity. Qed.
Print Assumptions C63_sublattice_ignored.
Theorem C63_sublattices_apart_refuted : exists (L : lattice) (a b u : site) (t t' v : R) (w w' : @cplx NumR) g1 g2 i,
  site_ok L a /\ site_ok L b /\ site_ok L u /\ sub a <> sub b /\ w <> w' /\
  @ggMeasure NumR a u t t' v UP w (@ggNew NumR L 1%R 4 1%R) = Ok g1 /\ @ggMeasure NumR b u t t' v UP w' g1 = Ok g2 /\
  nth_error (wf_data (ggStatisToDict g2)) i = Some (cadd w w').
Proof.
  pose (L := mkLat [2; 2] 2). pose (g0 := @ggNew NumR L 1%R 4 1%R).
  assert (P : ggpar L 4) by (split; [discriminate|split; [repeat constructor; lia|split; reflexivity]]).
  pose proof (@ggNew_ok NumR L 1%R 4 1%R P) as K0. fold g0 in K0.
  assert (SA : site_ok L (mkSite 0 [0; 0])) by (split; cbn; [lia|repeat constructor; cbn; lia]).
  assert (SB : site_ok L (mkSite 1 [0; 0])) by (split; cbn; [lia|repeat constructor; cbn; lia]).
  assert (B : @bin_ok NumR 1%R 4 0%R 0%R) by (apply binTau_range; lra || lia).
  pose (w := @mkC NumR 1%R 0%R). pose (w' := @mkC NumR 2%R 0%R).
  destruct (@ggMeasure_ok NumR L 4 g0 _ _ _ _ _ UP w P K0 SA SA B B) as (g1 & M1 & K1 & B1 & _ & _ & _ & (x & X1 & X2) & _).
  assert (B' : @bin_ok NumR (gg_beta g1) 4 0%R 0%R) by (rewrite B1; exact B).
  destruct (@ggMeasure_ok NumR L 4 g1 _ _ _ _ _ UP w' P K1 SB SA B' B') as (g2 & M2 & K2 & B2 & _ & _ & _ & (y & Y1 & Y2) & _).
  exists L, (mkSite 0 [0; 0]), (mkSite 1 [0; 0]), (mkSite 0 [0; 0]), 0%R, 0%R, 0%R, w, w', g1, g2.
  eexists. split; [exact SA|]. split; [exact SB|]. split; [exact SA|]. split; [cbn; lia|]. split; [intros Q; injection Q; intros; lra|]. split; [exact M1|]. split; [exact M2|].
  unfold ggcell in Y2. rewrite Y2. f_equal. rewrite B1 in Y1.
  change (CoordiIndex L (mkSite 1 [0; 0]) (mkSite 0 [0; 0])) with (CoordiIndex L (mkSite 0 [0; 0]) (mkSite 0 [0; 0])) in Y1. change (gg_beta g0) with 1%R in Y1, X2. rewrite X2 in Y1. injection Y1 as <-.
  rewrite !ggSign_R. assert (E : Rltb (0 - 0) 0 = false) by (apply Rltb_false; lra). rewrite E. cbn [xorb].
  assert (x = c0).
  { unfold ggcell, g0, ggNew, ggClear, ggStatisToDict in X1. cbn [wf_data gg_accu gg_lat gg_mt wa_data waFill] in X1. apply nth_error_In in X1. apply repeat_spec in X1. exact X1. }
  subst x. unfold w, w', cmul_r, cadd, c0, cofr, r0. cbn. change (@real NumR) with R in *. f_equal; lra.
Qed.
Print Assumptions C63_sublattices_apart_refuted.

(** ** C64: after a change of Beta the three-point functions use the new Beta (false)
    Loading at the new Beta keeps the old object; with times of the new run a measurement is
    written outside the array. *)
Theorem C64_new_beta_refuted : exists (L : lattice) fW g1 w1 g2 w2 (tin tout ut : R) rin ur,
  @loadGammaGW NumR L 1%R 4 4 1 1%R None (Some fW) PNull PNull = Ok (g1, w1) /\
  @loadGammaGW NumR L 2%R 4 4 1 1%R None (Some fW) (PAt g1) (PAt w1) = Ok (g2, w2) /\
  (0 <= tin < 2)%R /\ (0 <= tout < 2)%R /\ (0 <= ut < 2)%R /\ site_ok L rin /\ site_ok L ur /\
  @gg_beta NumR g2 = 1%R /\ @gw_beta NumR w2 = 1%R /\
  @ggMeasure NumR rin ur tin tout ut UP (@c1 NumR) g2 = UB.
Proof.
  pose (L := g3_lat). pose (o := repeat 1 16). pose (z := repeat 0 16). pose (fW := @mkGWD NumR z o z o z 1 1 None).
  exists L, fW. eexists _, _, _, _, 0%R, (15/8)%R, 0%R, (mkSite 0 [0; 0]), (mkSite 0 [1; 1]).
  split; [reflexivity|]. split; [reflexivity|]. split; [lra|]. split; [lra|]. split; [lra|]. split; [apply g3_site; lia|]. split; [apply g3_site; lia|]. split; [reflexivity|]. split; [reflexivity|].
  unfold ggMeasure. match goal with |- obind (waAdd ?i ?w ?a) _ = _ => assert (I : i = 140) end.
  { unfold ggIndex. cbn [gg_mt gg_lat gg_beta ggNew ggClear]. unfold binTau. change (@rsub NumR (15 / 8) 0)%R with (15 / 8 - 0)%R. change (@rsub NumR 0 0)%R with (0 - 0)%R. rewrite !wrapTau_R.
    assert (E : Rltb (15 / 8 - 0) 0 = false) by (apply Rltb_false; lra). assert (E' : Rltb (0 - 0) 0 = false) by (apply Rltb_false; lra). rewrite E, E'. cbn [fst].
    change (@rfloor NumR (@rmul NumR (15 / 8 - 0) (@rdiv NumR (@rofZ NumR 4) 1))%R) with (Int_part ((15 / 8 - 0) * (4 / 1))). change (@rfloor NumR (@rmul NumR (0 - 0) (@rdiv NumR (@rofZ NumR 4) 1))%R) with (Int_part ((0 - 0) * (4 / 1))).
    rewrite (IntPart_bounds _ 7) by lra. rewrite (IntPart_bounds _ 0) by lra. reflexivity. }
  rewrite I. reflexivity.
Qed.
Print Assumptions C64_new_beta_refuted.

(** ** C65: GammaW measurements
    In a diagram without worm the two spins of an interaction line obey [conserved]; exactly then
    a measurement is recorded, in one cell of the array, and otherwise nothing is changed.
    The cell: 1 for spin-flipping lines, 0 for the others; representatives of the displacements
    and of the bins as listed in the file. *)
Theorem C65_one_cell : forall (N : Num) L mt rs ts g rin rout ur tin tout ut sin sout w,
  gwpar L mt rs ts -> GWok L mt rs ts g -> site_ok L rin -> site_ok L rout -> site_ok L ur ->
  bin_ok (gw_beta g) mt tin ut -> bin_ok (gw_beta g) mt tout ut ->
  (~ conserved sin sout -> gwMeasure rin rout ur tin tout ut sin sout w g = Ok g) /\
  (conserved sin sout ->
   let k := gwk sin in let r := gwr g rin rout ur in let t := gwt g tin tout ut in
   0 <= r < rs /\ 0 <= t < ts /\
   exists g' x y, gwMeasure rin rout ur tin tout ut sin sout w g = Ok g' /\ GWok L mt rs ts g' /\ gw_nacc g' = gw_nacc g /\ gw_w g' = gw_w g /\
     gwcell g k r t = Some x /\ gwcell g' k r t = Some (cadd x y) /\
     forall k' r' t', 0 <= k' < 2 -> 0 <= r' < rs -> 0 <= t' < ts -> (k', r', t') <> (k, r, t) -> gwcell g' k' r' t' = gwcell g k' r' t').
Proof.
  intros N L mt rs ts g rin rout ur tin tout ut sin sout w P K R1 R2 R3 B1 B2. split; [intros S; now apply (gwMeasure_worm L mt rs ts)|].
  intros S k r t. destruct (gwMeasure_ok L mt rs ts g rin rout ur tin tout ut sin sout w P K R1 R2 R3 B1 B2 S) as (a & H1 & H2 & H3 & H4 & (x & H5 & H6) & H7).
  split; [exact H3|]. split; [exact H4|]. exists (s_gw_accu g (Some a)), x. eexists. split; [exact H1|]. split; [exact H2|]. split; [reflexivity|]. split; [reflexivity|]. split; [exact H5|]. split; [exact H6|exact H7].
Qed.
Print Assumptions C65_one_cell.
(** which files give such tables: the entries must be below the announced sizes *)
Theorem C65_load : forall (N : Num) (L : lattice) beta mt nb norm f, gwpar L mt (gd_rsize f) (gd_tsize f) ->
  Z.of_nat (List.length (gd_rsq f)) = Vol L * Vol L -> Z.of_nat (List.length (gd_rsym f)) = Vol L * Vol L ->
  Z.of_nat (List.length (gd_tsq f)) = mt * mt -> Z.of_nat (List.length (gd_tsym f)) = mt * mt -> Z.of_nat (List.length (gd_tflag f)) = mt * mt ->
  Forall (fun x => 0 <= x < gd_rsize f) (gd_rsq f) -> Forall (fun x => 0 <= x < gd_tsize f) (gd_tsq f) ->
  Forall (fun x => 0 < x < 2^15) (gd_rsym f) -> Forall (fun x => 0 < x < 2^15) (gd_tsym f) -> gd_smooth f = None -> (0 < nb)%nat ->
  exists g0 g, gwNew L beta mt nb norm = Ok g0 /\ gwWeightFromDict f g0 = Ok g /\ GWok L mt (gd_rsize f) (gd_tsize f) g /\
    gw_beta g = beta /\ gw_nacc g = None /\ forall k r t, 0 <= k < 2 -> 0 <= r < gd_rsize f -> 0 <= t < gd_tsize f -> gwcell g k r t = Some c0.
Proof.
  intros N L beta mt nb norm f (P1 & P2 & P3 & P4 & P5 & P6 & P7 & P8) H1 H2 H3 H4 H5 H6 H7 H8 H9 H10 H11. pose proof (Vol_pos _ P1 P2) as V.
  destruct nb as [|nb]; [lia|]. unfold gwNew. eexists. eexists. split; [reflexivity|]. unfold gwWeightFromDict. cbn [gw_lat gw_mt gw_w gw_accu].
  assert (E1 : u32 (Vol L) = Vol L) by (unfold u32; apply Z.mod_small; nia). assert (E2 : u32 (Vol L * Vol L) = Vol L * Vol L) by (unfold u32; apply Z.mod_small; nia). assert (E3 : u32 (mt * mt) = mt * mt) by (unfold u32; apply Z.mod_small; nia).
  rewrite E1, E2, E3, H1, H2, H3, H4, H5, !Z.eqb_refl, H10. cbn [andb obind]. split; [reflexivity|].
  assert (EP : prodz [2; gd_rsize f; gd_tsize f] = 2 * gd_rsize f * gd_tsize f) by (unfold prodz; cbn [fold_right]; ring).
  destruct (allocate_size [2; gd_rsize f; gd_tsize f]) as [S1 S2]; [repeat constructor; lia|lia|]. rewrite EP in *.
  split; [split; cbn [gw_lat gw_mt gw_rsize gw_tsize gw_rsq gw_rsym gw_tsq gw_tsym gw_tflag gw_w gw_accu]; auto; eexists; (split; [reflexivity|]); (split; [reflexivity|exact S1])|].
  split; [reflexivity|]. split; [reflexivity|]. intros k r t Hk Hr Ht. unfold gwcell. cbn [gw_accu gw_rsize gw_tsize]. apply S2. now apply gwpos_range.
Qed.
Print Assumptions C65_load.
(** a file for the 2x2 lattice with 4 bins: all displacements and all bins equivalent *)
Definition g3_file : @gwdict NumR := mkGWD (repeat 0 16) (repeat 1 16) (repeat 0 16) (repeat 1 16) (repeat 0 16) 1 1 None.
Lemma g3_wpar : gwpar g3_lat 4 1 1.
Proof. split; [discriminate|]. split; [repeat constructor; lia|]. repeat split; lia. Qed.
Lemma g3_load : exists g0 g, @gwNew NumR g3_lat 1%R 4 1 1%R = Ok g0 /\ gwWeightFromDict g3_file g0 = Ok g /\ GWok g3_lat 4 1 1 g /\ @gw_beta NumR g = 1%R /\
  forall k r t, 0 <= k < 2 -> 0 <= r < 1 -> 0 <= t < 1 -> gwcell g k r t = Some c0.
Proof.
  destruct (C65_load NumR g3_lat 1%R 4 1 1%R g3_file g3_wpar) as (g0 & g & H1 & H2 & H3 & H4 & _ & H5); try reflexivity; try (repeat constructor; lia).
  exists g0, g. repeat (split; [assumption|]). assumption.
Qed.
Example C65_case : exists g, gwpar g3_lat 4 1 1 /\ GWok g3_lat 4 1 1 g /\ @bin_ok NumR (gw_beta g) 4 (1/4)%R (1/2)%R /\ @bin_ok NumR (gw_beta g) 4 (3/4)%R (1/2)%R /\
  conserved (fun d => match d with IN => UP | OUT => DOWN end) (fun d => match d with IN => DOWN | OUT => UP end) /\ ~ conserved (fun _ => UP) (fun d => match d with IN => DOWN | OUT => UP end).
Proof.
  destruct g3_load as (g0 & g & _ & _ & K & B & _). exists g. split; [exact g3_wpar|]. split; [exact K|]. rewrite B. split; [apply binTau_range; lra || lia|]. split; [apply binTau_range; lra || lia|].
  split; [reflexivity|]. unfold conserved. cbn. lia.
Qed.

(** ** C66: reading back GammaW
    A contribution [w] recorded for the spins [sin], [sout] is returned, once the statistics are
    loaded as weight, for the same points with the two spins exchanged, divided by the symmetry
    factor of the points and by 2 for spin-flipping lines. *)
Definition gwdict_of (g : @gwam NumR) (a : @warray NumR) : @gwdict NumR :=
  mkGWD (gw_rsq g) (gw_rsym g) (gw_tsq g) (gw_tsym g) (gw_tflag g) (gw_rsize g) (gw_tsize g) (Some (wa_shape a, wa_data a)).
Theorem C66_readback : forall L mt rs ts (g : @gwam NumR) rin rout ur (tin tout ut : R) sin sout (w : @cplx NumR),
  gwpar L mt rs ts -> GWok L mt rs ts g -> site_ok L rin -> site_ok L rout -> site_ok L ur ->
  @bin_ok NumR (gw_beta g) mt tin ut -> @bin_ok NumR (gw_beta g) mt tout ut -> conserved sin sout ->
  gwcell g (gwk sin) (gwr g rin rout ur) (@gwt NumR g tin tout ut) = Some c0 ->
  exists g1 a g2, @gwMeasure NumR rin rout ur tin tout ut sin sout w g = Ok g1 /\ gw_accu g1 = Some a /\ gwWeightFromDict (gwdict_of g1 a) g1 = Ok g2 /\
    let n := @gwsym NumR g rin rout ur tin tout ut * (if flipping sin then 2 else 1) in
    0 < n /\ @gwWeight NumR rin rout ur tin tout ut sout sin g2 = Ok (@cdiv_r NumR w (IZR n)).
Proof.
  intros L mt rs ts g rin rout ur tin tout ut sin sout w P K R1 R2 R3 B1 B2 S Z0.
  destruct (@gwMeasure_ok NumR L mt rs ts g rin rout ur tin tout ut sin sout w P K R1 R2 R3 B1 B2 S) as (a & H1 & K1 & H3 & H4 & (x & H5 & H6) & _).
  assert (x = c0) by congruence. subst x. set (g1 := s_gw_accu g (Some a)) in *.
  destruct (wk_a _ _ _ _ _ K1) as (a' & Q1 & Q2 & Q3). assert (a' = a) by (cbn in Q1; congruence). subst a'. destruct (wk_w _ _ _ _ _ K1) as (b & W1 & W2 & W3).
  assert (LD : exists g2, gwWeightFromDict (gwdict_of g1 a) g1 = Ok g2 /\ GWok L mt rs ts g2 /\ gw_w g2 = Some a /\ gw_beta g2 = gw_beta g /\
     gwr g2 rin rout ur = gwr g rin rout ur /\ @gwt NumR g2 tin tout ut = @gwt NumR g tin tout ut /\ @gwflag NumR g2 tin tout ut = @gwflag NumR g tin tout ut).
  { destruct P as (P1 & P2 & P3 & P4 & P5 & P6 & P7 & P8). pose proof (Vol_pos _ P1 P2) as V.
    unfold gwWeightFromDict, gwdict_of. cbn [gd_rsq gd_rsym gd_tsq gd_tsym gd_tflag gd_rsize gd_tsize gd_smooth].
    rewrite (wk_lat _ _ _ _ _ K1), (wk_mt _ _ _ _ _ K1).
    assert (E1 : u32 (Vol L) = Vol L) by (unfold u32; apply Z.mod_small; nia). assert (E2 : u32 (Vol L * Vol L) = Vol L * Vol L) by (unfold u32; apply Z.mod_small; nia). assert (E3 : u32 (mt * mt) = mt * mt) by (unfold u32; apply Z.mod_small; nia).
    rewrite E1, E2, E3, (wk_r _ _ _ _ _ K1), (wk_ry _ _ _ _ _ K1), (wk_t _ _ _ _ _ K1), (wk_ty _ _ _ _ _ K1), (wk_tf _ _ _ _ _ K1), !Z.eqb_refl. cbn [andb]. rewrite W1, Q1.
    rewrite waLoad_self by congruence. cbn [obind]. eexists. split; [reflexivity|]. destruct K as [K1' K2' K3' K4' K5 K6 K7 K8 K9 K10 K11 K12 K13 K14 K15].
    split; [split; cbn [gw_lat gw_mt gw_rsize gw_tsize gw_rsq gw_rsym gw_tsq gw_tsym gw_tflag gw_w gw_accu g1 s_gw_accu]; auto; eexists; (split; [reflexivity|]); split; assumption|].
    split; [reflexivity|]. split; [reflexivity|]. unfold gwr, gwt, gwflag. cbn [gw_lat gw_mt gw_beta gw_rsq gw_tsq gw_tflag g1 s_gw_accu]. rewrite K1', K2'. repeat split; reflexivity. }
  destruct LD as (g2 & L1 & K2 & L2 & L3 & L4 & L5 & L6). exists g1, a, g2. split; [exact H1|]. split; [exact Q1|]. split; [exact L1|].
  assert (NP : 0 < @gwsym NumR g rin rout ur tin tout ut).
  { destruct (@gwCoord_spec NumR L mt rs ts g rin rout ur P K R1 R2 R3) as [Ec Rc]. destruct (@gwTau_spec NumR L mt rs ts g tin tout ut P K B1 B2) as [Et Rtt].
    destruct (vat_ok _ _ _ _ (wk_ry _ _ _ _ _ K) (wk_ryr _ _ _ _ _ K) Rc) as (p & A1 & A2 & A3). destruct (vat_ok _ _ _ _ (wk_ty _ _ _ _ _ K) (wk_tyr _ _ _ _ _ K) Rtt) as (q & B1' & B2' & B3).
    unfold gwsym. rewrite (wk_lat _ _ _ _ _ K), (wk_mt _ _ _ _ _ K), <- Ec, <- Et. erewrite !nth_error_nth by eauto. nia. }
  cbv zeta. split; [destruct (flipping sin); lia|].
  assert (S' : conserved sout sin) by (unfold conserved in *; lia). rewrite <- L3 in B1, B2.
  destruct (@gwWeight_ok NumR L mt rs ts g2 rin rout ur tin tout ut sout sin P K2 R1 R2 R3 B1 B2 S') as (a2 & x & X1 & X2 & X3). rewrite X3. f_equal.
  assert (a2 = a) by congruence. subst a2. assert (EK : gwk sout = gwk sin).
  { unfold gwk, flipping. unfold conserved, spin_current in S. destruct (sin IN), (sin OUT), (sout IN), (sout OUT); cbn in *; try lia; reflexivity. }
  rewrite L4, L5, EK in X2. unfold gwcell in H6. rewrite Q1, (wk_rs _ _ _ _ _ K1), (wk_ts _ _ _ _ _ K1) in H6. rewrite X2 in H6. injection H6 as ->.
  apply IZR_lt in NP. unfold gwread, gwstored, flipping. rewrite L6. set (n := @gwsym NumR g rin rout ur tin tout ut) in *.
  unfold conserved, spin_current in S. destruct w as [p q].
  destruct (@gwflag NumR g tin tout ut), (sin IN), (sin OUT), (sout IN), (sout OUT); cbn in S; try lia; cbn [spin_eqb negb]; rewrite ?Z.mul_1_r, ?mult_IZR;
    unfold cdiv_r, cneg, conj, cadd, c0, cofr, r0; cbn; change (@real NumR) with R in *; f_equal; field; lra.
Qed.
Print Assumptions C66_readback.
Example C66_case : exists g, gwpar g3_lat 4 1 1 /\ GWok g3_lat 4 1 1 g /\ site_ok g3_lat (mkSite 0 [1; 0]) /\ @bin_ok NumR (gw_beta g) 4 (1/4)%R (1/2)%R /\ @bin_ok NumR (gw_beta g) 4 (3/4)%R (1/2)%R /\
  conserved (fun d => match d with IN => UP | OUT => DOWN end) (fun d => match d with IN => DOWN | OUT => UP end) /\
  gwcell g (gwk (fun d => match d with IN => UP | OUT => DOWN end)) (gwr g (mkSite 0 [1; 0]) (mkSite 0 [1; 0]) (mkSite 0 [1; 0])) (@gwt NumR g (1/4)%R (3/4)%R (1/2)%R) = Some c0.
Proof.
  destruct g3_load as (g0 & g & _ & _ & K & B & Z0). exists g. assert (B1 : @bin_ok NumR (gw_beta g) 4 (1/4)%R (1/2)%R) by (rewrite B; apply binTau_range; lra || lia).
  assert (B2 : @bin_ok NumR (gw_beta g) 4 (3/4)%R (1/2)%R) by (rewrite B; apply binTau_range; lra || lia). assert (R1 : site_ok g3_lat (mkSite 0 [1; 0])) by (apply g3_site; lia).
  split; [exact g3_wpar|]. split; [exact K|]. split; [exact R1|]. split; [exact B1|]. split; [exact B2|]. split; [reflexivity|].
  destruct (C65_one_cell NumR g3_lat 4 1 1 g _ _ _ _ _ _ (fun d => match d with IN => UP | OUT => DOWN end) (fun d => match d with IN => DOWN | OUT => UP end) c0 g3_wpar K R1 R1 R1 B1 B2) as [_ (H1 & H2 & _)]; [reflexivity|].
  apply Z0; auto using gwk_range.
Qed.

(** ** C67: files of GammaW accepted at start-up keep accesses inside the arrays (false)
    1. entries are not compared with RSize and TauSize; 2. a second file with larger RSize is
    accepted while the arrays keep the size of the first. *)
Theorem C67_entries_in_range_refuted : exists (L : lattice) f g0 g (t : R) r, @gwNew NumR L 1%R 4 1 1%R = Ok g0 /\ gwWeightFromDict f g0 = Ok g /\
  site_ok L r /\ (0 <= t < 1)%R /\ @gwMeasure NumR r r r t t t (fun _ => UP) (fun _ => UP) (@c1 NumR) g = UB /\ @gwWeight NumR r r r t t t (fun _ => UP) (fun _ => UP) g = UB.
Proof.
  exists g3_lat, (@mkGWD NumR (repeat 7 16) (repeat 1 16) (repeat 0 16) (repeat 1 16) (repeat 0 16) 1 1 None). eexists _, _, 0%R, (mkSite 0 [0; 0]).
  split; [reflexivity|]. split; [reflexivity|]. split; [apply g3_site; lia|]. split; [lra|].
  match goal with |- @gwMeasure _ _ _ _ _ _ _ _ _ _ ?g = _ /\ _ => set (g1 := g) end.
  assert (T : @gwTau NumR g1 0%R 0%R 0%R = 0).
  { unfold gwTau, g1. cbn [gw_beta gw_mt]. unfold binTau. change (@rsub NumR 0 0)%R with (0 - 0)%R. rewrite wrapTau_R. assert (E : Rltb (0 - 0) 0 = false) by (apply Rltb_false; lra). rewrite E. cbn [fst].
    change (@rfloor NumR (@rmul NumR (0 - 0) (@rdiv NumR (@rofZ NumR 4) 1))%R) with (Int_part ((0 - 0) * (4 / 1))). rewrite (IntPart_bounds _ 0) by lra. reflexivity. }
  unfold gwMeasure, gwWeight, gwIndex. rewrite T. split; reflexivity.
Qed.
Print Assumptions C67_entries_in_range_refuted.
Theorem C67_second_file_refuted : exists (L : lattice) f1 f2 g0 g1 g2 (t : R) r, @gwNew NumR L 1%R 4 1 1%R = Ok g0 /\ gwWeightFromDict f1 g0 = Ok g1 /\ gwWeightFromDict f2 g1 = Ok g2 /\
  Forall (fun x => 0 <= x < gd_rsize f1) (gd_rsq f1) /\ Forall (fun x => 0 <= x < gd_rsize f2) (gd_rsq f2) /\ Forall (fun x => 0 <= x < gd_tsize f1) (gd_tsq f1) /\ Forall (fun x => 0 <= x < gd_tsize f2) (gd_tsq f2) /\
  site_ok L r /\ (0 <= t < 1)%R /\ @gwMeasure NumR r r r t t t (fun _ => UP) (fun _ => UP) (@c1 NumR) g2 = UB.
Proof.
  exists g3_lat, (@mkGWD NumR (repeat 0 16) (repeat 1 16) (repeat 0 16) (repeat 1 16) (repeat 0 16) 1 1 None), (@mkGWD NumR (repeat 7 16) (repeat 1 16) (repeat 0 16) (repeat 1 16) (repeat 0 16) 8 1 None).
  eexists _, _, _, 0%R, (mkSite 0 [0; 0]). split; [reflexivity|]. split; [reflexivity|]. split; [reflexivity|]. repeat (split; [repeat constructor; lia|]). split; [apply g3_site; lia|]. split; [lra|].
  match goal with |- @gwMeasure _ _ _ _ _ _ _ _ _ _ ?g = _ => set (g1 := g) end.
  assert (T : @gwTau NumR g1 0%R 0%R 0%R = 0).
  { unfold gwTau, g1. cbn [gw_beta gw_mt]. unfold binTau. change (@rsub NumR 0 0)%R with (0 - 0)%R. rewrite wrapTau_R. assert (E : Rltb (0 - 0) 0 = false) by (apply Rltb_false; lra). rewrite E. cbn [fst].
    change (@rfloor NumR (@rmul NumR (0 - 0) (@rdiv NumR (@rofZ NumR 4) 1))%R) with (Int_part ((0 - 0) * (4 / 1))). rewrite (IntPart_bounds _ 0) by lra. reflexivity. }
  unfold gwMeasure, gwIndex. rewrite T. reflexivity.
Qed.
Print Assumptions C67_second_file_refuted.

(** ** C68: a new run with three-point functions starts from a defined state (false)
    The pointers tested for null are uninitialised; and even if they happen to be null, the
    normalisation of GammaW is read before it is first written unless a statistics file is loaded. *)
Theorem C68_start_defined_refuted :
  (forall (N : Num) L beta mt mtt nb norm fG fW, loadGammaGW L beta mt mtt nb norm fG fW PWild PWild = UB) /\
  exists (L : lattice) f g w (x : R), @loadGammaGW NumR L 1%R 4 4 1 1%R None (Some f) PNull PNull = Ok (g, w) /\ @gwMeasureNorm NumR x w = UB.
Proof.
  split; [reflexivity|]. exists g3_lat, g3_file. eexists _, _, 1%R. split; reflexivity.
Qed.
Print Assumptions C68_start_defined_refuted.
(** a run continued from a weight file without GammaW statistics does clear it *)
Theorem C68_cleared_on_load : forall (N : Num) L beta mt mtt nb norm fG fW g w g' w' x,
  loadGammaGW L beta mt mtt nb norm fG fW PNull PNull = Ok (g, w) -> clearGammaGW (g, w) = Ok (g', w') ->
  exists w'', gwMeasureNorm x w' = Ok w'' /\ gw_nacc w'' = Some (radd (rofZ 0) x) /\ gg_nacc g' = rofZ 0.
Proof.
  intros N L beta mt mtt nb norm fG fW g w g' w' x _ E. unfold clearGammaGW in E. cbn [fst snd] in E. unfold gwClear in E. destruct (gw_accu w) as [a|]; [|discriminate E]. cbn [obind] in E. injection E as <- <-.
  eexists. split; [reflexivity|]. split; reflexivity.
Qed.
Print Assumptions C68_cleared_on_load.
Example C68_case : exists g w g' w', @loadGammaGW NumR g3_lat 1%R 4 4 1 1%R None (Some g3_file) PNull PNull = Ok (g, w) /\ clearGammaGW (g, w) = Ok (g', w').
Proof. eexists _, _, _, _. split; reflexivity. Qed.
