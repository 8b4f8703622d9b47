(** Proofs about Gamma3.v *)
From Coq Require Import ZArith List Bool Arith Lia Reals Lra.
From Verif Require Import Base Num NumR Complex Lattice IndexMap WeightEstimator Gamma3 P_Lattice P_IndexMap P_WeightEst.
Import ListNotations.
Open Scope Z_scope.

Section G3.
Context {N : Num}.

(** ** Arrays *)
Lemma waAdd_ok (a : warray) i w : 0 <= i < wa_size a -> exists a', waAdd i w a = Ok a' /\ wa_shape a' = wa_shape a /\ wa_size a' = wa_size a /\
  (exists c, nth_error (wa_data a) (Z.to_nat i) = Some c /\ nth_error (wa_data a') (Z.to_nat i) = Some (cadd c w)) /\
  forall k, 0 <= k -> k <> i -> nth_error (wa_data a') (Z.to_nat k) = nth_error (wa_data a) (Z.to_nat k).
Proof.
  intros H. unfold waAdd. destruct (Z.ltb_spec i 0); [lia|]. destruct (Z.leb_spec (wa_size a) i); [lia|]. cbn [orb].
  eexists. split; [reflexivity|]. cbn [wa_shape]. split; [reflexivity|]. unfold wa_size in *. cbn [wa_data]. rewrite lupd_length. split; [reflexivity|]. split.
  - destruct (nth_error (wa_data a) (Z.to_nat i)) as [c|] eqn:E.
    + exists c. split; [reflexivity|]. rewrite lupd_nth, Nat.eqb_refl, E. reflexivity.
    + apply nth_error_None in E. lia.
  - intros k K Ne. rewrite lupd_nth. destruct (Nat.eqb_spec (Z.to_nat i) (Z.to_nat k)); [lia|reflexivity].
Qed.
Lemma waGet_ok (a : warray) i : 0 <= i < wa_size a -> exists c, waGet i a = Ok c /\ nth_error (wa_data a) (Z.to_nat i) = Some c.
Proof.
  intros H. unfold waGet, wa_size in *. destruct (Z.ltb_spec i 0); [lia|]. destruct (nth_error _ _) as [c|] eqn:E; [exists c; auto|]. apply nth_error_None in E. lia.
Qed.
Lemma waLoad_self (a b : warray) : wa_shape b = wa_shape a -> wa_size b = wa_size a -> waLoad (wa_shape a) (wa_data a) b = Ok a.
Proof.
  unfold waLoad, wa_size. intros E1 E2. rewrite E1, eq_upto_refl. cbn [obind]. apply Nat2Z.inj in E2. rewrite E2, Nat.ltb_irrefl, firstn_all. now destruct a.
Qed.
Lemma allocate_size s : Forall (fun x => 0 < x) s -> prodz s < 2^32 -> wa_size (waAllocate s) = prodz s /\ forall i, 0 <= i < prodz s ->
  nth_error (wa_data (waAllocate s)) (Z.to_nat i) = Some c0.
Proof.
  intros F B. pose proof (prodz_pos s F). unfold wa_size, waAllocate. cbn [wa_data]. rewrite prod32_spec by auto. rewrite repeat_length. split; [lia|].
  intros i Hi. apply nth_repeat. lia.
Qed.
Lemma fill_size c (a : warray) : wa_size (waFill c a) = wa_size a.
Proof. unfold wa_size, waFill. cbn. now rewrite repeat_length. Qed.
Lemma scale_size x (a : warray) : wa_size (waScale x a) = wa_size a.
Proof. unfold wa_size, waScale. cbn. now rewrite map_length. Qed.

(** ** GammaG *)
Definition ggpar (L : lattice) (mt : Z) : Prop := Size L <> [] /\ Forall (fun s => 0 < s) (Size L) /\ 0 < mt /\ 2 * Vol L * mt * mt < 2^32.
Record GGok (L : lattice) (mt : Z) (g : ggam) : Prop := {
  gk_lat : gg_lat g = L; gk_mt : gg_mt g = mt;
  gk_sw : wa_shape (gg_w g) = [2; Vol L; mt; mt]; gk_sa : wa_shape (gg_accu g) = [2; Vol L; mt; mt];
  gk_w : wa_size (gg_w g) = 2 * Vol L * mt * mt; gk_a : wa_size (gg_accu g) = 2 * Vol L * mt * mt }.
Lemma ggpar_vol L mt : ggpar L mt -> 0 < Vol L /\ Vol L < 2^32 /\ mt * mt < 2^32 /\ mt * mt * Vol L < 2^32 /\ 0 < mt.
Proof. intros (H1 & H2 & H3 & H4). pose proof (Vol_pos _ H1 H2) as V. assert (Q : 0 < mt * mt) by nia. assert (X : 2 * Vol L * mt * mt = 2 * (Vol L * (mt * mt))) by ring.
  rewrite X in H4. set (q := mt * mt) in *. assert (q <= Vol L * q) by nia. assert (Vol L <= Vol L * q) by nia. rewrite (Z.mul_comm q). lia. Qed.
Lemma ggNew_ok L beta mt norm : ggpar L mt -> GGok L mt (ggNew L beta mt norm).
Proof.
  intros P. pose proof (ggpar_vol _ _ P) as (V1 & V2 & _). destruct P as (_ & _ & H3 & H4).
  unfold ggNew, ggClear. assert (EV : u32 (Vol L) = Vol L) by (unfold u32; apply Z.mod_small; lia). rewrite EV.
  assert (E : prodz [2; Vol L; mt; mt] = 2 * Vol L * mt * mt) by (unfold prodz; cbn [fold_right]; ring).
  destruct (allocate_size [2; Vol L; mt; mt]) as [S _]; [repeat constructor; lia|lia|].
  split; cbn [gg_lat gg_mt gg_w gg_accu]; try reflexivity; rewrite ?fill_size; lia.
Qed.
(** the position of an entry of the four-dimensional array *)
Definition ggpos (L : lattice) (mt s c b1 b2 : Z) : Z := ((s * Vol L + c) * mt + b1) * mt + b2.
Lemma ggpos_range L mt s c b1 b2 : 0 <= s < 2 -> 0 <= c < Vol L -> 0 <= b1 < mt -> 0 <= b2 < mt -> 0 <= ggpos L mt s c b1 b2 < 2 * Vol L * mt * mt.
Proof. intros. unfold ggpos. apply digit_range; auto. apply digit_range; auto. apply digit_range; auto. Qed.
Lemma ggpos_inj L mt s c b1 b2 s' c' b1' b2' : 0 <= c < Vol L -> 0 <= b1 < mt -> 0 <= b2 < mt -> 0 <= c' < Vol L -> 0 <= b1' < mt -> 0 <= b2' < mt ->
  ggpos L mt s c b1 b2 = ggpos L mt s' c' b1' b2' -> s = s' /\ c = c' /\ b1 = b1' /\ b2 = b2'.
Proof.
  intros H1 H2 H3 H4 H5 H6 E. unfold ggpos in E. apply digit_inj in E; auto. destruct E as [E ->]. apply digit_inj in E; auto. destruct E as [E ->].
  apply digit_inj in E; auto. tauto.
Qed.
Definition bin_ok (beta : real) (mt : Z) (t u : real) : Prop := 0 <= binTau beta mt (rsub t u) < mt.
Lemma spin01 s : 0 <= spinZ s < 2.
Proof. destruct s; cbn; lia. Qed.
Lemma spinZ_inj s s' : spinZ s = spinZ s' -> s = s'.
Proof. destruct s, s'; cbn; intros; congruence. Qed.
Lemma ggIndex_spec L mt g rin ur tin tout ut s : ggpar L mt -> GGok L mt g -> site_ok L rin -> site_ok L ur ->
  bin_ok (gg_beta g) mt tin ut -> bin_ok (gg_beta g) mt tout ut ->
  ggIndex g rin ur tin tout ut s = ggpos L mt (spinZ s) (CoordiIndex L rin ur) (binTau (gg_beta g) mt (rsub tout ut)) (binTau (gg_beta g) mt (rsub tin ut)) /\
  0 <= ggIndex g rin ur tin tout ut s < 2 * Vol L * mt * mt.
Proof.
  intros P [K1 K2 _ _ _ _] R1 R2 B1 B2. pose proof (ggpar_vol _ _ P) as (V1 & V2 & V3 & V4 & V5). destruct P as (P1 & P2 & P3 & P4).
  assert (C : 0 <= CoordiIndex L rin ur < Vol L) by (apply CoordiIndex_range; [auto|apply R1|apply R2]).
  unfold ggIndex. rewrite K1, K2. assert (E1 : u32 (mt * mt * Vol L) = mt * mt * Vol L) by (unfold u32; apply Z.mod_small; nia). assert (E2 : u32 (mt * mt) = mt * mt) by (unfold u32; apply Z.mod_small; nia). rewrite E1, E2.
  pose proof (ggpos_range L mt (spinZ s) _ _ _ (spin01 s) C B2 B1) as G. unfold u32.
  match goal with |- context [?x mod _] => replace x with (ggpos L mt (spinZ s) (CoordiIndex L rin ur) (binTau (gg_beta g) mt (rsub tout ut)) (binTau (gg_beta g) mt (rsub tin ut))) by (unfold ggpos; ring) end.
  rewrite Z.mod_small by lia. auto.
Qed.
(** entry [s][c][b1][b2] of the array StatisToDict writes *)
Definition ggcell (g : ggam) (s : spin) (c b1 b2 : Z) : option cplx := nth_error (wf_data (ggStatisToDict g)) (Z.to_nat (ggpos (gg_lat g) (gg_mt g) (spinZ s) c b1 b2)).

Lemma ggMeasure_ok L mt g rin ur tin tout ut s w : ggpar L mt -> GGok L mt g -> site_ok L rin -> site_ok L ur ->
  bin_ok (gg_beta g) mt tin ut -> bin_ok (gg_beta g) mt tout ut ->
  let c := CoordiIndex L rin ur in let b1 := binTau (gg_beta g) mt (rsub tout ut) in let b2 := binTau (gg_beta g) mt (rsub tin ut) in
  exists g', ggMeasure rin ur tin tout ut s w g = Ok g' /\ GGok L mt g' /\ gg_beta g' = gg_beta g /\ gg_norm g' = gg_norm g /\ gg_nacc g' = gg_nacc g /\ gg_w g' = gg_w g /\
    (exists x, ggcell g s c b1 b2 = Some x /\ ggcell g' s c b1 b2 = Some (cadd x (cmul_r w (ggSign g tin tout ut)))) /\
    forall s' c' b1' b2', 0 <= c' < Vol L -> 0 <= b1' < mt -> 0 <= b2' < mt -> (s', c', b1', b2') <> (s, c, b1, b2) -> ggcell g' s' c' b1' b2' = ggcell g s' c' b1' b2'.
Proof.
  intros P K R1 R2 B1 B2 c b1 b2. destruct (ggIndex_spec L mt g rin ur tin tout ut s P K R1 R2 B1 B2) as [E I].
  assert (C : 0 <= c < Vol L) by (apply CoordiIndex_range; [apply P|apply R1|apply R2]).
  unfold ggMeasure. destruct (waAdd_ok (gg_accu g) (ggIndex g rin ur tin tout ut s) (cmul_r w (ggSign g tin tout ut))) as (a & A1 & A2 & A3 & A4 & A5); [rewrite (gk_a _ _ _ K); exact I|].
  rewrite A1. cbn [obind]. destruct K as [K1 K2 K3 K4 K5 K6]. eexists. split; [reflexivity|]. split; [split; cbn [gg_lat gg_mt gg_w gg_accu]; congruence|]. repeat (split; [reflexivity|]).
  unfold ggcell, ggStatisToDict. cbn [wf_data gg_accu gg_lat gg_mt]. rewrite K1, K2. fold c b1 b2 in E. rewrite <- E. split; [exact A4|].
  intros s' c' b1' b2' H1 H2 H3 Ne. apply A5.
  - apply ggpos_range; auto using spin01.
  - rewrite E. intros X. apply ggpos_inj in X; auto. destruct X as (X & -> & -> & ->). apply spinZ_inj in X. subst. now apply Ne.
Qed.

Lemma CoordiIndex_eq L a b a' b' : Size L <> [] -> site_ok L a -> site_ok L b -> site_ok L a' -> site_ok L b' ->
  (CoordiIndex L a b = CoordiIndex L a' b' <-> disp (Size L) (coord a) (coord b) = disp (Size L) (coord a') (coord b')).
Proof.
  intros H [_ A] [_ B] [_ A'] [_ B']. rewrite !CoordiIndex_disp by auto. split; [|now intros ->]. intros E. apply (Vec2Index_inj L) in E; auto using disp_ok.
Qed.

(** any sequence of calls on a GammaG object *)
Inductive gop := GOMeasure (rin ur : site) (tin tout ut : real) (s : spin) (w : cplx) | GONorm (x : real) | GOSqueeze (f : real) | GOClear | GOReload (f : ggam).
Definition gop1 (o : gop) (g : ggam) : outcome ggam :=
  match o with
  | GOMeasure rin ur tin tout ut s w => ggMeasure rin ur tin tout ut s w g
  | GONorm x => Ok (ggMeasureNorm x g)
  | GOSqueeze f => ggSqueeze f g
  | GOClear => Ok (ggClear g)
  | GOReload f => ggStatisFromDict (ggStatisToDict f) g
  end.
Fixpoint grun (l : list gop) (g : ggam) : outcome ggam := match l with [] => Ok g | o :: l => obind (gop1 o g) (grun l) end.
Definition gop_ok (L : lattice) (beta : real) (mt : Z) (o : gop) : Prop :=
  match o with
  | GOMeasure rin ur tin tout ut s w => site_ok L rin /\ site_ok L ur /\ bin_ok beta mt tin ut /\ bin_ok beta mt tout ut
  | GOSqueeze f => rltb (rofZ 0) f = true
  | GOReload f => GGok L mt f
  | _ => True
  end.
Lemma eq_upto_self n l : (n <= List.length l)%nat -> eq_upto n l l = Ok true.
Proof. revert n. induction l as [|x l IH]; intros [|n] H; cbn in *; auto; [lia|]. rewrite Z.eqb_refl. apply IH. lia. Qed.
Lemma statis_load L mt f g : ggpar L mt -> GGok L mt f -> GGok L mt g ->
  ggStatisFromDict (ggStatisToDict f) g = Ok (mkGG (gg_beta g) (gg_mt g) (gg_lat g) (gg_norm f) (gg_nacc f) (gg_w g) (gg_accu f)).
Proof.
  intros P F G. destruct (ggpar_vol _ _ P) as (V1 & _). destruct P as (_ & _ & P3 & P4). destruct F as [F1 F2 F3 F4 F5 F6], G as [G1 G2 G3 G4 G5 G6].
  unfold ggStatisFromDict, ggStatisToDict. cbn [wf_shape wf_norm wf_nacc wf_data]. rewrite F4, G4, eq_upto_self by (cbn; lia). cbn [obind].
  rewrite prod32_spec; [|repeat constructor; lia|unfold prodz; cbn [fold_right]; lia].
  assert (E : Z.to_nat (prodz [2; Vol L; mt; mt]) = List.length (wa_data (gg_accu f))).
  { unfold prodz. cbn [fold_right]. unfold wa_size in F6. lia. }
  rewrite E, Nat.ltb_irrefl, firstn_all. unfold waCopy. rewrite fill_size, G6, <- F6. unfold wa_size at 1. rewrite Z.ltb_irrefl. cbn [obind]. unfold waFill. cbn [wa_data wa_shape].
  assert (E2 : List.length (wa_data (gg_accu f)) = List.length (wa_data (gg_accu g))) by (unfold wa_size in *; lia).
  rewrite E2. replace (skipn _ _) with (@nil cplx); [|symmetry; apply skipn_all2; rewrite repeat_length; lia].
  rewrite app_nil_r, G4, <- F4. destruct f as [fb fm fl fn fa fw [fs fd]]. reflexivity.
Qed.
Lemma grun_ok L beta mt : ggpar L mt -> forall l g, Forall (gop_ok L beta mt) l -> GGok L mt g -> gg_beta g = beta ->
  exists g', grun l g = Ok g' /\ GGok L mt g' /\ gg_beta g' = beta.
Proof.
  intros P. induction l as [|o l IH]; intros g F K B; [exists g; auto|]. inversion F as [|x y F1 F2]; subst x y. cbn [grun].
  assert (Q : exists g', gop1 o g = Ok g' /\ GGok L mt g' /\ gg_beta g' = beta).
  { destruct o as [rin ur tin tout ut s w|x|f| |f]; cbn [gop1 gop_ok] in *.
    - destruct F1 as (R1 & R2 & B1 & B2). rewrite <- B in B1, B2. destruct (ggMeasure_ok L mt g rin ur tin tout ut s w P K R1 R2 B1 B2) as (g' & E & K' & B' & _). exists g'. split; [exact E|]. split; [exact K'|congruence].
    - exists (ggMeasureNorm x g). split; [reflexivity|]. split; [|exact B]. destruct K as [K1 K2 K3 K4 K5 K6]; split; auto.
    - unfold ggSqueeze. rewrite F1. eexists. split; [reflexivity|]. split; [|exact B]. destruct K as [K1 K2 K3 K4 K5 K6]; split; cbn [gg_lat gg_mt gg_w gg_accu]; rewrite ?scale_size; auto.
    - eexists. split; [reflexivity|]. split; [|exact B]. destruct K as [K1 K2 K3 K4 K5 K6]; split; unfold ggClear; cbn [gg_lat gg_mt gg_w gg_accu]; rewrite ?fill_size; auto.
    - rewrite (statis_load L mt f g P F1 K). eexists. split; [reflexivity|]. split; [|exact B]. destruct K as [K1 K2 K3 K4 K5 K6], F1 as [L1 L2 L3 L4 L5 L6]; split; auto. }
  destruct Q as (g' & E & K' & B'). rewrite E. cbn [obind]. now apply IH.
Qed.

(** ** GammaW *)
(** a loaded table whose entries are in range: squeezed positions below RSize and TauSize,
    products of symmetry factors fit an int *)
Record GWok (L : lattice) (mt rs ts : Z) (g : gwam) : Prop := {
  wk_lat : gw_lat g = L; wk_mt : gw_mt g = mt; wk_rs : gw_rsize g = rs; wk_ts : gw_tsize g = ts;
  wk_r : Z.of_nat (List.length (gw_rsq g)) = Vol L * Vol L; wk_ry : Z.of_nat (List.length (gw_rsym g)) = Vol L * Vol L;
  wk_t : Z.of_nat (List.length (gw_tsq g)) = mt * mt; wk_ty : Z.of_nat (List.length (gw_tsym g)) = mt * mt;
  wk_tf : Z.of_nat (List.length (gw_tflag g)) = mt * mt;
  wk_rr : Forall (fun x => 0 <= x < rs) (gw_rsq g); wk_tr : Forall (fun x => 0 <= x < ts) (gw_tsq g);
  wk_ryr : Forall (fun x => 0 < x < 2^15) (gw_rsym g); wk_tyr : Forall (fun x => 0 < x < 2^15) (gw_tsym g);
  wk_w : exists a, gw_w g = Some a /\ wa_shape a = [2; rs; ts] /\ wa_size a = 2 * rs * ts;
  wk_a : exists a, gw_accu g = Some a /\ wa_shape a = [2; rs; ts] /\ wa_size a = 2 * rs * ts }.
Definition gwpar (L : lattice) (mt rs ts : Z) : Prop := Size L <> [] /\ Forall (fun s => 0 < s) (Size L) /\ 0 < mt /\ mt * mt < 2^32 /\
  Vol L * Vol L < 2^32 /\ 0 < rs /\ 0 < ts /\ 2 * rs * ts < 2^32.
Lemma vat_ok l i n P : Z.of_nat (List.length l) = n -> Forall P l -> 0 <= i < n -> exists x, vat l i = Ok x /\ nth_error l (Z.to_nat i) = Some x /\ P x.
Proof.
  intros E F H. unfold vat. destruct (Z.ltb_spec i 0); [lia|]. destruct (nth_error l (Z.to_nat i)) as [x|] eqn:Q.
  - exists x. split; [reflexivity|]. split; [reflexivity|]. apply nth_error_In in Q. rewrite Forall_forall in F. auto.
  - apply nth_error_None in Q. lia.
Qed.
Lemma vat_ok' l i n : Z.of_nat (List.length l) = n -> 0 <= i < n -> exists x, vat l i = Ok x /\ nth_error l (Z.to_nat i) = Some x.
Proof. intros E H. destruct (vat_ok l i n (fun _ => True) E) as (x & X & Y & _); auto; [|eauto]. apply Forall_forall. auto. Qed.
Lemma gwCoord_spec L mt rs ts g rin rout ur : gwpar L mt rs ts -> GWok L mt rs ts g -> site_ok L rin -> site_ok L rout -> site_ok L ur ->
  gwCoord g rin rout ur = CoordiIndex L rout ur * Vol L + CoordiIndex L rin ur /\ 0 <= gwCoord g rin rout ur < Vol L * Vol L.
Proof.
  intros (P1 & P2 & _ & _ & P5 & _) K [_ R1] [_ R2] [_ R3]. pose proof (Vol_pos _ P1 P2).
  pose proof (CoordiIndex_range L rin ur P1 R1 R3) as C1. pose proof (CoordiIndex_range L rout ur P1 R2 R3) as C2.
  pose proof (digit_range _ _ _ _ C2 C1) as D. unfold gwCoord. rewrite (wk_lat _ _ _ _ _ K). assert (E1 : u32 (Vol L) = Vol L) by (unfold u32; apply Z.mod_small; nia). rewrite E1.
  unfold u32. rewrite Z.mod_small by lia. auto.
Qed.
Lemma gwTau_spec L mt rs ts g tin tout ut : gwpar L mt rs ts -> GWok L mt rs ts g -> bin_ok (gw_beta g) mt tin ut -> bin_ok (gw_beta g) mt tout ut ->
  gwTau g tin tout ut = binTau (gw_beta g) mt (rsub tout ut) * mt + binTau (gw_beta g) mt (rsub tin ut) /\ 0 <= gwTau g tin tout ut < mt * mt.
Proof.
  intros (_ & _ & P3 & P4 & _) K B1 B2. pose proof (digit_range _ _ _ _ B2 B1) as D. unfold gwTau. rewrite (wk_mt _ _ _ _ _ K). unfold u32. rewrite Z.mod_small by lia. auto.
Qed.
(** spins of the two ends of an interaction line without worm: the spin change at one end is
    undone at the other *)
Definition spin_current (s : dir -> spin) : Z := spinZ (s IN) - spinZ (s OUT).
Definition conserved (sin sout : dir -> spin) : Prop := spin_current sin + spin_current sout = 0.
Lemma spin_index sin sout : (conserved sin sout <-> gwSpinIndex sout sin <> None) /\ forall n, gwSpinIndex sout sin = Some n -> 0 <= n < 6.
Proof.
  unfold conserved, spin_current, gwSpinIndex. split.
  - destruct (sin IN), (sin OUT), (sout IN), (sout OUT); cbn; split; intros H; try discriminate; try lia; try (intros X; discriminate); exfalso; apply H; reflexivity.
  - intros n. destruct (sin IN), (sin OUT), (sout IN), (sout OUT); intros E; try discriminate; injection E as <-; lia.
Qed.
Definition flipping (s : dir -> spin) : bool := negb (spin_eqb (s IN) (s OUT)).
Definition gwpos (rs ts k r t : Z) : Z := (k * rs + r) * ts + t.
Definition gwcell (g : gwam) (k r t : Z) : option cplx :=
  match gw_accu g with None => None | Some a => nth_error (wa_data a) (Z.to_nat (gwpos (gw_rsize g) (gw_tsize g) k r t)) end.
(** the representative of the pair of displacements, and of the pair of bins *)
Definition gwr (g : gwam) (rin rout ur : site) : Z := nth (Z.to_nat (CoordiIndex (gw_lat g) rout ur * Vol (gw_lat g) + CoordiIndex (gw_lat g) rin ur)) (gw_rsq g) 0.
Definition gwt (g : gwam) (tin tout ut : real) : Z := nth (Z.to_nat (binTau (gw_beta g) (gw_mt g) (rsub tout ut) * gw_mt g + binTau (gw_beta g) (gw_mt g) (rsub tin ut))) (gw_tsq g) 0.
Definition gwk (s : dir -> spin) : Z := if flipping s then 1 else 0.
Lemma gwIndex_spec L mt rs ts g rin rout ur tin tout ut sin sout : gwpar L mt rs ts -> GWok L mt rs ts g -> site_ok L rin -> site_ok L rout -> site_ok L ur ->
  bin_ok (gw_beta g) mt tin ut -> bin_ok (gw_beta g) mt tout ut -> conserved sin sout ->
  gwIndex g rin rout ur tin tout ut (gwSpinIndex sout sin) = Ok (gwpos rs ts (gwk sin) (gwr g rin rout ur) (gwt g tin tout ut)) /\
  0 <= gwr g rin rout ur < rs /\ 0 <= gwt g tin tout ut < ts.
Proof.
  intros P K R1 R2 R3 B1 B2 S. destruct (gwCoord_spec L mt rs ts g rin rout ur P K R1 R2 R3) as [Ec Rc]. destruct (gwTau_spec L mt rs ts g tin tout ut P K B1 B2) as [Et Rt].
  destruct (vat_ok _ _ _ _ (wk_r _ _ _ _ _ K) (wk_rr _ _ _ _ _ K) Rc) as (a & A1 & A2 & A3).
  destruct (vat_ok _ _ _ _ (wk_t _ _ _ _ _ K) (wk_tr _ _ _ _ _ K) Rt) as (b & B1' & B2' & B3).
  assert (EA : gwr g rin rout ur = a). { unfold gwr. rewrite (wk_lat _ _ _ _ _ K), <- Ec. erewrite nth_error_nth; eauto. }
  assert (EB : gwt g tin tout ut = b). { unfold gwt. rewrite (wk_mt _ _ _ _ _ K), <- Et. erewrite nth_error_nth; eauto. }
  rewrite EA, EB. split; [|auto]. unfold gwIndex. rewrite A1, B1'. cbn [obind]. rewrite (wk_rs _ _ _ _ _ K), (wk_ts _ _ _ _ _ K).
  destruct P as (P1 & P2 & P3 & P4 & P5 & P6 & P7 & P8). assert (0 <= a * ts + b < rs * ts) by (apply digit_range; auto).
  assert (F1 : u32 (a * ts + b) = a * ts + b) by (unfold u32; apply Z.mod_small; lia). rewrite F1.
  assert (F2 : u32 (a * ts + b + rs * ts) = a * ts + b + rs * ts) by (unfold u32; apply Z.mod_small; lia). rewrite F2.
  assert (EQ : match gwSpinIndex sout sin with Some n => 4 <=? n | None => true end = flipping sin).
  { unfold flipping. unfold conserved, spin_current, gwSpinIndex in *. destruct (sin IN), (sin OUT), (sout IN), (sout OUT); cbn in S |- *; try lia; reflexivity. }
  rewrite EQ. unfold gwpos, gwk. destruct (flipping sin); f_equal; ring.
Qed.
Lemma gwpos_range rs ts k r t : 0 <= k < 2 -> 0 <= r < rs -> 0 <= t < ts -> 0 <= gwpos rs ts k r t < 2 * rs * ts.
Proof. intros. unfold gwpos. apply digit_range; auto. apply digit_range; auto. Qed.
Lemma gwpos_inj rs ts k r t k' r' t' : 0 <= r < rs -> 0 <= t < ts -> 0 <= r' < rs -> 0 <= t' < ts -> gwpos rs ts k r t = gwpos rs ts k' r' t' -> k = k' /\ r = r' /\ t = t'.
Proof. intros H1 H2 H3 H4 E. unfold gwpos in E. apply digit_inj in E; auto. destruct E as [E ->]. apply digit_inj in E; auto. tauto. Qed.
Lemma gwk_range s : 0 <= gwk s < 2.
Proof. unfold gwk. destruct (flipping s); lia. Qed.
(** the symmetry factor by which a contribution is divided *)
Definition gwsym (g : gwam) (rin rout ur : site) (tin tout ut : real) : Z :=
  nth (Z.to_nat (CoordiIndex (gw_lat g) rout ur * Vol (gw_lat g) + CoordiIndex (gw_lat g) rin ur)) (gw_rsym g) 0 *
  nth (Z.to_nat (binTau (gw_beta g) (gw_mt g) (rsub tout ut) * gw_mt g + binTau (gw_beta g) (gw_mt g) (rsub tin ut))) (gw_tsym g) 0.
Definition gwflag (g : gwam) (tin tout ut : real) : bool :=
  negb (nth (Z.to_nat (binTau (gw_beta g) (gw_mt g) (rsub tout ut) * gw_mt g + binTau (gw_beta g) (gw_mt g) (rsub tin ut))) (gw_tflag g) 0 =? 0).
(** what is added to the cell *)
Definition gwstored (g : gwam) (rin rout ur : site) (tin tout ut : real) (sin sout : dir -> spin) (w : cplx) : cplx :=
  let w := cdiv_r w (rofZ (gwsym g rin rout ur tin tout ut)) in
  let w := if gwflag g tin tout ut then cneg (conj w) else w in
  if flipping sout then (if spin_eqb (sout IN) UP then cdiv_r w (rofZ 2) else cdiv_r (cneg (conj w)) (rofZ 2))
  else if spin_eqb (sout IN) (sin IN) then w else cneg w.
Definition gwread (g : gwam) (tin tout ut : real) (sin sout : dir -> spin) (w : cplx) : cplx :=
  let w := if gwflag g tin tout ut then cneg (conj w) else w in
  if flipping sout then (if spin_eqb (sout IN) UP then cneg (conj w) else w)
  else if spin_eqb (sout IN) (sin IN) then w else cneg w.
Lemma gwMeasure_ok L mt rs ts g rin rout ur tin tout ut sin sout w : gwpar L mt rs ts -> GWok L mt rs ts g -> site_ok L rin -> site_ok L rout -> site_ok L ur ->
  bin_ok (gw_beta g) mt tin ut -> bin_ok (gw_beta g) mt tout ut -> conserved sin sout ->
  exists a, gwMeasure rin rout ur tin tout ut sin sout w g = Ok (s_gw_accu g (Some a)) /\ GWok L mt rs ts (s_gw_accu g (Some a)) /\
   0 <= gwr g rin rout ur < rs /\ 0 <= gwt g tin tout ut < ts /\
   (exists x, gwcell g (gwk sin) (gwr g rin rout ur) (gwt g tin tout ut) = Some x /\
      gwcell (s_gw_accu g (Some a)) (gwk sin) (gwr g rin rout ur) (gwt g tin tout ut) = Some (cadd x (gwstored g rin rout ur tin tout ut sin sout w))) /\
   forall k r t, 0 <= k < 2 -> 0 <= r < rs -> 0 <= t < ts -> (k, r, t) <> (gwk sin, gwr g rin rout ur, gwt g tin tout ut) -> gwcell (s_gw_accu g (Some a)) k r t = gwcell g k r t.
Proof.
  intros P K R1 R2 R3 B1 B2 S. destruct (gwIndex_spec L mt rs ts g rin rout ur tin tout ut sin sout P K R1 R2 R3 B1 B2 S) as (E & Rr & Rt).
  destruct (gwCoord_spec L mt rs ts g rin rout ur P K R1 R2 R3) as [Ec Rc]. destruct (gwTau_spec L mt rs ts g tin tout ut P K B1 B2) as [Et Rtt].
  destruct (vat_ok _ _ _ _ (wk_ry _ _ _ _ _ K) (wk_ryr _ _ _ _ _ K) Rc) as (a & A1 & A2 & A3).
  destruct (vat_ok _ _ _ _ (wk_ty _ _ _ _ _ K) (wk_tyr _ _ _ _ _ K) Rtt) as (b & B1' & B2' & B3).
  destruct (vat_ok' _ _ _ (wk_tf _ _ _ _ _ K) Rtt) as (fl & F1 & F2).
  assert (ES : gwsym g rin rout ur tin tout ut = a * b).
  { unfold gwsym. rewrite (wk_lat _ _ _ _ _ K), (wk_mt _ _ _ _ _ K), <- Ec, <- Et. erewrite !nth_error_nth; eauto. }
  assert (EF : gwflag g tin tout ut = negb (fl =? 0)).
  { unfold gwflag. rewrite (wk_mt _ _ _ _ _ K), <- Et. erewrite nth_error_nth; eauto. }
  assert (I : int_ok (a * b) = true). { unfold int_ok. apply andb_true_intro. split; [apply Z.leb_le|apply Z.ltb_lt]; nia. }
  destruct (wk_a _ _ _ _ _ K) as (ac & Q1 & Q2 & Q3).
  assert (PR : 0 <= gwpos rs ts (gwk sin) (gwr g rin rout ur) (gwt g tin tout ut) < 2 * rs * ts) by (apply gwpos_range; auto using gwk_range).
  set (i := gwpos rs ts (gwk sin) (gwr g rin rout ur) (gwt g tin tout ut)) in *.
  destruct (waAdd_ok ac i (gwstored g rin rout ur tin tout ut sin sout w)) as (a' & H1 & H2 & H3 & H4 & H5); [lia|].
  exists a'. split.
  { unfold gwMeasure. rewrite E. cbn [obind]. rewrite A1, B1', F1. cbn [obind]. rewrite I. cbn [negb]. rewrite Q1.
    unfold gwstored in H1. rewrite ES, EF in H1. destruct (fl =? 0) eqn:Z0; cbn [negb] in H1;
    unfold conserved, spin_current, flipping in *; unfold gwSpinIndex; destruct (sin IN), (sin OUT), (sout IN), (sout OUT); cbn in S; try lia; cbn [spin_eqb negb] in H1; rewrite H1; reflexivity. }
  assert (Q1' : gw_accu g = Some ac) by exact Q1.
  destruct K as [K1 K2 K3 K4 K5 K6 K7 K8 K9 K10 K11 K12 K13 K14 K15]. split; [|split; [exact Rr|split; [exact Rt|]]].
  - split; auto. exists a'. cbn. split; [reflexivity|]. rewrite H2, H3. auto.
  - unfold gwcell. cbn [s_gw_accu gw_accu gw_rsize gw_tsize]. rewrite Q1', K3, K4. fold i. split; [exact H4|].
    intros k r t Hk Hr Ht Ne. apply H5; [apply gwpos_range; auto|]. unfold i. intros X. apply gwpos_inj in X; auto. destruct X as (-> & -> & ->). now apply Ne.
Qed.
Lemma gwMeasure_worm L mt rs ts g rin rout ur tin tout ut sin sout w : gwpar L mt rs ts -> GWok L mt rs ts g -> site_ok L rin -> site_ok L rout -> site_ok L ur ->
  bin_ok (gw_beta g) mt tin ut -> bin_ok (gw_beta g) mt tout ut -> ~ conserved sin sout -> gwMeasure rin rout ur tin tout ut sin sout w g = Ok g.
Proof.
  intros P K R1 R2 R3 B1 B2 S. destruct (gwCoord_spec L mt rs ts g rin rout ur P K R1 R2 R3) as [Ec Rc]. destruct (gwTau_spec L mt rs ts g tin tout ut P K B1 B2) as [Et Rtt].
  destruct (vat_ok _ _ _ _ (wk_ry _ _ _ _ _ K) (wk_ryr _ _ _ _ _ K) Rc) as (a & A1 & A2 & A3).
  destruct (vat_ok _ _ _ _ (wk_ty _ _ _ _ _ K) (wk_tyr _ _ _ _ _ K) Rtt) as (b & B1' & B2' & B3).
  destruct (vat_ok' _ _ _ (wk_tf _ _ _ _ _ K) Rtt) as (fl & F1 & F2).
  destruct (vat_ok _ _ _ _ (wk_r _ _ _ _ _ K) (wk_rr _ _ _ _ _ K) Rc) as (c & C1 & _).
  destruct (vat_ok _ _ _ _ (wk_t _ _ _ _ _ K) (wk_tr _ _ _ _ _ K) Rtt) as (e & E1 & _).
  assert (I : int_ok (a * b) = true). { unfold int_ok. apply andb_true_intro. split; [apply Z.leb_le|apply Z.ltb_lt]; nia. }
  assert (X : gwSpinIndex sout sin = None). { destruct (gwSpinIndex sout sin) eqn:E; auto. exfalso. apply S, (proj1 (spin_index sin sout)). rewrite E. discriminate. }
  unfold gwMeasure, gwIndex. rewrite X, C1, E1. cbn [obind]. rewrite A1, B1', F1. cbn [obind]. rewrite I. reflexivity.
Qed.
Lemma gwWeight_ok L mt rs ts g rin rout ur tin tout ut sin sout : gwpar L mt rs ts -> GWok L mt rs ts g -> site_ok L rin -> site_ok L rout -> site_ok L ur ->
  bin_ok (gw_beta g) mt tin ut -> bin_ok (gw_beta g) mt tout ut -> conserved sin sout ->
  exists a x, gw_w g = Some a /\ nth_error (wa_data a) (Z.to_nat (gwpos rs ts (gwk sin) (gwr g rin rout ur) (gwt g tin tout ut))) = Some x /\
    gwWeight rin rout ur tin tout ut sin sout g = Ok (gwread g tin tout ut sin sout x).
Proof.
  intros P K R1 R2 R3 B1 B2 S. destruct (gwIndex_spec L mt rs ts g rin rout ur tin tout ut sin sout P K R1 R2 R3 B1 B2 S) as (E & Rr & Rt).
  destruct (gwTau_spec L mt rs ts g tin tout ut P K B1 B2) as [Et Rtt].
  destruct (vat_ok' _ _ _ (wk_tf _ _ _ _ _ K) Rtt) as (fl & F1 & F2).
  assert (EF : gwflag g tin tout ut = negb (fl =? 0)).
  { unfold gwflag. rewrite (wk_mt _ _ _ _ _ K), <- Et. erewrite nth_error_nth; eauto. }
  destruct (wk_w _ _ _ _ _ K) as (a & Q1 & Q2 & Q3).
  assert (PR : 0 <= gwpos rs ts (gwk sin) (gwr g rin rout ur) (gwt g tin tout ut) < 2 * rs * ts) by (apply gwpos_range; auto using gwk_range).
  destruct (waGet_ok a (gwpos rs ts (gwk sin) (gwr g rin rout ur) (gwt g tin tout ut))) as (x & X1 & X2); [lia|]. exists a, x. split; [exact Q1|]. split; [exact X2|].
  unfold gwWeight. rewrite E. cbn [obind]. rewrite Q1, X1. cbn [obind]. rewrite F1. cbn [obind]. unfold gwread. rewrite EF.
  unfold conserved, spin_current, flipping in *; unfold gwSpinIndex; destruct (fl =? 0); destruct (sin IN), (sin OUT), (sout IN), (sout OUT); cbn in S; try lia; reflexivity.
Qed.
End G3.

(** ** Exact arithmetic: the bins *)
Lemma wrapTau_R (beta t : R) : @wrapTau NumR beta t = if Rltb t 0 then ((t + beta)%R, true) else (t, false).
Proof. reflexivity. Qed.
Lemma binTau_range (beta : R) (mt : Z) (t u : R) : (0 < beta)%R -> 0 < mt -> (0 <= t < beta)%R -> (0 <= u < beta)%R -> @bin_ok NumR beta mt t u.
Proof.
  intros HB HM Ht Hu. unfold bin_ok, binTau. change (@rsub NumR t u) with (t - u)%R. rewrite wrapTau_R.
  assert (X : exists x : R, fst (if Rltb (t - u) 0 then ((t - u + beta)%R, true) else ((t - u)%R, false)) = x /\ (0 <= x < beta)%R).
  { destruct (Rltb (t - u) 0) eqn:F; [apply Rltb_spec in F|apply Rltb_false in F]; cbn [fst]; eexists; (split; [reflexivity|lra]). }
  destruct X as (x & E & Hx). match goal with |- context [@fst ?A ?B ?q] => replace (@fst A B q) with x by (symmetry; exact E) end.
  change (0 <= Int_part (x * (IZR mt / beta)) < mt). apply IZR_lt in HM. apply IntPart_range.
  assert (EX : (x * (IZR mt / beta) = (x / beta) * IZR mt)%R) by (field; lra). rewrite EX.
  assert (Q : (0 <= x / beta < 1)%R).
  { assert (Hb : (0 < / beta)%R) by (now apply Rinv_0_lt_compat). unfold Rdiv. split; [apply Rmult_le_pos; lra|]. apply (Rmult_lt_reg_r beta); [lra|]. rewrite Rmult_assoc, Rinv_l by lra. lra. }
  split; [apply Rmult_le_pos; lra|]. nra.
Qed.
Lemma ggSign_R (g : @ggam NumR) (tin tout ut : R) : @ggSign NumR g tin tout ut = (if xorb (Rltb (tout - ut) 0) (Rltb (tin - ut) 0) then -1 else 1)%R.
Proof.
  unfold ggSign. change (@rsub NumR tout ut) with (tout - ut)%R. change (@rsub NumR tin ut) with (tin - ut)%R. rewrite !wrapTau_R.
  destruct (Rltb (tout - ut) 0), (Rltb (tin - ut) 0); cbn [snd xorb]; unfold flips; cbn; lra.
Qed.
Lemma ggSign_sq (g : @ggam NumR) (tin tout ut : R) : (@ggSign NumR g tin tout ut * @ggSign NumR g tin tout ut = 1)%R.
Proof. rewrite ggSign_R. destruct (xorb _ _); lra. Qed.
