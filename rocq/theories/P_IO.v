(** Saving, loading and building a diagram *)
From Coq Require Import ZArith List Bool Arith Lia ZifyBool.
From Verif Require Import Base Num RNG Momentum Complex Lattice Bundle IndexMap Weights Diagram Markov DiagramIO
  P_Momentum P_RNG P_Bundle P_Lattice P_IndexMap P_WP P_Inv P_Rel P_Sem1 P_Fix.
Import ListNotations.
Open Scope Z_scope.

Section IO.
Context {N : Num}.

(** ** An invariant state can be fixed again *)
Lemma Inv_Pre c d : Inv c d -> Pre c d.
Proof.
  intros HI. constructor.
  - exact (i_bg _ _ HI).
  - exact (i_bw _ _ HI).
  - exact (i_bv _ _ HI).
  - destruct (i_cnt _ _ HI) as (_ & A & B & C & D). auto.
  - intros g e L. now apply (i_tG _ _ HI).
  - intros g g' e L L' X. apply (f_gv_inj HI g g' e); auto.
  - intros w e L. now apply (i_tW _ _ HI).
  - intros w w' e e' L L' X. destruct (proj1 (i_tW _ _ HI) w e L) as (_ & A & B), (proj1 (i_tW _ _ HI) w' e' L') as (_ & A' & B').
    rewrite X in A, B. split; congruence.
  - exact (i_hG _ _ HI).
  - exact (i_hW _ _ HI).
  - exact (i_hW0 _ _ HI).
  - intros gi go w e Li Lo Lw E1 E2. destruct (proj1 (i_tW _ _ HI) w e Lw) as (Lv & A & B).
    pose proof (i_K _ _ HI _ Lv) as X.
    destruct (proj1 (i_tG _ _ HI) gi OUT Li) as (_ & G1). destruct (proj1 (i_tG _ _ HI) go IN Lo) as (_ & G2). cbn [inv] in *.
    rewrite E1 in G1. rewrite E2 in G2. rewrite G1, G2, A, B in X. exact X.
  - exact (i_spin _ _ HI).
  - intros w L. rewrite (i_cur _ _ HI w L). pose proof (i_worm _ _ HI) as W. unfold Worm in W. destruct (wm_ex d); auto.
    destruct W as (Li & Lm & _).
    assert (Q : forall v, live (vB d) v -> Nat.eqb (v_W d v) w = Nat.eqb (w_ver d w IN) v || Nat.eqb (w_ver d w OUT) v).
    { intros v Lv. apply eq_true_iff_eq. rewrite orb_true_iff, !Nat.eqb_eq. split.
      - intros <-. destruct (proj2 (i_tW _ _ HI) v Lv) as [_ X]. destruct (v_D d v); auto.
      - intros [<- | <-]; apply (i_tW _ _ HI); auto. }
    now rewrite !Q by auto.
  - exact (i_meas _ _ HI).
  - intros Ex. pose proof (i_worm _ _ HI) as W. unfold Worm in W. rewrite Ex in W.
    destruct W as (Li & Lm & Nim & Dm & _ & Ds & Hk & _). split; [auto|]. split; [auto|]. split; [auto|]. split; [|auto].
    destruct (proj2 (i_tW _ _ HI) _ Lm) as [Lw X]. rewrite Dm in X. eauto.
  - exact (i_delta _ _ HI).
  - exact (i_loc _ _ HI).
  - exact (i_site _ _ HI).
  - exact (i_tau _ _ HI).
Qed.

(** ** ToDict *)
Definition tv (d : diagram) (v : nat) : vdict := mkVD (nm (vB d) v) (v_R d v) (v_T d v) (v_S d v IN) (v_S d v OUT).
Definition tg (d : diagram) (g : nat) : gdict :=
  mkGD (nm (vB d) (g_ver d g IN)) (nm (vB d) (g_ver d g OUT)) (g_K d g) (g_meas d g) (g_gg d g).
Definition tw (d : diagram) (w : nat) : wdict :=
  mkWD (nm (vB d) (w_ver d w IN)) (nm (vB d) (w_ver d w OUT)) (w_K d w) (w_delta d w) (w_meas d w) (w_ww d w).
Definition two (d : diagram) : option wormdict :=
  if wm_ex d then Some (mkWoD (nm (vB d) (ira d)) (nm (vB d) (masha d)) (wm_ds d) (wm_K d)) else None.
Definition tconf (d : diagram) : config :=
  mkConf (map (tv d) (liveL (vB d))) (map (tg d) (liveL (gB d))) (map (tw d) (liveL (wB d))) (two d) (sfl d).

Lemma to_list_spec {A} b (f : nat -> outcome A) (h : nat -> A) : BInv b -> (forall x, live b x -> f x = Ok (h x)) ->
  forall n i, (i + n <= avail b)%nat -> to_list b f i n = Ok (map h (map (names b) (seq i n))).
Proof.
  intros B H. induction n as [|n IH]; intros i Hi; cbn [to_list seq map]; auto.
  destruct (bat_spec b i B) as [E L]; [lia|]. rewrite E. cbn [obind]. rewrite (H _ L). cbn [obind]. rewrite IH by lia. reflexivity.
Qed.
Lemma ToDict_spec c d : Pre c d -> ToDict d = Ok (tconf d).
Proof.
  intros P. unfold ToDict.
  rewrite (to_list_spec (vB d) (to_v d) (tv d) (p_bv _ _ P)); [|reflexivity|unfold bhowmany; lia]. cbn [obind].
  assert (Nm : forall p, live (vB d) p -> name_of (vB d) p = Ok (nm (vB d) p)).
  { intros p [Lp _]. unfold name_of, MAX_BUNDLE. apply Nat.ltb_lt in Lp. now rewrite Lp. }
  rewrite (to_list_spec (gB d) (to_g d) (tg d) (p_bg _ _ P)); [| |unfold bhowmany; lia].
  2:{ intros x Lx. unfold to_g. rewrite !Nm by (apply (p_gv _ _ P); auto). reflexivity. }
  cbn [obind]. rewrite (to_list_spec (wB d) (to_w d) (tw d) (p_bw _ _ P)); [| |unfold bhowmany; lia].
  2:{ intros x Lx. unfold to_w. rewrite !Nm by (apply (p_wv _ _ P); auto). reflexivity. }
  cbn [obind]. unfold tconf, two. destruct (wm_ex d) eqn:Ex; auto.
  destruct (p_worm _ _ P Ex) as (Li & Lm & _). unfold to_worm. rewrite !Nm by auto. reflexivity.
Qed.

(** ** ClearDiagram *)
Lemma bclear_spec : forall n b, BInv b -> n = avail b -> exists b', bclear n b = Ok b' /\ BInv b' /\ avail b' = 0%nat.
Proof.
  induction n as [|n IH]; intros b B E; cbn [bclear].
  - exists b. auto.
  - destruct (Nat.eqb_spec (avail b) 0); [lia|].
    assert (Er : bremove_name b (avail b - 1) = Ok (bswap b (avail b - 1) (names b (avail b - 1)))).
    { unfold bremove_name, MAX_BUNDLE. destruct (Nat.eqb_spec (avail b) 0); [lia|]. pose proof (bi_av _ B).
      destruct (Nat.leb_spec 20 (avail b - 1)); [lia|]. reflexivity. }
    rewrite Er. cbn [obind].
    assert (Nt : nm b (names b (avail b - 1)) = (avail b - 1)%nat) by (apply (bi_names _ B); pose proof (bi_av _ B); lia).
    destruct (bswap_spec b (names b (avail b - 1)) B) as (B' & A' & _).
    { split; [apply (bi_names _ B); pose proof (bi_av _ B); lia|lia]. }
    rewrite Nt in B', A'. destruct (IH _ B') as (b2 & E2 & B2 & A2); [lia|]. eauto.
Qed.
Lemma Clear_spec d : BInv (gB d) -> BInv (wB d) -> BInv (vB d) -> exists bg bw bv,
  ClearDiagram d = Ok (s_vB (s_wB (s_gB (s_whash (s_ghash d (fun _ => false)) (fun _ => false)) bg) bw) bv) /\
  BInv bg /\ BInv bw /\ BInv bv /\ avail bg = 0%nat /\ avail bw = 0%nat /\ avail bv = 0%nat.
Proof.
  intros G W V. destruct (bclear_spec _ _ G eq_refl) as (bg & Eg & Bg & Ag), (bclear_spec _ _ W eq_refl) as (bw & Ew & Bw & Aw),
    (bclear_spec _ _ V eq_refl) as (bv & Ev & Bv & Av).
  exists bg, bw, bv. split; [|auto 10]. unfold ClearDiagram. cbv zeta.
  change (gB (s_whash (s_ghash d (fun _ => false)) (fun _ => false))) with (gB d).
  change (wB (s_whash (s_ghash d (fun _ => false)) (fun _ => false))) with (wB d).
  change (vB (s_whash (s_ghash d (fun _ => false)) (fun _ => false))) with (vB d).
  rewrite Eg. cbn [obind]. rewrite Ew. cbn [obind]. rewrite Ev. cbn [obind]. reflexivity.
Qed.

(** ** Reading the lists *)
Lemma for_each_snoc {A} (f : A -> diagram -> outcome diagram) l x : forall d,
  for_each f (l ++ [x]) d = obind (for_each f l d) (f x).
Proof.
  induction l as [|y l IH]; intros d; cbn [for_each app].
  - cbn [obind]. destruct (f x d); reflexivity.
  - destruct (f y d) as [d1| |]; cbn [obind]; auto.
Qed.
Definition pre (b : bundle) (k : nat) : list nat := map (names b) (seq 0 k).
Lemma pre_S b k : pre b (S k) = pre b k ++ [names b k].
Proof. unfold pre. rewrite seq_S, map_app. reflexivity. Qed.
(** the slot of the copy of [x] *)
Definition cp (b b' : bundle) (x : nat) : nat := names b' (nm b x).

Lemma badd_nm b : BInv b -> (avail b < 20)%nat ->
  badd b = Ok (names b (avail b), mkB (names b) (upd (nm b) (names b (avail b)) (avail b)) (S (avail b))).
Proof.
  intros B H. unfold badd, MAX_BUNDLE. destruct (Nat.ltb_spec 20 (avail b)); [lia|]. destruct (Nat.leb_spec 20 (avail b)); [lia|]. reflexivity.
Qed.
Lemma BInv_ext b b' : BInv b -> avail b' = avail b -> names b' = names b -> (forall x, (x < 20)%nat -> nm b' x = nm b x) -> BInv b'.
Proof.
  intros B A E Hn. constructor.
  - rewrite A. apply B.
  - intros i Hi. rewrite E. destruct (bi_names _ B i Hi) as [H1 H2]. rewrite Hn by auto. auto.
  - intros s Hs. rewrite E, Hn by auto. apply (bi_nm _ B); auto.
Qed.
Lemma cp_inj b b' x y : BInv b -> BInv b' -> live b x -> live b y -> cp b b' x = cp b b' y -> x = y.
Proof.
  intros B B' [Lx _] [Ly _] E. apply (names_inj b') in E; auto; [|apply (bi_nm _ B); auto|apply (bi_nm _ B); auto].
  apply (nm_inj b); auto.
Qed.
Lemma cp_live b b' x : BInv b -> BInv b' -> avail b' = avail b -> live b x -> live b' (cp b b' x).
Proof.
  intros B B' A [Lx Nx]. unfold cp. pose proof (bi_av _ B). destruct (bi_names _ B' (nm b x)); [lia|]. split; [auto|lia].
Qed.
Lemma cp_onto b b' y : BInv b -> BInv b' -> avail b' = avail b -> live b' y -> exists x, live b x /\ cp b b' x = y.
Proof.
  intros B B' A [Ly Ny]. pose proof (bi_av _ B). destruct (bi_names _ B (nm b' y)) as [H1 H2]; [lia|].
  exists (names b (nm b' y)). split; [split; [auto|lia]|]. unfold cp. rewrite H2. apply (bi_nm _ B'); auto.
Qed.

Definition ldV (d0 : diagram) b vr vt vs := s_v_S (s_v_T (s_v_R (s_vB d0 b) vr) vt) vs.
Lemma load_v d d0 : BInv (vB d) -> BInv (vB d0) -> avail (vB d0) = 0%nat ->
  forall k, (k <= avail (vB d))%nat -> exists b vr vt vs,
    for_each from_v (map (tv d) (pre (vB d) k)) d0 = Ok (ldV d0 b vr vt vs) /\
    BInv b /\ avail b = k /\ names b = names (vB d0) /\
    (forall v, live (vB d) v -> (nm (vB d) v < k)%nat ->
      vr (cp (vB d) (vB d0) v) = v_R d v /\ vt (cp (vB d) (vB d0) v) = v_T d v /\ forall e, vs (cp (vB d) (vB d0) v) e = v_S d v e).
Proof.
  intros B B0 A0. induction k as [|k IH]; intros Hk.
  - exists (vB d0), (v_R d0), (v_T d0), (v_S d0). split; [destruct d0; reflexivity|]. split; [auto|]. split; [auto|]. split; [auto|]. intros; lia.
  - destruct IH as (b & vr & vt & vs & E & Bb & Ab & Nb & H); [lia|]. rewrite pre_S, map_app. cbn [map].
    rewrite for_each_snoc, E. cbn [obind]. set (x := names (vB d) k). pose proof (bi_av _ B) as Av.
    destruct (bi_names _ B k) as [Lx Nx]; [lia|]. fold x in Lx, Nx.
    set (v := names (vB d0) k).
    exists (mkB (names b) (upd (upd (nm b) v k) v k) (S k)), (upd vr v (v_R d x)), (upd vt v (v_T d x)),
      (upd2 (upd2 vs v IN (v_S d x IN)) v OUT (v_S d x OUT)). split; [|split; [|split; [reflexivity|split; [exact Nb|]]]].
    + unfold from_v. change (vB (ldV d0 b vr vt vs)) with b. rewrite badd_nm by (auto; lia). cbn [obind]. rewrite Ab, Nb.
      fold v. unfold tv. rewrite Nx. reflexivity.
    + destruct (badd_spec b Bb) as (a & b' & E' & _ & _ & _ & B' & _ & _ & _ & Hn); [lia|].
      rewrite badd_nm in E' by (auto; lia). injection E' as <- <-. eapply BInv_ext; [exact B'| | |].
      * cbn. congruence.
      * reflexivity.
      * intros y Hy. cbn [nm] in *. rewrite Ab, Nb. fold v. rewrite !upd_eq. destruct (Nat.eq_dec y v); auto.
    + intros y Ly Hy. destruct (Nat.eq_dec y x) as [->|Nyx].
      * assert (Ec : cp (vB d) (vB d0) x = v) by (unfold cp; now rewrite Nx). rewrite Ec, !upd_same. split; [auto|]. split; [auto|].
        intros []; rewrite !upd2_eq; cbn [dir_eqb]; destruct (Nat.eq_dec v v); congruence.
      * assert (nm (vB d) y <> k). { intros X. apply Nyx. apply (nm_inj (vB d)); auto; [apply Ly|congruence]. }
        assert (cp (vB d) (vB d0) y <> v). { unfold cp, v. intros X. apply names_inj in X; auto; lia. }
        rewrite !upd_other by auto. destruct (H y Ly) as (Q1 & Q2 & Q3); [lia|]. split; [auto|]. split; [auto|].
        intros e. rewrite !upd2_eq. destruct (Nat.eq_dec (cp (vB d) (vB d0) y) v); [contradiction|]. auto.
Qed.

Definition ldW (d0 : diagram) b wv wk wh wd wm ww mg gm wme :=
  s_wmeas (s_gmeas (s_measG (s_w_ww (s_w_meas (s_w_delta (s_whash (s_w_K (s_w_ver (s_wB d0 b) wv) wk) wh) wd) wm) ww) mg) gm) wme.
Lemma from_w_ok x d w b vi vo : badd (wB d) = Ok (w, b) -> bat (vB d) (wd_in x) = Ok vi -> bat (vB d) (wd_out x) = Ok vo ->
  inrange (wd_K x) -> whash d (kabs (wd_K x)) = false ->
  from_w x d = Ok (ldW d b (upd2 (upd2 (w_ver d) w IN vi) w OUT vo) (upd (w_K d) w (wd_K x)) (updZ (whash d) (kabs (wd_K x)) true)
    (upd (w_delta d) w (wd_delta x)) (upd (w_meas d) w (wd_meas x)) (upd (w_ww d) w (wd_ww x))
    (if wd_meas x then false else measG d) (if wd_meas x then NULLP else gmeas d) (if wd_meas x then w else wmeas d)).
Proof.
  intros E1 E2 E3 H1 H2. unfold from_w. rewrite E1. cbn [obind].
  change (vB (s_wB d b)) with (vB d). rewrite E2. cbn [obind].
  change (vB (s_w_ver (s_wB d b) (upd2 (w_ver (s_wB d b)) w IN vi))) with (vB d). rewrite E3. cbn [obind].
  rewrite AddWHash_ok; [|auto|exact H2]. destruct d. destruct (wd_meas x); reflexivity.
Qed.
(** measuring-line pointers while a list is read: [m0] before, [m1] after *)
Definition wmeas_read (d : diagram) (fw : nat -> nat) (k : nat) (m0 m1 : bool * nat * nat) : Prop :=
  ((forall w, live (wB d) w -> (nm (wB d) w < k)%nat -> w_meas d w = false) /\ m1 = m0) \/
  (exists w, live (wB d) w /\ w_meas d w = true /\ m1 = (false, NULLP, fw w)).
Lemma load_w c d d0 : Pre c d -> BInv (vB d0) -> avail (vB d0) = avail (vB d) -> BInv (wB d0) -> avail (wB d0) = 0%nat ->
  (forall k, whash d0 k = false) ->
  forall k, (k <= avail (wB d))%nat -> exists b wv wk wh wd wm ww mg gm wme,
    for_each from_w (map (tw d) (pre (wB d) k)) d0 = Ok (ldW d0 b wv wk wh wd wm ww mg gm wme) /\
    BInv b /\ avail b = k /\ names b = names (wB d0) /\ HT MAX_K wh (live b) (fun w => kabs (wk w)) /\
    (forall w, live (wB d) w -> (nm (wB d) w < k)%nat ->
      let w' := cp (wB d) (wB d0) w in
      (forall e, wv w' e = cp (vB d) (vB d0) (w_ver d w e)) /\ wk w' = w_K d w /\ wd w' = w_delta d w /\ wm w' = w_meas d w /\ ww w' = w_ww d w) /\
    wmeas_read d (cp (wB d) (wB d0)) k (measG d0, gmeas d0, wmeas d0) (mg, gm, wme).
Proof.
  intros P Bv Av0 B0 A0 Hh. pose proof (p_bw _ _ P) as B. pose proof (bi_av _ B) as Av. induction k as [|k IH]; intros Hk.
  - exists (wB d0), (w_ver d0), (w_K d0), (whash d0), (w_delta d0), (w_meas d0), (w_ww d0), (measG d0), (gmeas d0), (wmeas d0).
    split; [destruct d0; reflexivity|]. split; [auto|]. split; [auto|]. split; [auto|]. split; [|split].
    + split; [|split]; unfold live; rewrite A0.
      * intros x [_ X]; lia.
      * intros j Hj. rewrite Hh. split; [discriminate|]. intros (x & [_ X] & _). lia.
      * intros x y [_ X]. lia.
    + intros; lia.
    + left. split; [intros; lia|auto].
  - destruct IH as (b & wv & wk & wh & wd & wm & ww & mg & gm & wme & E & Bb & Ab & Nb & HH & H & HM); [lia|]. rewrite pre_S, map_app. cbn [map].
    rewrite for_each_snoc, E. cbn [obind]. set (x := names (wB d) k).
    destruct (bi_names _ B k) as [Lx Nx]; [lia|]. fold x in Lx, Nx. assert (LX : live (wB d) x) by (split; [auto|lia]).
    set (w := names (wB d0) k). assert (Ec : cp (wB d) (wB d0) x = w) by (unfold cp; now rewrite Nx).
    destruct (badd_spec b Bb) as (a & b' & E' & Ea & La & Na & B' & Ab' & Lb' & Nb' & Hn); [lia|].
    assert (Eaw : a = w) by (rewrite Ea, Ab, Nb; reflexivity). clear Ea. subst a.
    assert (Hb : forall e, bat (vB d0) (nm (vB d) (w_ver d x e)) = Ok (cp (vB d) (vB d0) (w_ver d x e))).
    { intros e. destruct (p_wv _ _ P x e LX) as [_ Q]. apply bat_spec; auto. lia. }
    destruct (p_hW _ _ P) as (K1 & K2 & K3).
    assert (KR : inrange (w_K d x)). { specialize (K1 x LX). cbv beta in K1. clear - K1. unfold inrange, kabs, MAX_K in *. lia. }
    assert (Free : wh (kabs (w_K d x)) = false).
    { destruct (wh (kabs (w_K d x))) eqn:EW; auto. apply (proj1 (proj2 HH)) in EW; [|apply K1; auto].
      destruct EW as (y & Ly & Ey). exfalso.
      assert (exists z, live (wB d) z /\ (nm (wB d) z < k)%nat /\ cp (wB d) (wB d0) z = y) as (z & Lz & Nz & Ez).
      { destruct Ly as [Ly1 Ly2]. destruct (bi_names _ B (nm b y)) as [Q1 Q2]; [lia|]. exists (names (wB d) (nm b y)).
        split; [split; [auto|lia]|]. split; [lia|]. unfold cp. rewrite Q2, <- Nb. apply (bi_nm _ Bb); auto. }
      destruct (H z Lz Nz) as (_ & Q & _). rewrite Ez in Q. rewrite Q in Ey. apply K3 in Ey; auto. subst z. lia. }
    exists b', (upd2 (upd2 wv w IN (cp (vB d) (vB d0) (w_ver d x IN))) w OUT (cp (vB d) (vB d0) (w_ver d x OUT))),
      (upd wk w (w_K d x)), (updZ wh (kabs (w_K d x)) true), (upd wd w (w_delta d x)), (upd wm w (w_meas d x)), (upd ww w (w_ww d x)),
      (if w_meas d x then false else mg), (if w_meas d x then NULLP else gm), (if w_meas d x then w else wme). split; [|split; [exact B'|split; [lia|split; [congruence|split; [|split]]]]].
    + rewrite (from_w_ok (tw d x) (ldW d0 b wv wk wh wd wm ww mg gm wme) w b' _ _ E' (Hb IN) (Hb OUT) KR Free). reflexivity.
    + eapply HT_add; [exact HH|exact Free|apply K1; auto|exact Na|exact Lb'|apply f_equal, upd_same|].
      intros y Ly. cbv beta. rewrite upd_other; auto. intros ->. contradiction.
    + intros y Ly Hy. cbv zeta. destruct (Nat.eq_dec y x) as [->|Nyx].
      * rewrite Ec, !upd_same. split; [|auto]. intros []; rewrite !upd2_eq; cbn [dir_eqb]; destruct (Nat.eq_dec w w); congruence.
      * assert (nm (wB d) y <> k). { intros X. apply Nyx. apply (nm_inj (wB d)); auto; [apply Ly|congruence]. }
        assert (NE : cp (wB d) (wB d0) y <> w). { unfold cp, w. intros X. apply names_inj in X; auto; lia. }
        rewrite !upd_other by auto. destruct (H y Ly) as (Q1 & Q2); [lia|]. split; [|exact Q2].
        intros e. rewrite !upd2_eq. destruct (Nat.eq_dec (cp (wB d) (wB d0) y) w); [contradiction|]. apply Q1.
    + cbn [tw wd_meas]. destruct (w_meas d x) eqn:EM.
      * right. exists x. rewrite Ec. auto.
      * destruct HM as [[HM1 HM2]|(y & Ly & My & HM2)].
        -- left. split; [|exact HM2]. intros y Ly Hy. destruct (Nat.eq_dec y x) as [->|Nyx]; auto. apply HM1; auto.
           assert (nm (wB d) y <> k); [|lia]. intros X. apply Nyx. apply (nm_inj (wB d)); auto; [apply Ly|congruence].
        -- right. exists y. auto.
Qed.

Definition ldG (d0 : diagram) b gv gk gh gm_ gg mg gm wme :=
  s_wmeas (s_gmeas (s_measG (s_g_gg (s_g_meas (s_ghash (s_g_K (s_g_ver (s_gB d0 b) gv) gk) gh) gm_) gg) mg) gm) wme.
Lemma from_g_ok x d g b vi vo : badd (gB d) = Ok (g, b) -> bat (vB d) (gd_in x) = Ok vi -> bat (vB d) (gd_out x) = Ok vo ->
  inrange (gd_K x) -> ghash d (kindex (gd_K x)) = false ->
  from_g x d = Ok (ldG d b (upd2 (upd2 (g_ver d) g IN vi) g OUT vo) (upd (g_K d) g (gd_K x)) (updZ (ghash d) (kindex (gd_K x)) true)
    (upd (g_meas d) g (gd_meas x)) (upd (g_gg d) g (gd_gg x))
    (if gd_meas x then true else measG d) (if gd_meas x then g else gmeas d) (if gd_meas x then NULLP else wmeas d)).
Proof.
  intros E1 E2 E3 H1 H2. unfold from_g. rewrite E1. cbn [obind].
  change (vB (s_gB d b)) with (vB d). rewrite E2. cbn [obind].
  change (vB (s_g_ver (s_gB d b) (upd2 (g_ver (s_gB d b)) g IN vi))) with (vB d). rewrite E3. cbn [obind].
  rewrite AddGHash_ok; [|auto|exact H2]. destruct d. destruct (gd_meas x); reflexivity.
Qed.
Definition gmeas_read (d : diagram) (fg : nat -> nat) (k : nat) (m0 m1 : bool * nat * nat) : Prop :=
  ((forall g, live (gB d) g -> (nm (gB d) g < k)%nat -> g_meas d g = false) /\ m1 = m0) \/
  (exists g, live (gB d) g /\ g_meas d g = true /\ m1 = (true, fg g, NULLP)).
Lemma load_g c d d0 : Pre c d -> BInv (vB d0) -> avail (vB d0) = avail (vB d) -> BInv (gB d0) -> avail (gB d0) = 0%nat ->
  (forall k, ghash d0 k = false) ->
  forall k, (k <= avail (gB d))%nat -> exists b gv gk gh gm_ gg mg gm wme,
    for_each from_g (map (tg d) (pre (gB d) k)) d0 = Ok (ldG d0 b gv gk gh gm_ gg mg gm wme) /\
    BInv b /\ avail b = k /\ names b = names (gB d0) /\ HT (2 * MAX_K) gh (live b) (fun w => kindex (gk w)) /\
    (forall g, live (gB d) g -> (nm (gB d) g < k)%nat ->
      let g' := cp (gB d) (gB d0) g in
      (forall e, gv g' e = cp (vB d) (vB d0) (g_ver d g e)) /\ gk g' = g_K d g /\ gm_ g' = g_meas d g /\ gg g' = g_gg d g) /\
    gmeas_read d (cp (gB d) (gB d0)) k (measG d0, gmeas d0, wmeas d0) (mg, gm, wme).
Proof.
  intros P Bv Av0 B0 A0 Hh. pose proof (p_bg _ _ P) as B. pose proof (bi_av _ B) as Av. induction k as [|k IH]; intros Hk.
  - exists (gB d0), (g_ver d0), (g_K d0), (ghash d0), (g_meas d0), (g_gg d0), (measG d0), (gmeas d0), (wmeas d0).
    split; [destruct d0; reflexivity|]. split; [auto|]. split; [auto|]. split; [auto|]. split; [|split].
    + split; [|split]; unfold live; rewrite A0.
      * intros x [_ X]; lia.
      * intros j Hj. rewrite Hh. split; [discriminate|]. intros (x & [_ X] & _). lia.
      * intros x y [_ X]. lia.
    + intros; lia.
    + left. split; [intros; lia|auto].
  - destruct IH as (b & wv & wk & wh & wm & ww & mg & gm & wme & E & Bb & Ab & Nb & HH & H & HM); [lia|]. rewrite pre_S, map_app. cbn [map].
    rewrite for_each_snoc, E. cbn [obind]. set (x := names (gB d) k).
    destruct (bi_names _ B k) as [Lx Nx]; [lia|]. fold x in Lx, Nx. assert (LX : live (gB d) x) by (split; [auto|lia]).
    set (w := names (gB d0) k). assert (Ec : cp (gB d) (gB d0) x = w) by (unfold cp; now rewrite Nx).
    destruct (badd_spec b Bb) as (a & b' & E' & Ea & La & Na & B' & Ab' & Lb' & Nb' & Hn); [lia|].
    assert (Eaw : a = w) by (rewrite Ea, Ab, Nb; reflexivity). clear Ea. subst a.
    assert (Hb : forall e, bat (vB d0) (nm (vB d) (g_ver d x e)) = Ok (cp (vB d) (vB d0) (g_ver d x e))).
    { intros e. destruct (p_gv _ _ P x e LX) as [_ Q]. apply bat_spec; auto. lia. }
    destruct (p_hG _ _ P) as (K1 & K2 & K3).
    assert (KR : inrange (g_K d x)). { apply kindex_range. exact (K1 x LX). }
    assert (Free : wh (kindex (g_K d x)) = false).
    { destruct (wh (kindex (g_K d x))) eqn:EW; auto. apply (proj1 (proj2 HH)) in EW; [|apply K1; auto].
      destruct EW as (y & Ly & Ey). exfalso.
      assert (exists z, live (gB d) z /\ (nm (gB d) z < k)%nat /\ cp (gB d) (gB d0) z = y) as (z & Lz & Nz & Ez).
      { destruct Ly as [Ly1 Ly2]. destruct (bi_names _ B (nm b y)) as [Q1 Q2]; [lia|]. exists (names (gB d) (nm b y)).
        split; [split; [auto|lia]|]. split; [lia|]. unfold cp. rewrite Q2, <- Nb. apply (bi_nm _ Bb); auto. }
      destruct (H z Lz Nz) as (_ & Q & _). rewrite Ez in Q. rewrite Q in Ey. apply K3 in Ey; auto. subst z. lia. }
    exists b', (upd2 (upd2 wv w IN (cp (vB d) (vB d0) (g_ver d x IN))) w OUT (cp (vB d) (vB d0) (g_ver d x OUT))),
      (upd wk w (g_K d x)), (updZ wh (kindex (g_K d x)) true), (upd wm w (g_meas d x)), (upd ww w (g_gg d x)),
      (if g_meas d x then true else mg), (if g_meas d x then w else gm), (if g_meas d x then NULLP else wme). split; [|split; [exact B'|split; [lia|split; [congruence|split; [|split]]]]].
    + rewrite (from_g_ok (tg d x) (ldG d0 b wv wk wh wm ww mg gm wme) w b' _ _ E' (Hb IN) (Hb OUT) KR Free). reflexivity.
    + eapply HT_add; [exact HH|exact Free|apply K1; auto|exact Na|exact Lb'|apply f_equal, upd_same|].
      intros y Ly. cbv beta. rewrite upd_other; auto. intros ->. contradiction.
    + intros y Ly Hy. cbv zeta. destruct (Nat.eq_dec y x) as [->|Nyx].
      * rewrite Ec, !upd_same. split; [|auto]. intros []; rewrite !upd2_eq; cbn [dir_eqb]; destruct (Nat.eq_dec w w); congruence.
      * assert (nm (gB d) y <> k). { intros X. apply Nyx. apply (nm_inj (gB d)); auto; [apply Ly|congruence]. }
        assert (NE : cp (gB d) (gB d0) y <> w). { unfold cp, w. intros X. apply names_inj in X; auto; lia. }
        rewrite !upd_other by auto. destruct (H y Ly) as (Q1 & Q2); [lia|]. split; [|exact Q2].
        intros e. rewrite !upd2_eq. destruct (Nat.eq_dec (cp (gB d) (gB d0) y) w); [contradiction|]. apply Q1.
    + cbn [tg gd_meas]. destruct (g_meas d x) eqn:EM.
      * right. exists x. rewrite Ec. auto.
      * destruct HM as [[HM1 HM2]|(y & Ly & My & HM2)].
        -- left. split; [|exact HM2]. intros y Ly Hy. destruct (Nat.eq_dec y x) as [->|Nyx]; auto. apply HM1; auto.
           assert (nm (gB d) y <> k); [|lia]. intros X. apply Nyx. apply (nm_inj (gB d)); auto; [apply Ly|congruence].
        -- right. exists y. auto.
Qed.

(** ** The loaded diagram is a copy of the saved one *)
Record copy (d d1 : diagram) : Prop := {
  y_bg : BInv (gB d1); y_bw : BInv (wB d1); y_bv : BInv (vB d1);
  y_ag : avail (gB d1) = avail (gB d); y_aw : avail (wB d1) = avail (wB d); y_av : avail (vB d1) = avail (vB d);
  y_v : forall v, live (vB d) v -> let v' := cp (vB d) (vB d1) v in
    v_R d1 v' = v_R d v /\ v_T d1 v' = v_T d v /\ forall e, v_S d1 v' e = v_S d v e;
  y_g : forall g, live (gB d) g -> let g' := cp (gB d) (gB d1) g in
    (forall e, g_ver d1 g' e = cp (vB d) (vB d1) (g_ver d g e)) /\ g_K d1 g' = g_K d g /\ g_meas d1 g' = g_meas d g /\ g_gg d1 g' = g_gg d g;
  y_w : forall w, live (wB d) w -> let w' := cp (wB d) (wB d1) w in
    (forall e, w_ver d1 w' e = cp (vB d) (vB d1) (w_ver d w e)) /\ w_K d1 w' = w_K d w /\ w_delta d1 w' = w_delta d w /\
    w_meas d1 w' = w_meas d w /\ w_ww d1 w' = w_ww d w;
  y_hG : HT (2 * MAX_K) (ghash d1) (live (gB d1)) (fun g => kindex (g_K d1 g));
  y_hW : HT MAX_K (whash d1) (live (wB d1)) (fun w => kabs (w_K d1 w));
  y_ex : wm_ex d1 = wm_ex d;
  y_worm : wm_ex d = true -> ira d1 = cp (vB d) (vB d1) (ira d) /\ masha d1 = cp (vB d) (vB d1) (masha d) /\
    wm_ds d1 = wm_ds d /\ wm_K d1 = wm_K d;
  y_mg : measG d1 = measG d;
  y_meas : if measG d then gmeas d1 = cp (gB d) (gB d1) (gmeas d) else wmeas d1 = cp (wB d) (wB d1) (wmeas d);
  y_sfl : sfl d1 = sfl d }.

Lemma pre_liveL b : pre b (avail b) = liveL b.
Proof. reflexivity. Qed.
Lemma cp_ext b b1 b2 x : names b1 = names b2 -> cp b b1 x = cp b b2 x.
Proof. unfold cp. now intros ->. Qed.

(** fields that the loading steps leave alone *)
Definition fr_v (d d' : diagram) : Prop := v_R d' = v_R d /\ v_T d' = v_T d /\ v_S d' = v_S d.
Definition fr_w (d d' : diagram) : Prop :=
  w_ver d' = w_ver d /\ w_K d' = w_K d /\ w_delta d' = w_delta d /\ w_meas d' = w_meas d /\ w_ww d' = w_ww d.
Definition fr_o (d d' : diagram) : Prop := ira d' = ira d /\ masha d' = masha d /\ gamma d' = gamma d.

Lemma st_0 d : BInv (gB d) -> BInv (wB d) -> BInv (vB d) -> exists d', ClearDiagram d = Ok d' /\
  BInv (gB d') /\ BInv (wB d') /\ BInv (vB d') /\ avail (gB d') = 0%nat /\ avail (wB d') = 0%nat /\ avail (vB d') = 0%nat /\
  (forall k, whash d' k = false) /\ (forall k, ghash d' k = false) /\ fr_o d d'.
Proof.
  intros G W V. destruct (Clear_spec d G W V) as (bg & bw & bv & E & H1 & H2 & H3 & H4 & H5 & H6).
  rewrite E. eexists. split; [reflexivity|]. clear E. unfold fr_o. auto 20.
Qed.
Lemma st_v d d0 : BInv (vB d) -> BInv (vB d0) -> avail (vB d0) = 0%nat -> exists d',
  for_each from_v (map (tv d) (liveL (vB d))) d0 = Ok d' /\
  BInv (vB d') /\ avail (vB d') = avail (vB d) /\
  (forall v, live (vB d) v -> v_R d' (cp (vB d) (vB d') v) = v_R d v /\ v_T d' (cp (vB d) (vB d') v) = v_T d v /\
     forall e, v_S d' (cp (vB d) (vB d') v) e = v_S d v e) /\
  gB d' = gB d0 /\ wB d' = wB d0 /\ whash d' = whash d0 /\ ghash d' = ghash d0 /\ fr_o d0 d'.
Proof.
  intros V V0 A0. destruct (load_v d d0 V V0 A0 _ (le_n _)) as (b & vr & vt & vs & E & Bb & Ab & Nb & Hv).
  rewrite pre_liveL in E. rewrite E. eexists. split; [reflexivity|]. split; [exact Bb|]. split; [exact Ab|].
  split; [|unfold fr_o; auto 20]. clear E. intros v Lv.
  destruct (Hv v Lv (proj2 Lv)) as (X & Y & Z0). rewrite (cp_ext _ _ b) in X, Y, Z0 by congruence. auto.
Qed.
Lemma st_w c d d0 : Pre c d -> BInv (vB d0) -> avail (vB d0) = avail (vB d) -> BInv (wB d0) -> avail (wB d0) = 0%nat ->
  (forall k, whash d0 k = false) -> exists d',
  for_each from_w (map (tw d) (liveL (wB d))) d0 = Ok d' /\
  BInv (wB d') /\ avail (wB d') = avail (wB d) /\ HT MAX_K (whash d') (live (wB d')) (fun w => kabs (w_K d' w)) /\
  (forall w, live (wB d) w -> let w' := cp (wB d) (wB d') w in
      (forall e, w_ver d' w' e = cp (vB d) (vB d') (w_ver d w e)) /\ w_K d' w' = w_K d w /\ w_delta d' w' = w_delta d w /\
      w_meas d' w' = w_meas d w /\ w_ww d' w' = w_ww d w) /\
  wmeas_read d (cp (wB d) (wB d')) (avail (wB d)) (measG d0, gmeas d0, wmeas d0) (measG d', gmeas d', wmeas d') /\
  gB d' = gB d0 /\ vB d' = vB d0 /\ ghash d' = ghash d0 /\ fr_v d0 d' /\ fr_o d0 d'.
Proof.
  intros P V A W AW Hh. destruct (load_w c d d0 P V A W AW Hh _ (le_n _))
    as (b & wv & wk & wh & wd & wm & ww & mg & gm & wme & E & Bw & Aw & Nw & HW & Hw & MW).
  rewrite pre_liveL in E. rewrite E. eexists. split; [reflexivity|]. clear E. split; [exact Bw|]. split; [exact Aw|]. split; [exact HW|].
  split; [|split; [|unfold fr_v, fr_o; auto 20]].
  - intros w Lw. cbv zeta. destruct (Hw w Lw (proj2 Lw)) as (X & Y). rewrite (cp_ext _ (wB d0) b) in X, Y by congruence. split; [exact X|exact Y].
  - destruct MW as [M|(w & L & M & M')]; [left; exact M|right]. exists w. rewrite (cp_ext _ (wB d0) b) in M' by congruence. auto.
Qed.
Lemma st_g c d d0 : Pre c d -> BInv (vB d0) -> avail (vB d0) = avail (vB d) -> BInv (gB d0) -> avail (gB d0) = 0%nat ->
  (forall k, ghash d0 k = false) -> exists d',
  for_each from_g (map (tg d) (liveL (gB d))) d0 = Ok d' /\
  BInv (gB d') /\ avail (gB d') = avail (gB d) /\ HT (2 * MAX_K) (ghash d') (live (gB d')) (fun w => kindex (g_K d' w)) /\
  (forall g, live (gB d) g -> let g' := cp (gB d) (gB d') g in
      (forall e, g_ver d' g' e = cp (vB d) (vB d') (g_ver d g e)) /\ g_K d' g' = g_K d g /\ g_meas d' g' = g_meas d g /\
      g_gg d' g' = g_gg d g) /\
  gmeas_read d (cp (gB d) (gB d')) (avail (gB d)) (measG d0, gmeas d0, wmeas d0) (measG d', gmeas d', wmeas d') /\
  wB d' = wB d0 /\ vB d' = vB d0 /\ whash d' = whash d0 /\ fr_v d0 d' /\ fr_w d0 d' /\ fr_o d0 d'.
Proof.
  intros P V A W AW Hh. destruct (load_g c d d0 P V A W AW Hh _ (le_n _))
    as (b & wv & wk & wh & wm & ww & mg & gm & wme & E & Bw & Aw & Nw & HW & Hw & MW).
  rewrite pre_liveL in E. rewrite E. eexists. split; [reflexivity|]. clear E. split; [exact Bw|]. split; [exact Aw|]. split; [exact HW|].
  split; [|split; [|unfold fr_v, fr_w, fr_o; auto 20]].
  - intros w Lw. cbv zeta. destruct (Hw w Lw (proj2 Lw)) as (X & Y). rewrite (cp_ext _ (gB d0) b) in X, Y by congruence. split; [exact X|exact Y].
  - destruct MW as [M|(w & L & M & M')]; [left; exact M|right]. exists w. rewrite (cp_ext _ (gB d0) b) in M' by congruence. auto.
Qed.
Lemma st_o d d0 : (wm_ex d = true -> live (vB d) (ira d) /\ live (vB d) (masha d)) -> BInv (vB d0) -> avail (vB d0) = avail (vB d) ->
  let e := match cf_worm (tconf d) with Some _ => true | None => false end in
  exists d', obind (match cf_worm (tconf d) with Some x => from_worm x (s_wm_ex d0 e) | None => Ok (s_wm_ex d0 e) end)
               (fun d1 => Ok (s_sfl d1 (sfl d))) = Ok d' /\
  wm_ex d' = wm_ex d /\
  (wm_ex d = true -> ira d' = cp (vB d) (vB d0) (ira d) /\ masha d' = cp (vB d) (vB d0) (masha d) /\ wm_ds d' = wm_ds d /\ wm_K d' = wm_K d) /\
  (wm_ex d = false -> ira d' = ira d0 /\ masha d' = masha d0) /\ sfl d' = sfl d /\
  gB d' = gB d0 /\ vB d' = vB d0 /\ wB d' = wB d0 /\ ghash d' = ghash d0 /\ whash d' = whash d0 /\ 
  g_ver d' = g_ver d0 /\ g_K d' = g_K d0 /\ g_meas d' = g_meas d0 /\ g_gg d' = g_gg d0 /\ 
  fr_v d0 d' /\ fr_w d0 d' /\ gamma d' = gamma d0 /\ measG d' = measG d0 /\ gmeas d' = gmeas d0 /\ wmeas d' = wmeas d0.
Proof.
  intros PW Bv Av. cbn [tconf cf_worm]. unfold two. destruct (wm_ex d) eqn:Ex; cbv zeta.
  - destruct (PW eq_refl) as (Li & Lm).
    assert (Hb : forall v, live (vB d) v -> bat (vB d0) (nm (vB d) v) = Ok (cp (vB d) (vB d0) v)).
    { intros v [_ Lv]. apply bat_spec; auto. lia. }
    unfold from_worm. cbn [wo_ira wo_masha wo_ds wo_K]. change (vB (s_wm_ex d0 true)) with (vB d0). rewrite Hb by auto. cbn [obind].
    change (vB (s_ira (s_wm_ex d0 true) (cp (vB d) (vB d0) (ira d)))) with (vB d0). rewrite Hb by auto. cbn [obind].
    eexists. split; [reflexivity|]. unfold fr_v, fr_w. assert (true = false -> False) by discriminate. clear - H. intuition.
  - cbn [obind]. eexists. split; [reflexivity|]. unfold fr_v, fr_w. assert (false = true -> False) by discriminate. clear - H. intuition.
Qed.
Lemma FromDict_split T F d0 : FromDict T F d0 =
  obind (ClearDiagram d0) (fun da => obind (for_each from_v (cf_v F) da) (fun db => obind (for_each from_w (cf_w F) db) (fun dc =>
  obind (for_each from_g (cf_g F) dc) (fun dd =>
  obind (let e := match cf_worm F with Some _ => true | None => false end in
         obind (match cf_worm F with Some x => from_worm x (s_wm_ex dd e) | None => Ok (s_wm_ex dd e) end)
               (fun d1 => Ok (s_sfl d1 (cf_sfl F)))) (FixDiagram T))))).
Proof.
  unfold FromDict. destruct (ClearDiagram d0) as [da| |]; cbn [obind]; auto.
  destruct (for_each from_v (cf_v F) da) as [db| |]; cbn [obind]; auto.
  destruct (for_each from_w (cf_w F) db) as [dc| |]; cbn [obind]; auto.
  destruct (for_each from_g (cf_g F) dc) as [dd| |]; cbn [obind]; auto. cbv zeta.
  destruct (cf_worm F) as [x|]; [destruct (from_worm x (s_wm_ex dd true))|]; reflexivity.
Qed.
Theorem FromDict_copy T c d d0 : Pre c d -> BInv (gB d0) -> BInv (wB d0) -> BInv (vB d0) -> exists d1,
  FromDict T (tconf d) d0 = FixDiagram T d1 /\ copy d d1 /\ gamma d1 = gamma d0 /\
  (wm_ex d = false -> ira d1 = ira d0 /\ masha d1 = masha d0).
Proof.
  intros P G0 W0 V0.
  destruct (st_0 d0 G0 W0 V0) as (da & Ea & Bga & Bwa & Bva & Aga & Awa & Ava & Hwa & Hga & Oa).
  destruct (st_v d da (p_bv _ _ P) Bva Ava) as (db & Eb & Bvb & Avb & Hv & Gb & Wb & Hwb & Hgb & Ob).
  destruct (st_w c d db P) as (dc & Ec & Bwc & Awc & HW & Hw & MW & Gc & Vc & Hgc & Fvc & Oc); [auto|auto|congruence|congruence|congruence|].
  destruct (st_g c d dc P) as (dd & Ed & Bgd & Agd & HG & Hg & MG & Wd & Vd & Hwd & Fvd & Fwd & Od); [congruence|congruence|congruence|congruence|congruence|].
  destruct (st_o d dd) as (de & Ee & Xe & Xt & Xf & Xs & Ge & Ve & We & Hge & Hwe & G1 & G2 & G3 & G4 & Fve & Fwe & Xg & M1 & M2 & M3).
  { intros X. destruct (p_worm _ _ P X) as (L1 & L2 & _). auto. }
  { congruence. } { congruence. }
  exists de. split.
  { rewrite FromDict_split, Ea. cbn [obind]. change (cf_v (tconf d)) with (map (tv d) (liveL (vB d))). rewrite Eb. cbn [obind].
    change (cf_w (tconf d)) with (map (tw d) (liveL (wB d))). rewrite Ec. cbn [obind].
    change (cf_g (tconf d)) with (map (tg d) (liveL (gB d))). rewrite Ed. cbn [obind].
    change (cf_sfl (tconf d)) with (sfl d). rewrite Ee. reflexivity. }
  destruct Oa as (O1 & O2 & O3), Ob as (O4 & O5 & O6), Oc as (O7 & O8 & O9), Od as (O10 & O11 & O12).
  destruct Fvc as (V1 & V2 & V3), Fvd as (V4 & V5 & V6), Fve as (V7 & V8 & V9), Fwd as (Y1 & Y2 & Y3 & Y4 & Y5), Fwe as (Z1 & Z2 & Z3 & Z4 & Z5).
  split.
  2:{ split; [congruence|]. intros X. destruct (Xf X). split; congruence. }
  assert (ME : measG dd = measG d /\ if measG d then gmeas dd = cp (gB d) (gB dd) (gmeas d) else wmeas dd = cp (wB d) (wB dc) (wmeas d)).
  { pose proof (p_meas _ _ P) as PM. unfold Meas in PM. destruct (measG d).
    - destruct PM as (Lg & Mg & Mw). destruct MG as [[N1 N2]|(g & L & N1 & N2)].
      + exfalso. assert (X : g_meas d (gmeas d) = true) by (apply Mg; auto). rewrite N1 in X; [discriminate|auto|apply Lg].
      + apply Mg in N1; auto. subst g. injection N2 as N2 N3 N4. auto.
    - destruct PM as (Lw & Mw & Mg). destruct MG as [[N1 N2]|(g & L & N1 & N2)].
      + injection N2 as N2 N3 N4.
        destruct MW as [[K1 K2]|(w & L & K1 & K2)].
        * exfalso. assert (X : w_meas d (wmeas d) = true) by (apply Mw; auto). rewrite K1 in X; [discriminate|auto|apply Lw].
        * apply Mw in K1; auto. subst w. injection K2 as K2 K3 K4. split; congruence.
      + exfalso. rewrite Mg in N1; auto. discriminate. }
  destruct ME as [ME1 ME2].
  constructor; try congruence.
  - intros v Lv. cbv zeta. destruct (Hv v Lv) as (A & B & C0). rewrite V7, V8, V9, V4, V5, V6, V1, V2, V3, Ve, Vd, Vc. auto.
  - intros g Lg. cbv zeta. rewrite G1, G2, G3, G4, Ge, Ve. apply (Hg g Lg).
  - intros w Lw. cbv zeta. rewrite Z1, Z2, Z3, Z4, Z5, Y1, Y2, Y3, Y4, Y5, Ve, Vd, We, Wd. apply (Hw w Lw).
  - rewrite Hge, Ge, G2. exact HG.
  - rewrite Hwe, Hwd, We, Wd, Z2, Y2. exact HW.
  - rewrite Ve. exact Xt.
  - rewrite M2, M3, Ge, We, Wd. exact ME2.
Qed.

(** ** A copy of a well-formed diagram is well-formed *)
Lemma copy_eqb d d1 x y : copy d d1 -> BInv (vB d) -> live (vB d) x -> live (vB d) y ->
  Nat.eqb (cp (vB d) (vB d1) x) (cp (vB d) (vB d1) y) = Nat.eqb x y.
Proof.
  intros Y B Lx Ly. apply eq_true_iff_eq. rewrite !Nat.eqb_eq. split; [|congruence]. apply cp_inj; auto. apply Y.
Qed.
Theorem copy_Pre c d d1 : Pre c d -> copy d d1 -> Pre c d1.
Proof.
  intros P Y.
  pose proof (p_bg _ _ P) as Bg. pose proof (p_bw _ _ P) as Bw. pose proof (p_bv _ _ P) as Bv.
  pose proof (y_bg _ _ Y) as Bg1. pose proof (y_bw _ _ Y) as Bw1. pose proof (y_bv _ _ Y) as Bv1.
  pose proof (y_ag _ _ Y) as Ag. pose proof (y_aw _ _ Y) as Aw. pose proof (y_av _ _ Y) as Av.
  set (fv := cp (vB d) (vB d1)) in *.
  assert (OG : forall g', live (gB d1) g' -> exists g, live (gB d) g /\ g' = cp (gB d) (gB d1) g).
  { intros g' L. destruct (cp_onto _ _ _ Bg Bg1 Ag L) as (g & Lg & E). eauto. }
  assert (OW : forall g', live (wB d1) g' -> exists g, live (wB d) g /\ g' = cp (wB d) (wB d1) g).
  { intros g' L. destruct (cp_onto _ _ _ Bw Bw1 Aw L) as (g & Lg & E). eauto. }
  assert (OV : forall g', live (vB d1) g' -> exists g, live (vB d) g /\ g' = fv g).
  { intros g' L. destruct (cp_onto _ _ _ Bv Bv1 Av L) as (g & Lg & E). eauto. }
  assert (LG : forall g, live (gB d) g -> live (gB d1) (cp (gB d) (gB d1) g)) by (intros; now apply cp_live).
  assert (LW : forall g, live (wB d) g -> live (wB d1) (cp (wB d) (wB d1) g)) by (intros; now apply cp_live).
  assert (LV : forall g, live (vB d) g -> live (vB d1) (fv g)) by (intros; now apply cp_live).
  assert (IV : forall x y, live (vB d) x -> live (vB d) y -> fv x = fv y -> x = y) by (intros; now apply (cp_inj (vB d) (vB d1))).
  assert (GV : forall g e, live (gB d) g -> g_ver d1 (cp (gB d) (gB d1) g) e = fv (g_ver d g e)) by (intros; now apply (y_g _ _ Y)).
  assert (WV : forall g e, live (wB d) g -> w_ver d1 (cp (wB d) (wB d1) g) e = fv (w_ver d g e)) by (intros; now apply (y_w _ _ Y)).
  assert (GK : forall g, live (gB d) g -> g_K d1 (cp (gB d) (gB d1) g) = g_K d g) by (intros; now apply (y_g _ _ Y)).
  assert (WK : forall g, live (wB d) g -> w_K d1 (cp (wB d) (wB d1) g) = w_K d g) by (intros; now apply (y_w _ _ Y)).
  assert (GM : forall g, live (gB d) g -> g_meas d1 (cp (gB d) (gB d1) g) = g_meas d g) by (intros; now apply (y_g _ _ Y)).
  assert (WM : forall g, live (wB d) g -> w_meas d1 (cp (wB d) (wB d1) g) = w_meas d g) by (intros; now apply (y_w _ _ Y)).
  assert (WD : forall g, live (wB d) g -> w_delta d1 (cp (wB d) (wB d1) g) = w_delta d g) by (intros; now apply (y_w _ _ Y)).
  assert (VR : forall v, live (vB d) v -> v_R d1 (fv v) = v_R d v) by (intros; now apply (y_v _ _ Y)).
  assert (VT : forall v, live (vB d) v -> v_T d1 (fv v) = v_T d v) by (intros; now apply (y_v _ _ Y)).
  assert (VS : forall v e, live (vB d) v -> v_S d1 (fv v) e = v_S d v e) by (intros; now apply (y_v _ _ Y)).
  assert (CU : forall v, live (vB d) v -> cur (v_S d1 (fv v)) = cur (v_S d v)) by (intros; unfold cur; now rewrite !VS).
  assert (EQ : forall x y, live (vB d) x -> live (vB d) y -> Nat.eqb (fv x) (fv y) = Nat.eqb x y) by (intros; now apply copy_eqb).
  pose proof (p_gv _ _ P) as Pg. pose proof (p_wv _ _ P) as Pw. pose proof (p_worm _ _ P) as PW. pose proof (y_worm _ _ Y) as YW.
  constructor; auto.
  - rewrite Ag, Aw, Av. exact (p_cnt _ _ P).
  - intros g' e L. destruct (OG _ L) as (g & Lg & ->). rewrite GV by auto. auto.
  - intros g1 g2 e L1 L2. destruct (OG _ L1) as (a & La & ->), (OG _ L2) as (b & Lb & ->). rewrite !GV by auto. intros E.
    f_equal. apply IV in E; auto. apply (p_gi _ _ P a b e); auto.
  - intros g' e L. destruct (OW _ L) as (g & Lg & ->). rewrite WV by auto. auto.
  - intros g1 g2 e e' L1 L2. destruct (OW _ L1) as (a & La & ->), (OW _ L2) as (b & Lb & ->). rewrite !WV by auto. intros E.
    apply IV in E; auto. destruct (p_wi _ _ P a b e e') as [-> ->]; auto.
  - exact (y_hG _ _ Y).
  - exact (y_hW _ _ Y).
  - intros w' L. destruct (OW _ L) as (w & Lw & ->). rewrite WK by auto. now apply (p_hW0 _ _ P).
  - intros g1 g2 w' e L1 L2 L3. destruct (OG _ L1) as (a & La & ->), (OG _ L2) as (b & Lb & ->), (OW _ L3) as (w & Lw & ->).
    rewrite !GV, !WV, !GK, WK by auto. intros E1 E2. apply IV in E1; auto. apply IV in E2; auto.
    pose proof (p_K _ _ P a b w e La Lb Lw E1 E2) as X. rewrite (y_ex _ _ Y). unfold wterm in *. destruct (wm_ex d); auto.
    destruct (PW eq_refl) as (Li & Lm & _), (YW eq_refl) as (-> & -> & _ & ->). rewrite !EQ by auto. exact X.
  - intros g' L. destruct (OG _ L) as (g & Lg & ->). rewrite !GV, !VS by auto. now apply (p_spin _ _ P).
  - intros w' L. destruct (OW _ L) as (w & Lw & ->). rewrite !WV, !CU by auto. rewrite (y_ex _ _ Y).
    rewrite (p_cur _ _ P w Lw). destruct (wm_ex d); auto.
    destruct (PW eq_refl) as (Li & Lm & _), (YW eq_refl) as (-> & -> & -> & _). now rewrite !EQ by auto.
  - pose proof (p_meas _ _ P) as M. pose proof (y_meas _ _ Y) as M1. unfold Meas in *. rewrite (y_mg _ _ Y). destruct (measG d).
    + destruct M as (L & Mg & Mw). rewrite M1. split; [auto|]. split.
      * intros g' L'. destruct (OG _ L') as (g & Lg & ->). rewrite GM by auto. rewrite (Mg g Lg). split; [congruence|].
        apply cp_inj; auto.
      * intros w' L'. destruct (OW _ L') as (w & Lw & ->). rewrite WM by auto. auto.
    + destruct M as (L & Mw & Mg). rewrite M1. split; [auto|]. split.
      * intros g' L'. destruct (OW _ L') as (g & Lg & ->). rewrite WM by auto. rewrite (Mw g Lg). split; [congruence|].
        apply cp_inj; auto.
      * intros w' L'. destruct (OG _ L') as (w & Lw & ->). rewrite GM by auto. auto.
  - rewrite (y_ex _ _ Y). intros Ex. destruct (PW Ex) as (Li & Lm & Nim & (w & Lw & Ew) & Hd & Hk), (YW Ex) as (-> & -> & -> & ->).
    split; [auto|]. split; [auto|]. split; [intros E; apply Nim; auto|]. split; [|auto].
    exists (cp (wB d) (wB d1) w). split; [auto|]. rewrite WV by auto. now rewrite Ew.
  - intros w' L. destruct (OW _ L) as (w & Lw & ->). rewrite WM, WD by auto. now apply (p_delta _ _ P).
  - intros g' L. destruct (OG _ L) as (g & Lg & ->). rewrite !GV, !VR by auto. now apply (p_loc _ _ P).
  - intros v' L. destruct (OV _ L) as (v & Lv & ->). rewrite VR by auto. now apply (p_site _ _ P).
  - intros v' L. destruct (OV _ L) as (v & Lv & ->). rewrite VT by auto. now apply (p_tau _ _ P).
Qed.

(** Loading what was saved: the result is a well-formed copy *)
Theorem FromDict_inv c d d0 : cfg_ok c -> Pre c d -> BInv (gB d0) -> BInv (wB d0) -> BInv (vB d0) -> gamma d0 = 0 ->
  (wm_ex d = false -> ira d0 = NULLP /\ masha d0 = NULLP) -> exists d1 d',
  FromDict (c_tab c) (tconf d) d0 = Ok d' /\ copy d d1 /\ fixed d1 d' /\ Inv c d' /\ gamma d' = 0 /\ (wm_ex d' = false -> ira d' = NULLP /\ masha d' = NULLP).
Proof.
  intros C P B1 B2 B3 Hg Hs. destruct (FromDict_copy (c_tab c) c d d0 P B1 B2 B3) as (d1 & E & Y & G & S1).
  destruct (FixDiagram_inv c d1 C (copy_Pre c d d1 P Y)) as (d' & E' & F & I).
  - congruence.
  - intros Ex. rewrite (y_ex _ _ Y) in Ex. destruct (S1 Ex) as (-> & ->), (Hs Ex) as (-> & ->). unfold live, NULLP. split; intros [X _]; lia.
  - exists d1, d'. rewrite E. split; [exact E'|]. split; [exact Y|]. split; [exact F|]. split; [exact I|].
    unfold fixed in F. destruct F as (_ & _ & _ & _ & _ & _ & _ & _ & _ & _ & _ & _ & _ & _ & _ & Fx & Fi & Fm & _ & _ & _ & _ & _ & F & _).
    split; [congruence|]. intros Ex. rewrite Fx, (y_ex _ _ Y) in Ex. destruct (S1 Ex), (Hs Ex). split; congruence.
Qed.

(** ** A freshly constructed object *)
Lemma constructed_reset T d : constructed d -> exists d', DReset T d = Ok d' /\ constructed d'.
Proof.
  intros (Hg & Hw & Hv & He & Hi & Hm & Hga).
  assert (NL : forall x, ~ live bundle_new x) by (intros x [_ X]; cbn in X; lia).
  destruct (fix_raw T d Hga) as (vg & gg & gw & wo & vw & vd & ww & wt & ph & dw & E & F & _).
  1-3: rewrite ?Hg, ?Hw, ?Hv; apply BInv_new.
  1-4: rewrite ?Hg, ?Hw; intros; exfalso; eapply NL; eassumption.
  - rewrite He. discriminate.
  - rewrite Hg. intros g L. exfalso. exact (NL g L).
  - rewrite Hw. intros g L. exfalso. exact (NL g L).
  - cbv zeta in E, F. eexists. split; [exact E|].
    destruct F as (_ & _ & F1 & F2 & F3 & _ & _ & _ & _ & _ & _ & _ & _ & _ & _ & F4 & F5 & F6 & _ & _ & _ & _ & _ & F7 & _).
    unfold constructed. rewrite F1, F2, F3, F4, F5, F6, F7. auto 10.
Qed.
Theorem load_inv c d d0 : cfg_ok c -> Pre c d -> constructed d0 -> exists d1 d',
  FromDict4 (c_tab c) (tconf d) d0 = Ok d' /\ copy d d1 /\ fixed d1 d' /\ Inv c d' /\ gamma d' = 0 /\ (wm_ex d' = false -> ira d' = NULLP /\ masha d' = NULLP).
Proof.
  intros C P K. destruct (constructed_reset (c_tab c) d0 K) as (d2 & E & Hg & Hw & Hv & He & Hi & Hm & Hga).
  unfold FromDict4. rewrite E. cbn [obind].
  apply FromDict_inv; auto; rewrite ?Hg, ?Hw, ?Hv; apply BInv_new.
Qed.

(** ** The fresh diagram *)
Definition bk (k : nat) : bundle := mkB (fun i => i) (fun i => i) k.
Lemma BInv_bk k : (k <= 20)%nat -> BInv (bk k).
Proof. intros H. constructor; cbn; auto. Qed.
Definition dref (co : list Z) (d : diagram) : diagram :=
  let d := s_gB d (bk 2) in let d := s_wB d (bk 1) in let d := s_vB d (bk 2) in
  let d := s_v_R d (fun _ => mkSite 0 co) in let d := s_v_T d (fun _ => rofZ 0) in let d := s_v_S d (fun _ _ => UP) in
  let d := s_g_ver d (fun g e => match e with IN => g | OUT => (1 - g)%nat end) in
  let d := s_g_K d (fun g => 1 + Z.of_nat g) in let d := s_g_meas d (fun g => Nat.eqb g 0) in let d := s_g_gg d (fun _ => false) in
  let d := s_w_ver d (fun _ e => match e with IN => 0%nat | OUT => 1%nat end) in let d := s_w_K d (fun _ => 1) in
  let d := s_w_delta d (fun _ => false) in let d := s_w_meas d (fun _ => false) in let d := s_w_ww d (fun _ => false) in
  let d := s_ghash d (fun k => (k =? kindex 1) || (k =? kindex 2)) in let d := s_whash d (fun k => k =? 1) in
  let d := s_measG d true in let d := s_gmeas d 0%nat in let d := s_wm_ex d false in s_sfl d (rofZ 1).
Lemma dref_conf co d : tconf (dref co d) = new_config co.
Proof. reflexivity. Qed.
Lemma bk1 x : live (bk 1) x -> x = 0%nat.
Proof. intros [_ H]. cbn in H. lia. Qed.
Lemma bk2 x : live (bk 2) x -> x = 0%nat \/ x = 1%nat.
Proof. intros [_ H]. cbn in H. lia. Qed.
Lemma lv k x : (x < k)%nat -> (k <= 20)%nat -> live (bk k) x.
Proof. intros H K. split; cbn; lia. Qed.

Lemma dref_Pre c co d : cfg_ok c -> site_ok (c_lat c) (mkSite 0 co) -> Pre c (dref co d).
Proof.
  intros C Hs. pose proof (co_order c C) as Ho. constructor.
  - apply BInv_bk. lia.
  - apply BInv_bk. lia.
  - apply BInv_bk. lia.
  - split; [reflexivity|split; [reflexivity|split; [exact (le_n 1)|]]].
    change (Z.of_nat 1 <= c_order c). lia.
  - intros g e L. change (live (bk 2) (match e with IN => g | OUT => (1 - g)%nat end)). destruct e; [exact L|apply lv; lia].
  - intros g g' e L L'. change (match e with IN => g | OUT => (1 - g)%nat end = match e with IN => g' | OUT => (1 - g')%nat end -> g = g').
    apply bk2 in L. apply bk2 in L'. destruct e; lia.
  - intros w e L. change (live (bk 2) (match e with IN => 0%nat | OUT => 1%nat end)). destruct e; apply lv; lia.
  - intros w w' e e' L L'. apply bk1 in L. apply bk1 in L'. subst.
    change (match e with IN => 0%nat | OUT => 1%nat end = match e' with IN => 0%nat | OUT => 1%nat end -> 0%nat = 0%nat /\ e = e').
    destruct e, e'; auto; discriminate.
  - change (HT (2 * MAX_K) (fun k => (k =? kindex 1) || (k =? kindex 2)) (live (bk 2)) (fun g => kindex (1 + Z.of_nat g))).
    split; [|split].
    + intros g L. apply bk2 in L. unfold kindex, MAX_K. lia.
    + intros k Hk. rewrite orb_true_iff, !Z.eqb_eq. split.
      * intros [-> | ->]; [exists 0%nat|exists 1%nat]; (split; [apply lv; lia|reflexivity]).
      * intros (g & L & <-). apply bk2 in L as [-> | ->]; auto.
    + intros g g' L L'. apply bk2 in L. apply bk2 in L'. unfold kindex. lia.
  - change (HT MAX_K (fun k => k =? 1) (live (bk 1)) (fun w => kabs 1)). split; [|split].
    + intros g L. unfold kabs, MAX_K. lia.
    + intros k Hk. rewrite Z.eqb_eq. split.
      * intros ->. exists 0%nat. split; [apply lv; lia|reflexivity].
      * intros (g & L & <-). reflexivity.
    + intros g g' L L' _. apply bk1 in L. apply bk1 in L'. congruence.
  - intros w L. change (1 <> 0). lia.
  - intros gi go w e L1 L2 L3. apply bk2 in L1. apply bk2 in L2. apply bk1 in L3. subst w.
    change ((1 - gi)%nat = match e with IN => 0%nat | OUT => 1%nat end -> go = match e with IN => 0%nat | OUT => 1%nat end ->
      eqm (1 + Z.of_nat gi - (1 + Z.of_nat go) - SIGN e * 1 + 0) 0).
    intros E1 E2. destruct e.
    + assert (gi = 1%nat) by lia. subst. apply eqm_refl.
    + assert (gi = 0%nat) by lia. subst. apply eqm_refl.
  - intros g L. reflexivity.
  - intros w L. reflexivity.
  - change (live (bk 2) 0 /\ (forall g, live (bk 2) g -> (Nat.eqb g 0 = true <-> g = 0%nat)) /\ (forall w, live (bk 1) w -> false = false)).
    split; [apply lv; lia|]. split; [|auto]. intros g _. apply Nat.eqb_eq.
  - discriminate.
  - intros w L. reflexivity.
  - intros g L. reflexivity.
  - intros v L. exact Hs.
  - intros v L. left. reflexivity.
Qed.

Lemma new_coord_ok L : lat_ok L -> 1 < nth 0 (Size L) 0 -> (length (Size L) = 2 \/ length (Size L) = 3)%nat ->
  exists co, new_coord L = Ok co /\ site_ok L (mkSite 0 co).
Proof.
  intros (_ & HF & HS) H1 Hl. unfold new_coord, site_ok, vec_ok. cbn [sub coord].
  destruct (Size L) as [|x [|y [|z [|u l]]]] eqn:E; cbn [length] in Hl; try lia; cbn [nth] in H1;
    cbn [length Nat.eqb]; rewrite !Forall_cons_iff in HF; (eexists; split; [reflexivity|]); (split; [lia|]);
    repeat (apply Forall2_cons; [lia|]); apply Forall2_nil.
Qed.
Theorem BuildNew_inv c d0 : cfg_ok c -> 1 < nth 0 (Size (c_lat c)) 0 -> (length (Size (c_lat c)) = 2 \/ length (Size (c_lat c)) = 3)%nat ->
  constructed d0 -> exists co d1 d', new_coord (c_lat c) = Ok co /\ BuildNew (c_tab c) (c_lat c) d0 = Ok d' /\
    copy (dref co d0) d1 /\ fixed d1 d' /\ Inv c d' /\ gamma d' = 0 /\ (wm_ex d' = false -> ira d' = NULLP /\ masha d' = NULLP).
Proof.
  intros C H1 H2 K. destruct (new_coord_ok (c_lat c) (co_lat c C) H1 H2) as (co & E & S0).
  destruct (load_inv c (dref co d0) d0 C (dref_Pre c co d0 C S0) K) as (d1 & d' & E' & Y & F & I).
  exists co, d1, d'. split; [exact E|]. split; [|auto]. rewrite dref_conf in E'. unfold BuildNew, FromDict4 in *.
  destruct (DReset (c_tab c) d0); cbn [obind] in *; [|discriminate|discriminate]. rewrite E. cbn [obind]. exact E'.
Qed.

(** ** Reset *)
Theorem Reset_inv c d : cfg_ok c -> Inv c d -> gamma d = 0 ->
  (wm_ex d = false -> ~ live (vB d) (ira d) /\ ~ live (vB d) (masha d)) ->
  exists d', DReset (c_tab c) d = Ok d' /\ fixed d d' /\ Inv c d'.
Proof. intros C HI Hg Hs. apply (FixDiagram_inv c d C (Inv_Pre c d HI) Hg Hs). Qed.
End IO.
