(** FixDiagram rebuilds the invariant from vertices and line ends *)
From Coq Require Import ZArith List Bool Arith Lia ZifyBool.
From Verif Require Import Base Num RNG Momentum Complex Lattice Bundle IndexMap Weights Diagram Markov DiagramIO
  P_Momentum P_RNG P_Bundle P_Lattice P_IndexMap P_WP P_Inv P_Rel.
Import ListNotations.
Open Scope Z_scope.

Section Fix.
Context {N : Num}.

Lemma for_upto_snoc {A} (body : nat -> A -> outcome A) : forall n i d,
  for_upto body i (S n) d = obind (for_upto body i n d) (body (i + n)%nat).
Proof.
  induction n as [|n IH]; intros i d.
  - cbn [for_upto obind]. rewrite Nat.add_0_r. destruct (body i d); reflexivity.
  - cbn [for_upto] in *. destruct (body i d) as [d1| |]; cbn [obind]; auto.
    rewrite IH. now rewrite Nat.add_succ_r.
Qed.

Definition setG (d : diagram) vg gg gw dw := s_dweight (s_g_W (s_g_gg (s_v_G d vg) gg) gw) dw.
Definition setW (d : diagram) wo vw vd ww wt dw := s_dweight (s_w_W (s_w_ww (s_v_D (s_v_W (s_w_worm d wo) vw) vd) ww) wt) dw.

(** product of the weights of the lines named 0..k-1 *)
Definition prodn (b : bundle) (wt : nat -> cplx) (a : cplx) (k : nat) : cplx :=
  fold_left (fun a i => cmul a (wt (names b i))) (seq 0 k) a.
Lemma prodn_S b wt a k : prodn b wt a (S k) = cmul (prodn b wt a k) (wt (names b k)).
Proof. unfold prodn. rewrite seq_S, fold_left_app. reflexivity. Qed.
Lemma prodn_ext b wt wt' a k : (forall i, (i < k)%nat -> wt (names b i) = wt' (names b i)) -> prodn b wt a k = prodn b wt' a k.
Proof.
  induction k as [|k IH]; intros H; auto. rewrite !prodn_S, IH, H by auto with arith. reflexivity.
Qed.

Definition gwt (T : tables) (d : diagram) (g : nat) : outcome cplx :=
  GWeight T (v_R d (g_ver d g IN)) (v_R d (g_ver d g OUT)) (v_T d (g_ver d g IN)) (v_T d (g_ver d g OUT))
    (v_S d (g_ver d g IN) OUT) (v_S d (g_ver d g OUT) IN) (g_meas d g) false (uext d).
Definition flag (d : diagram) (w : nat) : bool :=
  Nat.eqb (w_ver d w IN) (ira d) || Nat.eqb (w_ver d w IN) (masha d) ||
  Nat.eqb (w_ver d w OUT) (ira d) || Nat.eqb (w_ver d w OUT) (masha d).
Definition wwt (T : tables) (d : diagram) (w : nat) : outcome cplx :=
  WWeight T (v_R d (w_ver d w IN)) (v_R d (w_ver d w OUT)) (v_T d (w_ver d w IN)) (v_T d (w_ver d w OUT))
    (v_S d (w_ver d w IN)) (v_S d (w_ver d w OUT)) (flag d w) (w_meas d w) (w_delta d w) false (uext d).

Lemma fix_g_loop T d : BInv (gB d) -> (forall g e, live (gB d) g -> (g_ver d g e < 20)%nat) ->
  (forall g g' e, live (gB d) g -> live (gB d) g' -> g_ver d g e = g_ver d g' e -> g = g') ->
  (forall g, live (gB d) g -> exists w, gwt T d g = Ok w) ->
  forall k, (k <= avail (gB d))%nat -> exists vg gg gw,
    for_upto (fix_g T) 0 k d = Ok (setG d vg gg gw (prodn (gB d) gw (dweight d) k)) /\
    (forall g, live (gB d) g -> (nm (gB d) g < k)%nat ->
       vg (g_ver d g IN) OUT = g /\ vg (g_ver d g OUT) IN = g /\ gg g = false /\ gwt T d g = Ok (gw g)).
Proof.
  intros B He Hi Hw. induction k as [|k IH]; intros Hk.
  - exists (v_G d), (g_gg d), (g_W d). split; [destruct d; reflexivity|]. intros; lia.
  - destruct IH as (vg & gg & gw & E & H); [lia|]. rewrite for_upto_snoc, E. cbn [obind].
    destruct (bat_spec (gB d) k B) as [Eb Lg]; [lia|]. set (g := names (gB d) k) in *.
    assert (Nk : nm (gB d) g = k) by (apply (bi_names _ B); pose proof (bi_av _ B); lia).
    destruct (Hw g Lg) as [w Ew]. unfold gwt in Ew.
    pose proof (He g IN Lg) as L1. pose proof (He g OUT Lg) as L2.
    exists (upd2 (upd2 vg (g_ver d g IN) OUT g) (g_ver d g OUT) IN g), (upd gg g false), (upd gw g w). split.
    + unfold fix_g. change (gB (setG d vg gg gw (prodn (gB d) gw (dweight d) k))) with (gB d). cbn [plus].
      rewrite Eb. cbn [obind].
      change (g_ver (setG d vg gg gw (prodn (gB d) gw (dweight d) k))) with (g_ver d).
      assert (Gd : negb ((g_ver d g IN <? MAX_BUNDLE)%nat && (g_ver d g OUT <? MAX_BUNDLE)%nat && (g <? MAX_BUNDLE)%nat) = false).
      { unfold MAX_BUNDLE. destruct Lg as [Lg _]. clear - L1 L2 Lg. lia. }
      rewrite Gd.
      set (d1 := setG d vg gg gw (prodn (gB d) gw (dweight d) k)).
      change (obind (GWeight T (v_R d (g_ver d g IN)) (v_R d (g_ver d g OUT)) (v_T d (g_ver d g IN)) (v_T d (g_ver d g OUT))
          (v_S d (g_ver d g IN) OUT) (v_S d (g_ver d g OUT) IN) (g_meas d g) false (uext d))
          (fun wt => Ok (setG d (upd2 (upd2 vg (g_ver d g IN) OUT g) (g_ver d g OUT) IN g) (upd gg g false) (upd gw g wt)
              (cmul (prodn (gB d) gw (dweight d) k) wt))) =
        Ok (setG d (upd2 (upd2 vg (g_ver d g IN) OUT g) (g_ver d g OUT) IN g) (upd gg g false) (upd gw g w)
              (prodn (gB d) (upd gw g w) (dweight d) (S k)))).
      rewrite Ew. cbn [obind]. do 2 f_equal. rewrite prodn_S. fold g. rewrite upd_same. f_equal.
      apply prodn_ext. intros i Hik. rewrite upd_other; auto. unfold g. intros X.
      apply names_inj in X; auto; pose proof (bi_av _ B); lia.
    + intros x Lx Hx. destruct (Nat.eq_dec x g) as [->|Nx].
      * rewrite !upd_same. rewrite !upd2_eq. cbn [dir_eqb]. unfold gwt. rewrite Ew.
        destruct (Nat.eq_dec (g_ver d g IN) (g_ver d g OUT)), (Nat.eq_dec (g_ver d g IN) (g_ver d g IN)),
          (Nat.eq_dec (g_ver d g OUT) (g_ver d g OUT)); try congruence; auto.
      * destruct (H x Lx) as (H1 & H2 & H3 & H4).
        { assert (nm (gB d) x <> k); [|lia]. intros X. apply Nx. apply (nm_inj (gB d)); auto; [apply Lx|apply Lg|congruence]. }
        rewrite !upd_other by auto. rewrite !upd2_eq. cbn [dir_eqb].
        destruct (Nat.eq_dec (g_ver d x IN) (g_ver d g IN)) as [E1|_]; [apply Hi in E1; auto; contradiction|].
        destruct (Nat.eq_dec (g_ver d x OUT) (g_ver d g OUT)) as [E1|_]; [apply Hi in E1; auto; contradiction|].
        destruct (Nat.eq_dec (g_ver d x IN) (g_ver d g OUT)), (Nat.eq_dec (g_ver d x OUT) (g_ver d g IN)); auto.
Qed.

Lemma fix_w_loop T d : BInv (wB d) -> (forall w e, live (wB d) w -> (w_ver d w e < 20)%nat) ->
  (forall w w' e e', live (wB d) w -> live (wB d) w' -> w_ver d w e = w_ver d w' e' -> w = w' /\ e = e') ->
  (forall w, live (wB d) w -> exists x, wwt T d w = Ok x) ->
  forall k, (k <= avail (wB d))%nat -> exists wo vw vd ww wt,
    for_upto (fix_w T) 0 k d = Ok (setW d wo vw vd ww wt (prodn (wB d) wt (dweight d) k)) /\
    (forall w, live (wB d) w -> (nm (wB d) w < k)%nat ->
       wo w = flag d w /\ (forall e, vw (w_ver d w e) = w /\ vd (w_ver d w e) = e) /\ ww w = false /\ wwt T d w = Ok (wt w)).
Proof.
  intros B He Hi Hw. induction k as [|k IH]; intros Hk.
  - exists (w_worm d), (v_W d), (v_D d), (w_ww d), (w_W d). split; [destruct d; reflexivity|]. intros; lia.
  - destruct IH as (wo & vw & vd & ww & wt & E & H); [lia|]. rewrite for_upto_snoc, E. cbn [obind].
    destruct (bat_spec (wB d) k B) as [Eb Lg]; [lia|]. set (g := names (wB d) k) in *.
    assert (Nk : nm (wB d) g = k) by (apply (bi_names _ B); pose proof (bi_av _ B); lia).
    destruct (Hw g Lg) as [w Ew]. unfold wwt in Ew.
    pose proof (He g IN Lg) as L1. pose proof (He g OUT Lg) as L2.
    assert (Nio : w_ver d g IN <> w_ver d g OUT) by (intros X; apply Hi in X; auto; destruct X; discriminate).
    exists (upd wo g (flag d g)), (upd (upd vw (w_ver d g IN) g) (w_ver d g OUT) g),
      (upd (upd vd (w_ver d g IN) IN) (w_ver d g OUT) OUT), (upd ww g false), (upd wt g w). split.
    + unfold fix_w. change (wB (setW d wo vw vd ww wt (prodn (wB d) wt (dweight d) k))) with (wB d). cbn [plus].
      rewrite Eb. cbn [obind].
      change (w_ver (setW d wo vw vd ww wt (prodn (wB d) wt (dweight d) k))) with (w_ver d).
      assert (Gd : negb ((w_ver d g IN <? MAX_BUNDLE)%nat && (w_ver d g OUT <? MAX_BUNDLE)%nat && (g <? MAX_BUNDLE)%nat) = false).
      { unfold MAX_BUNDLE. destruct Lg as [Lg _]. clear - L1 L2 Lg. lia. }
      rewrite Gd.
      change (obind (WWeight T (v_R d (w_ver d g IN)) (v_R d (w_ver d g OUT)) (v_T d (w_ver d g IN)) (v_T d (w_ver d g OUT))
          (v_S d (w_ver d g IN)) (v_S d (w_ver d g OUT)) (upd wo g (flag d g) g) (w_meas d g) (w_delta d g) false (uext d))
          (fun x => Ok (setW d (upd wo g (flag d g)) (upd (upd vw (w_ver d g IN) g) (w_ver d g OUT) g)
              (upd (upd vd (w_ver d g IN) IN) (w_ver d g OUT) OUT) (upd ww g false) (upd wt g x)
              (cmul (prodn (wB d) wt (dweight d) k) x))) =
        Ok (setW d (upd wo g (flag d g)) (upd (upd vw (w_ver d g IN) g) (w_ver d g OUT) g)
              (upd (upd vd (w_ver d g IN) IN) (w_ver d g OUT) OUT) (upd ww g false) (upd wt g w)
              (prodn (wB d) (upd wt g w) (dweight d) (S k)))).
      rewrite upd_same, Ew. cbn [obind]. do 2 f_equal. rewrite prodn_S. fold g. rewrite upd_same. f_equal.
      apply prodn_ext. intros i Hik. rewrite upd_other; auto. unfold g. intros X.
      apply names_inj in X; auto; pose proof (bi_av _ B); lia.
    + intros x Lx Hx. destruct (Nat.eq_dec x g) as [->|Nx].
      * rewrite !upd_same. unfold wwt. rewrite Ew. split; [auto|]. split; [|auto].
        intros []; rewrite ?upd_same; auto. rewrite !(upd_other _ (w_ver d g OUT)) by auto. rewrite !upd_same. auto.
      * destruct (H x Lx) as (H1 & H2 & H3 & H4).
        { assert (nm (wB d) x <> k); [|lia]. intros X. apply Nx. apply (nm_inj (wB d)); auto; [apply Lx|apply Lg|congruence]. }
        rewrite !(upd_other _ g) by auto. split; [auto|]. split; [|auto]. intros e.
        assert (D : forall e', w_ver d x e <> w_ver d g e') by (intros e' X; apply Hi in X; auto; destruct X; contradiction).
        rewrite !upd_other by apply D. apply H2.
Qed.

(** What FixDiagram needs: vertices with data, lines with ends, momenta and flags. *)
Record Pre (c : cfg) (d : diagram) : Prop := {
  p_bg : BInv (gB d); p_bw : BInv (wB d); p_bv : BInv (vB d);
  p_cnt : avail (gB d) = (2 * avail (wB d))%nat /\ avail (vB d) = (2 * avail (wB d))%nat /\
          (1 <= avail (wB d))%nat /\ Z.of_nat (avail (wB d)) <= c_order c;
  p_gv : forall g e, live (gB d) g -> live (vB d) (g_ver d g e);
  p_gi : forall g g' e, live (gB d) g -> live (gB d) g' -> g_ver d g e = g_ver d g' e -> g = g';
  p_wv : forall w e, live (wB d) w -> live (vB d) (w_ver d w e);
  p_wi : forall w w' e e', live (wB d) w -> live (wB d) w' -> w_ver d w e = w_ver d w' e' -> w = w' /\ e = e';
  p_hG : HT (2 * MAX_K) (ghash d) (live (gB d)) (fun g => kindex (g_K d g));
  p_hW : HT MAX_K (whash d) (live (wB d)) (fun w => kabs (w_K d w));
  p_hW0 : forall w, live (wB d) w -> w_K d w <> 0;
  p_K : forall gi go w e, live (gB d) gi -> live (gB d) go -> live (wB d) w ->
      g_ver d gi OUT = w_ver d w e -> g_ver d go IN = w_ver d w e ->
      eqm (g_K d gi - g_K d go - SIGN e * w_K d w + wterm (wm_ex d) (ira d) (masha d) (wm_K d) (w_ver d w e)) 0;
  p_spin : SpinG (gB d) (g_ver d) (v_S d);
  p_cur : forall w, live (wB d) w ->
      cur (v_S d (w_ver d w IN)) + cur (v_S d (w_ver d w OUT)) =
      (if wm_ex d then wm_ds d * (b2z (Nat.eqb (w_ver d w IN) (masha d) || Nat.eqb (w_ver d w OUT) (masha d))
                              - b2z (Nat.eqb (w_ver d w IN) (ira d) || Nat.eqb (w_ver d w OUT) (ira d))) else 0);
  p_meas : Meas (measG d) (gmeas d) (wmeas d) (gB d) (g_meas d) (wB d) (w_meas d);
  p_worm : wm_ex d = true -> live (vB d) (ira d) /\ live (vB d) (masha d) /\ ira d <> masha d /\
             (exists w, live (wB d) w /\ w_ver d w OUT = masha d) /\ (wm_ds d = 1 \/ wm_ds d = -1) /\ inrange (wm_K d);
  p_delta : Delta (wB d) (w_delta d) (w_meas d);
  p_loc : Loc (gB d) (g_ver d) (v_R d);
  p_site : forall v, live (vB d) v -> site_ok (c_lat c) (v_R d v);
  p_tau : forall v, live (vB d) v -> tau_gen c (v_T d v) }.

(** an injection between finite sets of equal size is onto *)
Lemma live_onto b b' (f : nat -> nat) : BInv b -> BInv b' -> avail b = avail b' ->
  (forall x, live b x -> live b' (f x)) -> (forall x y, live b x -> live b y -> f x = f y -> x = y) ->
  forall y, live b' y -> exists x, live b x /\ f x = y.
Proof.
  intros B B' E Hl Hi y Ly.
  assert (I : incl (liveL b') (map f (liveL b))).
  { apply NoDup_length_incl.
    - apply NoDup_map_inj; [|now apply liveL_nodup]. intros u v Hu Hv. rewrite liveL_in in Hu, Hv by auto. auto.
    - rewrite map_length, !liveL_length. lia.
    - intros z Hz. apply in_map_iff in Hz as [x [<- Hx]]. rewrite liveL_in in * by auto. auto. }
  assert (Hy : In y (map f (liveL b))) by (apply I; now apply liveL_in).
  apply in_map_iff in Hy as [x [E' Hx]]. rewrite liveL_in in Hx by auto. eauto.
Qed.
Lemma NoDup_app {A} (l l' : list A) : NoDup l -> NoDup l' -> (forall x, In x l -> In x l' -> False) -> NoDup (l ++ l').
Proof.
  induction 1 as [|x l Hx Hl IH]; intros H' D; cbn [app]; auto. constructor.
  - rewrite in_app_iff. intros [X|X]; [auto|]. apply (D x); [now left|auto].
  - apply IH; auto. intros y Hy. apply D. now right.
Qed.
(** the two ends of the W lines exhaust the vertices *)
Lemma live_onto2 b b' (f : nat -> dir -> nat) : BInv b -> BInv b' -> (2 * avail b = avail b')%nat ->
  (forall x e, live b x -> live b' (f x e)) -> (forall x y e e', live b x -> live b y -> f x e = f y e' -> x = y /\ e = e') ->
  forall y, live b' y -> exists x e, live b x /\ f x e = y.
Proof.
  intros B B' E Hl Hi y Ly.
  set (l := map (fun x => f x IN) (liveL b) ++ map (fun x => f x OUT) (liveL b)).
  assert (I : incl (liveL b') l).
  { apply NoDup_length_incl.
    - apply NoDup_app.
      + apply NoDup_map_inj; [|now apply liveL_nodup]. intros u v Hu Hv. rewrite liveL_in in Hu, Hv by auto. intros X; now apply Hi in X.
      + apply NoDup_map_inj; [|now apply liveL_nodup]. intros u v Hu Hv. rewrite liveL_in in Hu, Hv by auto. intros X; now apply Hi in X.
      + intros z H1 H2. apply in_map_iff in H1 as [u [E1 H1]], H2 as [v [E2 H2]]. rewrite liveL_in in H1, H2 by auto.
        rewrite <- E2 in E1. apply Hi in E1; auto. destruct E1; discriminate.
    - unfold l. rewrite app_length, !map_length, !liveL_length. lia.
    - intros z Hz. apply in_app_or in Hz as [Hz|Hz]; apply in_map_iff in Hz as [x [<- Hx]]; rewrite liveL_in in * by auto; auto. }
  assert (Hy : In y l) by (apply I; now apply liveL_in).
  apply in_app_or in Hy as [Hz|Hz]; apply in_map_iff in Hz as [x [E' Hx]]; rewrite liveL_in in Hx by auto; eauto.
Qed.

Definition fix_sign (d : diagram) : real := rmul (sfl d) (rofZ (if Z.rem (Z.of_nat (avail (wB d))) 2 =? 0 then 1 else -1)).
(** what the caller can see of FixDiagram *)
Definition fixed (d d' : diagram) : Prop :=
  order d' = Z.of_nat (avail (wB d)) /\ sfl d' = sfl d /\ gB d' = gB d /\ wB d' = wB d /\ vB d' = vB d /\
  g_meas d' = g_meas d /\ g_ver d' = g_ver d /\ g_K d' = g_K d /\ w_delta d' = w_delta d /\ w_meas d' = w_meas d /\
  w_ver d' = w_ver d /\ w_K d' = w_K d /\ v_R d' = v_R d /\ v_S d' = v_S d /\ v_T d' = v_T d /\
  wm_ex d' = wm_ex d /\ ira d' = ira d /\ masha d' = masha d /\ wm_K d' = wm_K d /\ wm_ds d' = wm_ds d /\
  measG d' = measG d /\ gmeas d' = gmeas d /\ wmeas d' = wmeas d /\ gamma d' = gamma d /\
  wm_W d' = (if wm_ex d then WormWeight else r1) /\
  dweight d' = cmul_assign_r (prodn (wB d) (w_W d') (prodn (gB d) (g_W d') (mkC r1 r0) (avail (gB d))) (avail (wB d))) (fix_sign d) /\
  dphase d' = phase (dweight d').

Lemma fix_raw T d : gamma d = 0 -> BInv (gB d) -> BInv (wB d) -> BInv (vB d) ->
  (forall g e, live (gB d) g -> live (vB d) (g_ver d g e)) ->
  (forall g g' e, live (gB d) g -> live (gB d) g' -> g_ver d g e = g_ver d g' e -> g = g') ->
  (forall w e, live (wB d) w -> live (vB d) (w_ver d w e)) ->
  (forall w w' e e', live (wB d) w -> live (wB d) w' -> w_ver d w e = w_ver d w' e' -> w = w' /\ e = e') ->
  (wm_ex d = true -> (ira d < 20)%nat /\ (masha d < 20)%nat) ->
  (forall g, live (gB d) g -> exists x, gwt T d g = Ok x) ->
  (forall w, live (wB d) w -> exists x, wwt T d w = Ok x) ->
  exists vg gg gw wo vw vd ww wt ph dw,
    let d' := s_dphase (setW (setG (s_wm_W (s_order d (Z.of_nat (avail (wB d)))) (if wm_ex d then WormWeight else r1)) vg gg gw dw)
      wo vw vd ww wt dw) ph in
    FixDiagram T d = Ok d' /\ fixed d d' /\
    (forall g, live (gB d) g ->
       vg (g_ver d g IN) OUT = g /\ vg (g_ver d g OUT) IN = g /\ gg g = false /\ gwt T d g = Ok (gw g)) /\
    (forall w, live (wB d) w ->
       wo w = flag d w /\ (forall e, vw (w_ver d w e) = w /\ vd (w_ver d w e) = e) /\ ww w = false /\ wwt T d w = Ok (wt w)).
Proof.
  intros Hg Bg Bw Bv Gv Gi Wv Wi Wm GW WW. unfold FixDiagram. rewrite Hg. cbn [Z.eqb negb].
  set (d0 := s_wm_W (s_order d (Z.of_nat (bhowmany (wB d)))) r1).
  assert (Gd : wm_ex d0 && negb ((ira d0 <? MAX_BUNDLE)%nat && (masha d0 <? MAX_BUNDLE)%nat) = false).
  { change (wm_ex d && negb ((ira d <? MAX_BUNDLE)%nat && (masha d <? MAX_BUNDLE)%nat) = false).
    destruct (wm_ex d); auto. destruct Wm as [A B]; auto. unfold MAX_BUNDLE. clear - A B. lia. }
  rewrite Gd. set (d1 := if wm_ex d0 then s_wm_W d0 WormWeight else d0).
  assert (E1 : d1 = s_wm_W (s_order d (Z.of_nat (avail (wB d)))) (if wm_ex d then WormWeight else r1)).
  { unfold d1. change (wm_ex d0) with (wm_ex d). destruct (wm_ex d); reflexivity. }
  cbv zeta. rewrite E1. clear E1 d1 Gd d0. set (wmw := if wm_ex d then WormWeight else r1).
  set (d1 := s_wm_W (s_order d (Z.of_nat (avail (wB d)))) wmw). set (d2 := s_dweight d1 (mkC r1 r0)).
  destruct (fix_g_loop T d2 Bg (fun g e L => proj1 (Gv g e L)) Gi GW (avail (gB d)) (le_n _)) as (vg & gg & gw & Eg & Hgl).
  change (bhowmany (gB d2)) with (avail (gB d)). rewrite Eg. cbn [obind].
  set (d3 := setG d2 vg gg gw (prodn (gB d2) gw (dweight d2) (avail (gB d)))).
  destruct (fix_w_loop T d3 Bw (fun g e L => proj1 (Wv g e L)) Wi WW (avail (wB d)) (le_n _)) as (wo & vw & vd & ww & wt & Ew & Hwl).
  change (bhowmany (wB d3)) with (avail (wB d)). rewrite Ew. cbn [obind].
  set (dw := cmul_assign_r (prodn (wB d) wt (prodn (gB d) gw (mkC r1 r0) (avail (gB d))) (avail (wB d))) (fix_sign d)).
  exists vg, gg, gw, wo, vw, vd, ww, wt, (phase dw), dw. cbv zeta. split; [reflexivity|]. split; [|split].
  - unfold fixed. repeat split.
  - intros g Lg. apply Hgl; auto. apply Lg.
  - intros w Lw. apply Hwl; auto. apply Lw.
Qed.
Lemma gwt_ok c d g : cfg_ok c -> Pre c d -> live (gB d) g -> exists x, gwt (c_tab c) d g = Ok x.
Proof.
  intros C P L. pose proof (p_gv _ _ P _ IN L). pose proof (p_gv _ _ P _ OUT L).
  unfold gwt. apply (GWeight_ok c); [exact C|apply (p_site _ _ P); auto|apply (p_site _ _ P); auto|apply (p_tau _ _ P); auto|apply (p_tau _ _ P); auto|discriminate].
Qed.
Lemma wwt_ok c d w : cfg_ok c -> Pre c d -> live (wB d) w -> exists x, wwt (c_tab c) d w = Ok x.
Proof.
  intros C P L. pose proof (p_wv _ _ P _ IN L). pose proof (p_wv _ _ P _ OUT L).
  unfold wwt. apply (WWeight_ok c); [exact C|apply (p_site _ _ P); auto|apply (p_site _ _ P); auto|apply (p_tau _ _ P); auto|apply (p_tau _ _ P); auto|discriminate].
Qed.

Theorem FixDiagram_inv c d : cfg_ok c -> Pre c d -> gamma d = 0 ->
  (wm_ex d = false -> ~ live (vB d) (ira d) /\ ~ live (vB d) (masha d)) ->
  exists d', FixDiagram (c_tab c) d = Ok d' /\ fixed d d' /\ Inv c d'.
Proof.
  intros C P Hgam Hst.
  destruct (p_cnt _ _ P) as (A1 & A2 & A3 & A4).
  destruct (fix_raw (c_tab c) d Hgam (p_bg _ _ P) (p_bw _ _ P) (p_bv _ _ P) (p_gv _ _ P) (p_gi _ _ P)
     (p_wv _ _ P) (p_wi _ _ P)) as (vg & gg & gw & wo & vw & vd & ww & wt & ph & dw & E & F & HG & HW).
  { intros X. pose proof (p_worm _ _ P X) as Y. destruct Y as ((?&_) & (?&_) & _). auto. }
  { intros g L. eapply gwt_ok; eauto. }
  { intros g L. eapply wwt_ok; eauto. }
  cbv zeta in *. eexists. split; [exact E|]. split; [exact F|]. clear E F.
  assert (SG : forall v e, live (vB d) v -> exists g, live (gB d) g /\ g_ver d g e = v).
  { intros v e Lv. apply (live_onto (gB d) (vB d) (fun g => g_ver d g e) (p_bg _ _ P) (p_bv _ _ P)).
    - clear - A1 A2. lia.
    - intros g Lg. now apply (p_gv _ _ P).
    - intros x y Lx Ly. now apply (p_gi _ _ P).
    - exact Lv. }
  assert (SW : forall v, live (vB d) v -> exists w e, live (wB d) w /\ w_ver d w e = v).
  { apply (live_onto2 (wB d) (vB d) (w_ver d) (p_bw _ _ P) (p_bv _ _ P)).
    - clear - A2. lia.
    - exact (p_wv _ _ P).
    - exact (p_wi _ _ P). }
  constructor.
  - exact (p_bg _ _ P).
  - exact (p_bw _ _ P).
  - exact (p_bv _ _ P).
  - change (Cnt (c_order c) (Z.of_nat (avail (wB d))) (avail (gB d)) (avail (wB d)) (avail (vB d))). unfold Cnt. clear - A1 A2 A3 A4. lia.
  - change (TopoG (gB d) (vB d) (g_ver d) vg). split.
    + intros g e Lg. split; [now apply (p_gv _ _ P)|]. destruct (HG g Lg) as (H1 & H2 & _). destruct e; cbn [inv]; auto.
    + intros v e Lv. destruct (SG v (inv e) Lv) as (g & Lg & <-). destruct (HG g Lg) as (H1 & H2 & _).
      destruct e; cbn [inv] in *; rewrite ?H1, ?H2; auto.
  - change (TopoW (wB d) (vB d) (w_ver d) vw vd). split.
    + intros w e Lw. destruct (HW w Lw) as (_ & H & _). destruct (H e). repeat split; auto; now apply (p_wv _ _ P).
    + intros v Lv. destruct (SW v Lv) as (w & e & Lw & <-). destruct (HW w Lw) as (_ & H & _). destruct (H e) as [-> ->]. auto.
  - exact (p_hG _ _ P).
  - exact (p_hW _ _ P).
  - exact (p_hW0 _ _ P).
  - change (KCons (vB d) vg vw vd (g_K d) (w_K d) (wm_ex d) (ira d) (masha d) (wm_K d)). intros v Lv.
    destruct (SG v IN Lv) as (go & Lo & Eo), (SG v OUT Lv) as (gi & Li & Ei), (SW v Lv) as (w & e & Lw & Ew).
    destruct (HG go Lo) as (H1 & _). destruct (HG gi Li) as (_ & H2 & _). destruct (HW w Lw) as (_ & H & _). destruct (H e) as [H3 H4].
    rewrite Eo in H1. rewrite Ei in H2. rewrite Ew in H3, H4. rewrite H1, H2, H3, H4.
    pose proof (p_K _ _ P gi go w e Li Lo Lw) as X. rewrite Ew in X. apply X; auto.
  - exact (p_spin _ _ P).
  - change (SpinW (wB d) (w_ver d) (v_S d) vw (wm_ex d) (ira d) (masha d) (wm_ds d)). intros w Lw.
    rewrite (p_cur _ _ P w Lw). pose proof (p_worm _ _ P) as PW. destruct (wm_ex d); auto.
    destruct (PW eq_refl) as (Li & Lm & _).
    assert (Q : forall v, live (vB d) v -> Nat.eqb (vw v) w = Nat.eqb (w_ver d w IN) v || Nat.eqb (w_ver d w OUT) v).
    { intros v Lv. destruct (SW v Lv) as (w' & e & Lw' & <-). destruct (HW w' Lw') as (_ & H & _). destruct (H e) as [-> _].
      apply eq_true_iff_eq. rewrite orb_true_iff, !Nat.eqb_eq. split.
      - intros ->. destruct e; auto.
      - intros [X|X]; apply (p_wi _ _ P) in X; auto; symmetry; tauto. }
    rewrite !Q by auto. reflexivity.
  - exact (p_meas _ _ P).
  - change (Worm (wm_ex d) (ira d) (masha d) (wm_K d) (wm_ds d) (Z.of_nat (avail (wB d))) (vB d) vw vd (wB d) wo).
    pose proof (p_worm _ _ P) as PW. unfold Worm. destruct (wm_ex d).
    + destruct (PW eq_refl) as (Li & Lm & Nim & (wM & LwM & EM) & Hd & Hk).
      split; [auto|]. split; [auto|]. split; [auto|]. split; [|split; [clear - A3; lia|split; [auto|split; [auto|]]]].
      * rewrite <- EM. apply (HW wM LwM).
      * intros w Lw. destruct (HW w Lw) as (-> & _). unfold flag. rewrite !orb_true_iff, !Nat.eqb_eq.
        assert (Q : forall v, live (vB d) v -> (vw v = w <-> w_ver d w IN = v \/ w_ver d w OUT = v)).
        { intros v Lv. destruct (SW v Lv) as (w' & e & Lw' & <-). destruct (HW w' Lw') as (_ & H & _). destruct (H e) as [-> _]. split.
          - intros ->. destruct e; auto.
          - intros [X|X]; apply (p_wi _ _ P) in X; auto; symmetry; tauto. }
        rewrite (Q (ira d)), (Q (masha d)) by auto. tauto.
    + destruct (Hst eq_refl) as (Ni & Nm). intros w Lw. destruct (HW w Lw) as (-> & _). unfold flag.
      pose proof (p_wv _ _ P w IN Lw) as L1. pose proof (p_wv _ _ P w OUT Lw) as L2.
      rewrite <- not_true_iff_false, !orb_true_iff, !Nat.eqb_eq. intros [[[X|X]|X]|X]; rewrite X in *; contradiction.
  - left. change (gamma d = 0 /\ (forall g, live (gB d) g -> gg g = false) /\ (forall w, live (wB d) w -> ww w = false)).
    split; [exact Hgam|]. split; intros x Lx; [apply (HG x Lx)|apply (HW x Lx)].
  - exact (p_delta _ _ P).
  - exact (p_loc _ _ P).
  - exact (p_site _ _ P).
  - exact (p_tau _ _ P).
  - change (StoreG (c_tab c) (gB d) (g_ver d) (v_R d) (v_T d) (v_S d) (g_meas d) gg (uext d) gw). intros g Lg.
    destruct (HG g Lg) as (_ & _ & -> & H). exact H.
  - change (StoreW (c_tab c) (wB d) (w_ver d) (v_R d) (v_T d) (v_S d) wo (w_meas d) (w_delta d) ww (uext d) wt). intros w Lw.
    destruct (HW w Lw) as (-> & _ & -> & H). exact H.
Qed.
End Fix.
