(** The invariant is preserved by the updates that add or remove an interaction line and by ChangeRLoop *)
From Coq Require Import ZArith List Bool Arith Lia ZifyBool.
From Verif Require Import Base Num RNG Momentum Complex Lattice Bundle IndexMap Weights Diagram Markov
  P_Momentum P_RNG P_Bundle P_Lattice P_IndexMap P_WP P_Inv P_Rel P_Sem1 P_Sem2 P_Pres1 P_Pres2.
Import ListNotations.
Open Scope Z_scope.

Ltac decs := repeat match goal with |- context[Nat.eq_dec ?a ?b] => destruct (Nat.eq_dec a b); try congruence end.

Section Pres3.
Context {N : Num}.

Lemma badd2_spec b a1 b1 a2 b2 : BInv b -> (avail b < 19)%nat -> badd b = Ok (a1, b1) -> badd b1 = Ok (a2, b2) ->
  BInv b2 /\ avail b2 = S (S (avail b)) /\ a1 <> a2 /\ ~ live b a1 /\ ~ live b a2 /\
  (forall x, live b2 x <-> live b x \/ x = a1 \/ x = a2).
Proof.
  intros B Ha E1 E2. destruct (badd_spec b B) as (x1 & y1 & F1 & _ & _ & N1 & B1 & A1 & L1 & _); [lia|].
  rewrite F1 in E1. injection E1 as -> ->.
  destruct (badd_spec b1 B1) as (x2 & y2 & F2 & _ & _ & N2 & B2 & A2 & L2 & _); [lia|].
  rewrite F2 in E2. injection E2 as -> ->.
  assert (a1 <> a2) by (intros ->; apply N2, L1; auto).
  repeat (split; [solve [auto; lia]|]). split.
  - intros X. apply N2, L1. auto.
  - intros x. rewrite L2, L1. tauto.
Qed.
Lemma badd1_spec b a1 b1 : BInv b -> (avail b < 20)%nat -> badd b = Ok (a1, b1) ->
  BInv b1 /\ avail b1 = S (avail b) /\ ~ live b a1 /\ (forall x, live b1 x <-> live b x \/ x = a1).
Proof.
  intros B Ha E1. destruct (badd_spec b B) as (x1 & y1 & F1 & _ & _ & N1 & B1 & A1 & L1 & _); [lia|].
  rewrite F1 in E1. injection E1 as -> ->. auto.
Qed.

Lemma add_pres de c d p d' r : cfg_ok c -> Inv c d -> add_rel de c d p d' r -> Inv c d'.
Proof.
  intros C HI H.
  destruct H as [I Ma dr dw GIC GMD kW kIA kMB kM vC vD tA tB sA sB wW gIA gMB gAC gBD o1 o0
    vA vB' GIA GMB WAB bv1 bv bg1 bg bw Hex Ho Hoc EI EMa RkW NkW HkW EGIC EGMD EkIA EkMB EkM HkIA HkMB NkAB
    HtA HtB Htd EsA EsB EvC EvD HwW HgIA HgMB HgAC HgBD _ _ Bv1 Bv Bg1 Bg Bw].
  destruct (f_wo HI Hex) as (Li & Lm & Nim & Dm & _ & Hds & RK & HW).
  destruct (f_cnt c d HI Ho) as (Ao & Ag & Av & Hoo). pose proof (co_order c C) as Hco.
  destruct (badd2_spec _ _ _ _ _ (i_bv _ _ HI) ltac:(lia) Bv1 Bv) as (BV & AV & NvAB & NvA & NvB & LV).
  destruct (badd2_spec _ _ _ _ _ (i_bg _ _ HI) ltac:(lia) Bg1 Bg) as (BG & AG & NgAB & NgA & NgB & LG).
  destruct (badd1_spec _ _ _ (i_bw _ _ HI) ltac:(lia) Bw) as (BW & AW & NwA & LW).
  rewrite <- EI, <- EMa in *.
  assert (LGIC : live (gB d) GIC) by (subst GIC; eauto with inv).
  assert (LGMD : live (gB d) GMD) by (subst GMD; eauto with inv).
  assert (NGCD : GIC <> GMD). { intros E. apply Nim. apply (f_vg_inj HI I Ma dr); auto. congruence. }
  assert (VI : g_ver d GIC (inv dr) = I) by (rewrite EGIC; apply (f_vgv HI); auto).
  assert (VM : g_ver d GMD (inv dr) = Ma) by (rewrite EGMD; apply (f_vgv HI); auto).
  assert (LvC : live (vB d) vC) by (subst vC; eauto with inv).
  assert (LvD : live (vB d) vD) by (subst vD; eauto with inv).
  assert (Nvx : forall x, live (vB d) x -> x <> vA /\ x <> vB') by (intros x Lx; split; intros ->; auto).
  assert (Ngx : forall x, live (gB d) x -> x <> GIA /\ x <> GMB) by (intros x Lx; split; intros ->; auto).
  assert (Nwx : forall x, live (wB d) x -> x <> WAB) by (intros x Lx ->; auto).
  destruct (Nvx I Li) as [NIA NIB]. destruct (Nvx Ma Lm) as [NMA NMB].
  destruct (Ngx GIC LGIC) as [NCA NCB]. destruct (Ngx GMD LGMD) as [NDA NDB].
  assert (LvA : live bv vA) by (apply LV; auto). assert (LvB : live bv vB') by (apply LV; auto).
  assert (LGIA : live bg GIA) by (apply LG; auto). assert (LGMB : live bg GMB) by (apply LG; auto).
  assert (LWAB : live bw WAB) by (apply LW; auto).
  assert (oV : forall x, live (vB d) x -> live bv x) by (intros; apply LV; auto).
  assert (oG : forall x, live (gB d) x -> live bg x) by (intros; apply LG; auto).
  assert (oW : forall x, live (wB d) x -> live bw x) by (intros; apply LW; auto).
  rewrite WWeightDir_eq in HwW by auto. rewrite GWeightDir_eq in HgIA, HgMB, HgAC, HgBD.
  set (gv' := upd2 (upd2 (upd2 (upd2 (upd2 (upd2 (g_ver d) GIA (inv dr) I) GIA dr vA) GMB (inv dr) Ma) GMB dr vB')
       GIC (inv dr) vA) GMD (inv dr) vB').
  set (vg' := upd2 (upd2 (upd2 (upd2 (upd2 (upd2 (v_G d) vA dr GIC) vA (inv dr) GIA) vB' dr GMD) vB' (inv dr) GMB)
       I dr GIA) Ma dr GMB).
  assert (E1 : dir_eqb dr (inv dr) = false) by (destruct dr; auto).
  assert (E2 : dir_eqb (inv dr) dr = false) by (destruct dr; auto).
  assert (E3 : dir_eqb dr dr = true) by (destruct dr; auto).
  assert (E4 : dir_eqb (inv dr) (inv dr) = true) by (destruct dr; auto).
  assert (A1 : gv' GIA (inv dr) = I) by (unfold gv'; rewrite !upd2_eq, ?E1, ?E2, ?E3, ?E4; decs).
  assert (A2 : gv' GIA dr = vA) by (unfold gv'; rewrite !upd2_eq, ?E1, ?E2, ?E3, ?E4; decs).
  assert (B1 : gv' GMB (inv dr) = Ma) by (unfold gv'; rewrite !upd2_eq, ?E1, ?E2, ?E3, ?E4; decs).
  assert (B2 : gv' GMB dr = vB') by (unfold gv'; rewrite !upd2_eq, ?E1, ?E2, ?E3, ?E4; decs).
  assert (C1 : gv' GIC (inv dr) = vA) by (unfold gv'; rewrite !upd2_eq, ?E1, ?E2, ?E3, ?E4; decs).
  assert (C2 : gv' GIC dr = vC) by (unfold gv'; rewrite !upd2_eq, ?E1, ?E2, ?E3, ?E4; decs).
  assert (D1 : gv' GMD (inv dr) = vB') by (unfold gv'; rewrite !upd2_eq, ?E1, ?E2, ?E3, ?E4; decs).
  assert (D2 : gv' GMD dr = vD) by (unfold gv'; rewrite !upd2_eq, ?E1, ?E2, ?E3, ?E4; decs).
  assert (GO : forall x e, live (gB d) x -> x <> GIC -> x <> GMD -> gv' x e = g_ver d x e).
  { intros x e Lx X1 X2. destruct (Ngx x Lx). unfold gv'; rewrite !upd2_eq. decs. }
  assert (VA1 : vg' vA dr = GIC) by (unfold vg'; rewrite !upd2_eq, ?E1, ?E2, ?E3, ?E4; decs).
  assert (VA2 : vg' vA (inv dr) = GIA) by (unfold vg'; rewrite !upd2_eq, ?E1, ?E2, ?E3, ?E4; decs).
  assert (VB1 : vg' vB' dr = GMD) by (unfold vg'; rewrite !upd2_eq, ?E1, ?E2, ?E3, ?E4; decs).
  assert (VB2 : vg' vB' (inv dr) = GMB) by (unfold vg'; rewrite !upd2_eq, ?E1, ?E2, ?E3, ?E4; decs).
  assert (VI1 : vg' I dr = GIA) by (unfold vg'; rewrite !upd2_eq, ?E1, ?E2, ?E3, ?E4; decs).
  assert (VI2 : vg' I (inv dr) = v_G d I (inv dr)) by (unfold vg'; rewrite !upd2_eq, ?E1, ?E2, ?E3, ?E4; decs).
  assert (VM1 : vg' Ma dr = GMB) by (unfold vg'; rewrite !upd2_eq, ?E1, ?E2, ?E3, ?E4; decs).
  assert (VM2 : vg' Ma (inv dr) = v_G d Ma (inv dr)) by (unfold vg'; rewrite !upd2_eq, ?E1, ?E2, ?E3, ?E4; decs).
  assert (VO : forall x e, live (vB d) x -> x <> I -> x <> Ma -> vg' x e = v_G d x e).
  { intros x e Lx X1 X2. destruct (Nvx x Lx). unfold vg'; rewrite !upd2_eq. decs. }
  assert (Hdir : forall e, e = dr \/ e = inv dr) by (intros e; destruct e, dr; auto).
  assert (VOi : forall x, live (vB d) x -> vg' x (inv dr) = v_G d x (inv dr)).
  { intros x Lx. destruct (Nat.eq_dec x I) as [->|]; auto. destruct (Nat.eq_dec x Ma) as [->|]; auto. }
  assert (GOd : forall x, live (gB d) x -> gv' x dr = g_ver d x dr).
  { intros x Lx. destruct (Nat.eq_dec x GIC) as [->|]; [congruence|]. destruct (Nat.eq_dec x GMD) as [->|]; auto. congruence. }
  (* pointwise values of vertex fields *)
  assert (UA : forall X (f : nat -> X) a b, upd (upd f vA a) vB' b vA = a) by (intros; rewrite !upd_eq; decs).
  assert (UB : forall X (f : nat -> X) a b, upd (upd f vA a) vB' b vB' = b) by (intros; rewrite !upd_eq; decs).
  assert (UO : forall X (f : nat -> X) a b x, live (vB d) x -> upd (upd f vA a) vB' b x = f x).
  { intros X f a b x Lx. destruct (Nvx x Lx). rewrite !upd_eq; decs. }
  assert (QA : forall X (f : nat -> X) a b, upd (upd f GIA a) GMB b GIA = a) by (intros; rewrite !upd_eq; decs).
  assert (QB : forall X (f : nat -> X) a b, upd (upd f GIA a) GMB b GMB = b) by (intros; rewrite !upd_eq; decs).
  assert (QO : forall X (f : nat -> X) a b x, live (gB d) x -> upd (upd f GIA a) GMB b x = f x).
  { intros X f a b x Lx. destruct (Ngx x Lx). rewrite !upd_eq; decs. }
  assert (WO : forall X (f : nat -> X) a x, live (wB d) x -> upd f WAB a x = f x).
  { intros X f a x Lx. apply upd_other. auto. }
  set (wv' := upd2 (upd2 (w_ver d) WAB dw vA) WAB (inv dw) vB').
  assert (WA1 : wv' WAB dw = vA) by (unfold wv'; rewrite !upd2_eq; decs; destruct dw; auto).
  assert (WA2 : wv' WAB (inv dw) = vB') by (unfold wv'; rewrite !upd2_eq; decs; destruct dw; auto).
  assert (WVO : forall x e, live (wB d) x -> wv' x e = w_ver d x e).
  { intros x e Lx. pose proof (Nwx x Lx). unfold wv'. rewrite !upd2_eq. decs. }
  (* momenta *)
  assert (Rsg : -3 <= SIGN dr * SIGN dw <= 3) by (clear; destruct dr, dw; cbn; lia).
  destruct (kscale_spec (SIGN dr * SIGN dw) kW Rsg RkW) as [Rs1 Es1].
  destruct (kscale_spec (SIGN dw) kW) as [Rs2 Es2]; [clear; destruct dw; cbn; lia|auto|].
  destruct (ksub_spec (g_K d GIC) (kscale (SIGN dr * SIGN dw) kW)) as [RkIA EqIA]; [eauto with inv|auto|].
  destruct (kadd_spec (g_K d GMD) (kscale (SIGN dr * SIGN dw) kW)) as [RkMB EqMB]; [eauto with inv|auto|].
  destruct (ksub_spec (wm_K d) (kscale (SIGN dw) kW)) as [RkM EqM]; [auto|auto|].
  rewrite <- EkIA in RkIA, EqIA. rewrite <- EkMB in RkMB, EqMB. rewrite <- EkM in RkM, EqM.
  clear EkIA EkMB EkM.
  (* spins of the cut lines *)
  assert (SC : sA = v_S d I dr /\ sA = v_S d vC (inv dr)).
  { pose proof (i_spin _ _ HI _ LGIC) as S. destruct dr; cbn [inv] in *; rewrite ?VI, <- ?EvC in *; split; congruence. }
  assert (SD : sB = v_S d Ma dr /\ sB = v_S d vD (inv dr)).
  { pose proof (i_spin _ _ HI _ LGMD) as S. destruct dr; cbn [inv] in *; rewrite ?VM, <- ?EvD in *; split; congruence. }
  assert (RC : v_R d I = v_R d vC).
  { pose proof (i_loc _ _ HI _ LGIC) as S. destruct dr; cbn [inv] in *; rewrite ?VI, <- ?EvC in *; congruence. }
  assert (RD : v_R d Ma = v_R d vD).
  { pose proof (i_loc _ _ HI _ LGMD) as S. destruct dr; cbn [inv] in *; rewrite ?VM, <- ?EvD in *; congruence. }
  destruct SC as [SC1 SC2], SD as [SD1 SD2].
  assert (Gcase : forall x, live bg x -> x = GIA \/ x = GMB \/ x = GIC \/ x = GMD \/ (live (gB d) x /\ x <> GIC /\ x <> GMD)).
  { intros x Lx. apply LG in Lx as [Lx|Lx]; [|tauto]. destruct (Nat.eq_dec x GIC); [right; right; left; auto|]. destruct (Nat.eq_dec x GMD); [right; right; right; left; auto|]. repeat right. auto. }
  constructor.
  - exact BG.
  - exact BW.
  - exact BV.
  - change (Cnt (c_order c) (order d + 1) (avail bg) (avail bw) (avail bv)). unfold Cnt.
    rewrite AG, AV, AW. clear - Ao Ag Av Hoo Hoc. lia.
  - change (TopoG bg bv gv' vg'). split.
    + intros g e Lg. destruct (Gcase g Lg) as [->|[->|[->|[->|(Lg' & X1 & X2)]]]]; destruct (Hdir e) as [-> | ->];
        rewrite ?A1, ?A2, ?B1, ?B2, ?C1, ?C2, ?D1, ?D2, ?inv_inv; auto.
      * rewrite VOi by auto. split; auto. rewrite EvC. apply (f_gvg HI); auto.
      * rewrite VOi by auto. split; auto. rewrite EvD. apply (f_gvg HI); auto.
      * rewrite GO by auto. rewrite VOi by eauto with inv. split; [eauto with inv|]. apply (f_gvg HI); auto.
      * rewrite GO by auto. pose proof (f_gvg HI g (inv dr) Lg') as Y. rewrite inv_inv in Y.
        split; [eauto with inv|]. rewrite VO; auto; eauto with inv; intros Z; rewrite Z in Y; congruence.
    + intros v e Lv. apply LV in Lv as [Lv|[-> | ->]]; destruct (Hdir e) as [-> | ->]; rewrite ?VA1, ?VA2, ?VB1, ?VB2, ?inv_inv; auto.
      * destruct (Nat.eq_dec v I) as [->|Z1]; [rewrite VI1; auto|].
        destruct (Nat.eq_dec v Ma) as [->|Z2]; [rewrite VM1; auto|].
        rewrite VO by auto. split; [eauto with inv|]. pose proof (f_vgv HI v dr Lv) as Y.
        rewrite GO; auto; eauto with inv; intros Z; rewrite Z in Y; congruence.
      * rewrite VOi by auto. split; [eauto with inv|]. rewrite GOd by eauto with inv.
        pose proof (f_vgv HI v (inv dr) Lv) as Y. now rewrite inv_inv in Y.
  - change (TopoW bw bv wv' (upd (upd (v_W d) vA WAB) vB' WAB) (upd (upd (v_D d) vA dw) vB' (inv dw))). split.
    + intros w e Lw. apply LW in Lw as [Lw| ->].
      * rewrite WVO, !UO by (auto; eauto with inv). split; [eauto with inv|]. split; [apply (f_wvw HI)|apply (f_wvd HI)]; auto.
      * assert (e = dw \/ e = inv dw) as [-> | ->] by (destruct e, dw; auto).
        -- rewrite WA1, !UA. auto.
        -- rewrite WA2, !UB. auto.
    + intros v Lv. apply LV in Lv as [Lv|[-> | ->]].
      * rewrite !UO by auto. split; [eauto with inv|]. rewrite WVO by eauto with inv. apply (f_vwv HI); auto.
      * rewrite !UA. auto.
      * rewrite !UB. auto.
  - change (HT (2 * MAX_K) (updZ (updZ (ghash d) (kindex kIA) true) (kindex kMB) true) (live bg)
      (fun x => kindex (upd (upd (g_K d) GIA kIA) GMB kMB x))).
    assert (HT1 : HT (2 * MAX_K) (updZ (ghash d) (kindex kIA) true) (fun x => live (gB d) x \/ x = GIA)
       (fun x => kindex (upd (g_K d) GIA kIA x))).
    { apply (HT_add _ _ (live (gB d)) (fun x => kindex (g_K d x)) _ GIA); auto.
      - exact (i_hG _ _ HI).
      - now apply kindex_range.
      - intros; reflexivity.
      - now rewrite upd_same.
      - intros x Lx. rewrite upd_other; auto. now apply Ngx. }
    eapply (HT_add _ _ _ _ _ GMB _ _ HT1).
    + apply updZ_true_other; auto. intros X. apply kindex_inj in X. auto.
    + now apply kindex_range.
    + intros [X|X]; auto.
    + intros x. rewrite LG. clear. tauto.
    + now rewrite QB.
    + intros x [Lx| ->]; [|rewrite QA, upd_same; auto]. rewrite QO, upd_other; auto. now apply Ngx.
  - change (HT MAX_K (updZ (whash d) (kabs kW) true) (live bw) (fun x => kabs (upd (w_K d) WAB kW x))).
    apply (HT_add _ _ (live (wB d)) (fun x => kabs (w_K d x)) _ WAB); auto using kabs_range.
    + exact (i_hW _ _ HI).
    + now rewrite upd_same.
    + intros x Lx. now rewrite WO.
  - change (forall x, live bw x -> upd (w_K d) WAB kW x <> 0). intros x Lx. apply LW in Lx as [Lx| ->].
    + rewrite WO by auto. apply (i_hW0 _ _ HI); auto.
    + now rewrite upd_same.
  - change (KCons bv vg' (upd (upd (v_W d) vA WAB) vB' WAB) (upd (upd (v_D d) vA dw) vB' (inv dw))
      (upd (upd (g_K d) GIA kIA) GMB kMB) (upd (w_K d) WAB kW) (wm_ex d) (ira d) (masha d) kM).
    rewrite <- EI, <- EMa, Hex. intros v Lv. apply LV in Lv as [Lv|[-> | ->]].
    + rewrite !UO by auto. rewrite WO by eauto with inv.
      pose proof (i_K _ _ HI v Lv) as K. rewrite Hex, <- EI, <- EMa in K.
      destruct (Nat.eq_dec v I) as [->|Z1]; [|destruct (Nat.eq_dec v Ma) as [->|Z2]].
      * rewrite wterm_i in *. destruct dr; cbn [inv] in *; rewrite VI1, VI2, QA, QO by eauto with inv;
          rewrite <- EGIC in K; destruct dw; cbn [SIGN] in *; eqm_lin.
      * rewrite wterm_m in * by auto. destruct dr; cbn [inv] in *; rewrite VM1, VM2, QB, QO by eauto with inv;
          rewrite <- EGMD in K; destruct dw; cbn [SIGN] in *; eqm_lin.
      * rewrite wterm_o' in * by auto. rewrite !VO, !QO by (auto; eauto with inv). exact K.
    + rewrite !UA, upd_same, wterm_o' by auto.
      destruct dr; cbn [inv] in *; rewrite VA1, VA2, QA, QO by auto; destruct dw; cbn [SIGN] in *; eqm_lin.
    + rewrite !UB, upd_same, wterm_o' by auto.
      destruct dr; cbn [inv] in *; rewrite VB1, VB2, QB, QO by auto; destruct dw; cbn [SIGN inv] in *; eqm_lin.
  - change (SpinG bg gv' (upd (upd (v_S d) vA (mkspin sA sA)) vB' (mkspin sB sB))). intros x Lx.
    destruct (Gcase x Lx) as [->|[->|[->|[->|(Lx' & X1 & X2)]]]].
    + destruct dr; cbn [inv] in *; rewrite A1, A2, UA, UO by auto; cbn [mkspin]; congruence.
    + destruct dr; cbn [inv] in *; rewrite B1, B2, UB, UO by auto; cbn [mkspin]; congruence.
    + destruct dr; cbn [inv] in *; rewrite C1, C2, UA, UO by auto; cbn [mkspin]; congruence.
    + destruct dr; cbn [inv] in *; rewrite D1, D2, UB, UO by auto; cbn [mkspin]; congruence.
    + rewrite !GO, !UO by (auto; eauto with inv). apply (i_spin _ _ HI); auto.
  - change (SpinW bw wv' (upd (upd (v_S d) vA (mkspin sA sA)) vB' (mkspin sB sB)) (upd (upd (v_W d) vA WAB) vB' WAB)
      (wm_ex d) (ira d) (masha d) (wm_ds d)).
    rewrite <- EI, <- EMa. intros x Lx. rewrite (UO _ _ _ _ I), (UO _ _ _ _ Ma) by auto. apply LW in Lx as [Lx| ->].
    + rewrite !WVO, !UO by (auto; eauto with inv). rewrite EI, EMa. apply (i_cur _ _ HI); auto.
    + rewrite Hex. assert (Y1 : v_W d I <> WAB) by (apply Nwx; eauto with inv).
      assert (Y2 : v_W d Ma <> WAB) by (apply Nwx; eauto with inv). apply Nat.eqb_neq in Y1, Y2. rewrite Y1, Y2.
      destruct dw; cbn [inv] in *; rewrite WA1, WA2, UA, UB; unfold cur, mkspin; clear; cbn [b2z]; lia.
  - change (Meas (measG d) (gmeas d) (wmeas d) bg (upd (upd (g_meas d) GIA false) GMB false) bw (upd (w_meas d) WAB false)).
    pose proof (i_meas _ _ HI) as M. unfold Meas in *. destruct (measG d).
    + destruct M as (M1 & M2 & M3). split; [auto|]. split.
      * intros x Lx. apply LG in Lx as [Lx|[-> | ->]].
        -- rewrite QO by auto. auto.
        -- rewrite QA. split; [discriminate|]. intros E0. rewrite E0 in *. contradiction.
        -- rewrite QB. split; [discriminate|]. intros E0. rewrite E0 in *. contradiction.
      * intros x Lx. apply LW in Lx as [Lx| ->]; [rewrite WO by auto; auto|apply upd_same].
    + destruct M as (M1 & M2 & M3). split; [auto|]. split.
      * intros x Lx. apply LW in Lx as [Lx| ->]; [rewrite WO by auto; auto|].
        rewrite upd_same. split; [discriminate|]. intros E0. rewrite E0 in *. contradiction.
      * intros x Lx. apply LG in Lx as [Lx|[-> | ->]]; [rewrite QO by auto; auto|apply QA|apply QB].
  - change (Worm (wm_ex d) (ira d) (masha d) kM (wm_ds d) (order d + 1) bv (upd (upd (v_W d) vA WAB) vB' WAB)
      (upd (upd (v_D d) vA dw) vB' (inv dw)) bw (upd (w_worm d) WAB false)).
    rewrite <- EI, <- EMa, Hex. unfold Worm. rewrite !UO by auto. rsplit. split; [clear - Hoo; lia|]. rsplit.
    intros x Lx. apply LW in Lx as [Lx| ->].
    + rewrite WO by auto. apply HW; auto.
    + rewrite upd_same. split; [discriminate|]. intros [E|E]; exfalso; apply NwA; rewrite <- E; eauto with inv.
  - change (Gam (gamma d) (order d + 1) (c_gamma3 c) bg (upd (upd (g_meas d) GIA false) GMB false)
      (upd (upd (g_gg d) GIA false) GMB false) bw (upd (w_meas d) WAB false) (upd (w_delta d) WAB de)
      (upd (w_ww d) WAB false) (vin d) (vout d)).
    assert (Ho1 : order d + 1 <> 0) by (clear - Hoo; lia).
    destruct (i_gam _ _ HI) as [(X & X1 & X2)|[(X & X1 & X2 & g & Y1 & Y2 & Y3 & Y4 & Y5 & Y6)|(X & X1 & X2 & w & Y1 & Y2 & Y2' & Y3 & Y4 & Y5 & Y6)]].
    + left. split; [auto|]. split; intros x Lx.
      * apply LG in Lx as [Lx|[-> | ->]]; [rewrite QO by auto; auto|apply QA|apply QB].
      * apply LW in Lx as [Lx| ->]; [rewrite WO by auto; auto|apply upd_same].
    + right. left. rsplit. exists g. rewrite QO by auto. rsplit. split; intros x Lx.
      * apply LG in Lx as [Lx|[-> | ->]]; [rewrite QO by auto; auto| |];
          rewrite ?QA, ?QB; (split; [discriminate|intros E0; rewrite E0 in *; contradiction]).
      * apply LW in Lx as [Lx| ->]; [rewrite WO by auto; auto|apply upd_same].
    + right. right. rsplit. exists w. rewrite !WO by auto. rsplit. split; intros x Lx.
      * apply LW in Lx as [Lx| ->]; [rewrite WO by auto; auto|]. rewrite upd_same. split; [discriminate|intros E0; rewrite E0 in *; contradiction].
      * apply LG in Lx as [Lx|[-> | ->]]; [rewrite QO by auto; auto|apply QA|apply QB].
  - change (Delta bw (upd (w_delta d) WAB de) (upd (w_meas d) WAB false)). intros x Lx. apply LW in Lx as [Lx| ->].
    + rewrite !WO by auto. apply (i_delta _ _ HI); auto.
    + now rewrite !upd_same.
  - change (Loc bg gv' (upd (upd (v_R d) vA (v_R d vC)) vB' (v_R d vD))). intros x Lx.
    destruct (Gcase x Lx) as [->|[->|[->|[->|(Lx' & X1 & X2)]]]].
    + destruct dr; cbn [inv] in *; rewrite A1, A2, UA, UO by auto; congruence.
    + destruct dr; cbn [inv] in *; rewrite B1, B2, UB, UO by auto; congruence.
    + destruct dr; cbn [inv] in *; rewrite C1, C2, UA, UO by auto; congruence.
    + destruct dr; cbn [inv] in *; rewrite D1, D2, UB, UO by auto; congruence.
    + rewrite !GO, !UO by (auto; eauto with inv). apply (i_loc _ _ HI); auto.
  - change (forall x, live bv x -> site_ok (c_lat c) (upd (upd (v_R d) vA (v_R d vC)) vB' (v_R d vD) x)).
    intros x Lx. apply LV in Lx as [Lx|[-> | ->]]; rewrite ?UA, ?UB, ?UO by auto; eauto with inv.
  - change (forall x, live bv x -> tau_gen c (upd (upd (v_T d) vA tA) vB' tB x)).
    intros x Lx. apply LV in Lx as [Lx|[-> | ->]]; rewrite ?UA, ?UB, ?UO by auto; eauto using draw_gen with inv.
  - change (StoreG (c_tab c) bg gv' (upd (upd (v_R d) vA (v_R d vC)) vB' (v_R d vD)) (upd (upd (v_T d) vA tA) vB' tB)
      (upd (upd (v_S d) vA (mkspin sA sA)) vB' (mkspin sB sB)) (upd (upd (g_meas d) GIA false) GMB false)
      (upd (upd (g_gg d) GIA false) GMB false) (uext d)
      (upd (upd (upd (upd (g_W d) GIA gIA) GMB gMB) GIC gAC) GMD gBD)).
    intros x Lx. rewrite (upd_eq (upd (upd (upd (g_W d) GIA gIA) GMB gMB) GIC gAC)), (upd_eq (upd (upd (g_W d) GIA gIA) GMB gMB)).
    destruct (Gcase x Lx) as [->|[->|[->|[->|(Lx' & X1 & X2)]]]].
    + decs. rewrite !QA. destruct dr; cbn [inv] in *; rewrite A1, A2, !UA, !UO by auto; exact HgIA.
    + decs. rewrite !QB. destruct dr; cbn [inv] in *; rewrite B1, B2, !UB, !UO by auto; exact HgMB.
    + decs. rewrite !QO by auto. destruct dr; cbn [inv] in *; rewrite C1, C2, !UA, !UO by auto; exact HgAC.
    + decs. rewrite !QO by auto. destruct dr; cbn [inv] in *; rewrite D1, D2, !UB, !UO by auto; exact HgBD.
    + decs. rewrite !QO, !GO, !UO by (auto; eauto with inv). apply (i_sG _ _ HI); auto.
  - change (StoreW (c_tab c) bw wv' (upd (upd (v_R d) vA (v_R d vC)) vB' (v_R d vD)) (upd (upd (v_T d) vA tA) vB' tB)
      (upd (upd (v_S d) vA (mkspin sA sA)) vB' (mkspin sB sB)) (upd (w_worm d) WAB false) (upd (w_meas d) WAB false)
      (upd (w_delta d) WAB de) (upd (w_ww d) WAB false) (uext d) (upd (w_W d) WAB wW)).
    intros x Lx. apply LW in Lx as [Lx| ->].
    + rewrite !WO, !WVO, !UO by (auto; eauto with inv). apply (i_sW _ _ HI); auto.
    + rewrite !upd_same. destruct dw; cbn [inv] in *; rewrite WA1, WA2, !UA, !UB; exact HwW.
Qed.

Lemma bremove2_spec b x y b1 b2 : BInv b -> live b x -> live b y -> x <> y -> bremove b x = Ok b1 -> bremove b1 y = Ok b2 ->
  BInv b2 /\ avail b2 = (avail b - 2)%nat /\ (forall z, live b2 z <-> live b z /\ z <> x /\ z <> y).
Proof.
  intros B Lx Ly Hn E1 E2. destruct (bremove_spec b x B Lx) as (c1 & F1 & B1 & A1 & L1 & _).
  rewrite F1 in E1. injection E1 as ->.
  destruct (bremove_spec b1 y B1) as (c2 & F2 & B2 & A2 & L2 & _); [apply L1; auto|].
  rewrite F2 in E2. injection E2 as ->. split; auto. split; [lia|]. intros z. rewrite L2, L1. tauto.
Qed.
Lemma bremove1_spec b x b1 : BInv b -> live b x -> bremove b x = Ok b1 ->
  BInv b1 /\ avail b1 = (avail b - 1)%nat /\ (forall z, live b1 z <-> live b z /\ z <> x).
Proof.
  intros B Lx E1. destruct (bremove_spec b x B Lx) as (c1 & F1 & B1 & A1 & L1 & _).
  rewrite F1 in E1. injection E1 as ->. auto.
Qed.

Lemma del_pres de c d p d' r : cfg_ok c -> Inv c d -> del_rel de c d p d' r -> Inv c d'.
Proof.
  intros C HI H.
  destruct H as [I Ma dr GIA GMB vA vB' wAB GAC GBD vC vD kM gIC gMD om o0 bv1 bv bg1 bg bw Hex Ho EI EMa EGIA EGMB
    MA GA MB GB EvA EvB SvA SvB EwA EwB Hme Hwo Hde Hww EGAC EGBD EvC EvD EkM HgIC HgMD _ _ Bv1 Bv Bg1 Bg Bw].
  destruct (f_wo HI Hex) as (Li & Lm & Nim & Dm & Ho0 & Hds & RK & HW).
  destruct (f_cnt c d HI Ho0) as (Ao & Ag & Av & Hoo).
  rewrite <- EI, <- EMa in *.
  assert (LGIA : live (gB d) GIA) by (subst GIA; eauto with inv).
  assert (LGMB : live (gB d) GMB) by (subst GMB; eauto with inv).
  assert (LvA : live (vB d) vA) by (subst vA; eauto with inv).
  assert (LvB : live (vB d) vB') by (subst vB'; eauto with inv).
  assert (LwAB : live (wB d) wAB) by (rewrite EwA; eauto with inv).
  assert (LGAC : live (gB d) GAC) by (subst GAC; eauto with inv).
  assert (LGBD : live (gB d) GBD) by (subst GBD; eauto with inv).
  assert (LvC : live (vB d) vC) by (subst vC; eauto with inv).
  assert (LvD : live (vB d) vD) by (subst vD; eauto with inv).
  assert (NIw : v_W d I <> wAB /\ v_W d Ma <> wAB).
  { split; intros E; rewrite (proj2 (HW wAB LwAB)) in Hwo; auto; discriminate. }
  destruct NIw as [NIw NMw].
  assert (NIA : I <> vA) by congruence. assert (NIB : I <> vB') by congruence.
  assert (NMA : Ma <> vA) by congruence. assert (NMB : Ma <> vB') by congruence.
  assert (NGAB : GIA <> GMB). { intros E. apply Nim. apply (f_vg_inj HI I Ma dr); auto. congruence. }
  assert (NvAB : vA <> vB'). { intros E. apply NGAB. apply (f_gv_inj HI GIA GMB dr); auto. congruence. }
  assert (VI : g_ver d GIA (inv dr) = I) by (rewrite EGIA; apply (f_vgv HI); auto).
  assert (VM : g_ver d GMB (inv dr) = Ma) by (rewrite EGMB; apply (f_vgv HI); auto).
  assert (VA : g_ver d GAC (inv dr) = vA) by (rewrite EGAC; apply (f_vgv HI); auto).
  assert (VB : g_ver d GBD (inv dr) = vB') by (rewrite EGBD; apply (f_vgv HI); auto).
  assert (GA' : v_G d vA (inv dr) = GIA) by (rewrite EvA; apply (f_gvg HI); auto).
  assert (GB' : v_G d vB' (inv dr) = GMB) by (rewrite EvB; apply (f_gvg HI); auto).
  assert (GC' : v_G d vC (inv dr) = GAC) by (rewrite EvC; apply (f_gvg HI); auto).
  assert (GD' : v_G d vD (inv dr) = GBD) by (rewrite EvD; apply (f_gvg HI); auto).
  assert (N1 : GAC <> GIA) by congruence. assert (N2 : GAC <> GMB) by congruence.
  assert (N3 : GBD <> GIA) by congruence. assert (N4 : GBD <> GMB) by congruence.
  assert (N5 : GAC <> GBD) by congruence.
  assert (N6 : vC <> vA) by congruence. assert (N7 : vC <> vB') by congruence.
  assert (N8 : vD <> vA) by congruence. assert (N9 : vD <> vB') by congruence.
  destruct (bremove2_spec _ _ _ _ _ (i_bv _ _ HI) LvA LvB NvAB Bv1 Bv) as (BV & AV & LV).
  destruct (bremove2_spec _ _ _ _ _ (i_bg _ _ HI) LGIA LGMB NGAB Bg1 Bg) as (BG & AG & LG).
  destruct (bremove1_spec _ _ _ (i_bw _ _ HI) LwAB Bw) as (BW & AW & LW).
  rewrite GWeightDir_eq in HgIC, HgMD.
  set (gv' := upd2 (upd2 (g_ver d) GAC (inv dr) I) GBD (inv dr) Ma).
  set (vg' := upd2 (upd2 (v_G d) I dr GAC) Ma dr GBD).
  assert (E1 : dir_eqb dr (inv dr) = false) by (destruct dr; auto).
  assert (E2 : dir_eqb (inv dr) dr = false) by (destruct dr; auto).
  assert (E3 : dir_eqb dr dr = true) by (destruct dr; auto).
  assert (E4 : dir_eqb (inv dr) (inv dr) = true) by (destruct dr; auto).
  assert (C1 : gv' GAC (inv dr) = I) by (unfold gv'; rewrite !upd2_eq, ?E1, ?E2, ?E3, ?E4; decs).
  assert (C2 : gv' GAC dr = vC) by (unfold gv'; rewrite !upd2_eq, ?E1, ?E2, ?E3, ?E4; decs).
  assert (D1 : gv' GBD (inv dr) = Ma) by (unfold gv'; rewrite !upd2_eq, ?E1, ?E2, ?E3, ?E4; decs).
  assert (D2 : gv' GBD dr = vD) by (unfold gv'; rewrite !upd2_eq, ?E1, ?E2, ?E3, ?E4; decs).
  assert (GO : forall x e, x <> GAC -> x <> GBD -> gv' x e = g_ver d x e).
  { intros x e X1 X2. unfold gv'; rewrite !upd2_eq. decs. }
  assert (GOd : forall x, gv' x dr = g_ver d x dr).
  { intros x. unfold gv'; rewrite !upd2_eq, ?E1, ?E2, ?E3, ?E4. decs; auto. }
  assert (VI1 : vg' I dr = GAC) by (unfold vg'; rewrite !upd2_eq, ?E1, ?E2, ?E3, ?E4; decs).
  assert (VM1 : vg' Ma dr = GBD) by (unfold vg'; rewrite !upd2_eq, ?E1, ?E2, ?E3, ?E4; decs).
  assert (VOi : forall x, vg' x (inv dr) = v_G d x (inv dr)).
  { intros x. unfold vg'; rewrite !upd2_eq, ?E1, ?E2, ?E3, ?E4. decs; auto. }
  assert (VO : forall x e, x <> I -> x <> Ma -> vg' x e = v_G d x e).
  { intros x e X1 X2. unfold vg'; rewrite !upd2_eq. decs. }
  assert (Hdir : forall e, e = dr \/ e = inv dr) by (intros e; destruct e, dr; auto).
  (* what touches a removed vertex is itself removed *)
  assert (Hg : forall x e, live (gB d) x -> x <> GIA -> x <> GMB -> x <> GAC -> x <> GBD ->
     live bv (g_ver d x e)).
  { intros x e Lx X1 X2 X3 X4. apply LV. split; [eauto with inv|]. pose proof (f_gvg HI x e Lx) as Y.
    split; intros Z; rewrite Z in Y; destruct (Hdir e) as [Ed|Ed]; rewrite Ed, ?inv_inv in Y; congruence. }
  assert (Hw : forall x e, live (wB d) x -> x <> wAB -> live bv (w_ver d x e)).
  { intros x e Lx X1. apply LV. split; [eauto with inv|]. pose proof (f_wvw HI x e Lx) as Y. split; congruence. }
  assert (Hvw : forall v, live (vB d) v -> v_W d v = wAB -> v = vA \/ v = vB').
  { intros v Lv E. pose proof (f_vwv HI v Lv) as Y. pose proof (f_vwv HI vA LvA) as YA. pose proof (f_vwv HI vB' LvB) as YB.
    rewrite E in Y. rewrite <- EwA in YA. rewrite <- EwB in YB.
    destruct (v_D d v), (v_D d vA), (v_D d vB'); try (left; congruence); try (right; congruence); exfalso; congruence. }
  assert (DB : v_D d vB' = inv (v_D d vA)).
  { pose proof (f_vwv HI vA LvA) as YA. pose proof (f_vwv HI vB' LvB) as YB.
    destruct (v_D d vA), (v_D d vB'); cbn [inv]; auto; exfalso; congruence. }
  assert (LvC' : live bv vC) by (apply LV; auto). assert (LvD' : live bv vD) by (apply LV; auto).
  assert (Li' : live bv I) by (apply LV; auto). assert (Lm' : live bv Ma) by (apply LV; auto).
  assert (LGAC' : live bg GAC) by (apply LG; auto). assert (LGBD' : live bg GBD) by (apply LG; auto).
  (* momenta *)
  destruct (kscale_spec (SIGN (v_D d vA)) (w_K d wAB)) as [Rs Es]; [clear; destruct (v_D d vA); cbn; lia|eauto with inv|].
  destruct (kadd_spec (wm_K d) (kscale (SIGN (v_D d vA)) (w_K d wAB))) as [RkM EqM]; [auto|auto|].
  rewrite <- EkM in RkM, EqM. clear EkM.
  assert (SA : v_S d I dr = v_S d vC (inv dr)).
  { pose proof (i_spin _ _ HI _ LGIA) as S1. pose proof (i_spin _ _ HI _ LGAC) as S2.
    destruct dr; cbn [inv] in *; rewrite ?VI, ?VA, <- ?EvA, <- ?EvC in S1, S2; congruence. }
  assert (SB : v_S d Ma dr = v_S d vD (inv dr)).
  { pose proof (i_spin _ _ HI _ LGMB) as S1. pose proof (i_spin _ _ HI _ LGBD) as S2.
    destruct dr; cbn [inv] in *; rewrite ?VM, ?VB, <- ?EvB, <- ?EvD in S1, S2; congruence. }
  assert (RA : v_R d I = v_R d vC).
  { pose proof (i_loc _ _ HI _ LGIA) as S1. pose proof (i_loc _ _ HI _ LGAC) as S2.
    destruct dr; cbn [inv] in *; rewrite ?VI, ?VA, <- ?EvA, <- ?EvC in S1, S2; congruence. }
  assert (RB : v_R d Ma = v_R d vD).
  { pose proof (i_loc _ _ HI _ LGMB) as S1. pose proof (i_loc _ _ HI _ LGBD) as S2.
    destruct dr; cbn [inv] in *; rewrite ?VM, ?VB, <- ?EvB, <- ?EvD in S1, S2; congruence. }
  assert (Gcase : forall x, live bg x -> x = GAC \/ x = GBD \/
     (live (gB d) x /\ x <> GAC /\ x <> GBD /\ x <> GIA /\ x <> GMB)).
  { intros x Lx. apply LG in Lx as (Lx & X1 & X2).
    destruct (Nat.eq_dec x GAC); [left; auto|]. destruct (Nat.eq_dec x GBD); [right; left; auto|]. right; right; auto. }
  constructor.
  - exact BG.
  - exact BW.
  - exact BV.
  - change (Cnt (c_order c) (order d - 1) (avail bg) (avail bw) (avail bv)). unfold Cnt.
    rewrite AG, AV, AW. clear - Ao Ag Av Hoo Ho. lia.
  - change (TopoG bg bv gv' vg'). split.
    + intros g e Lg. destruct (Gcase g Lg) as [->|[->|(Lg' & X1 & X2 & X3 & X4)]]; destruct (Hdir e) as [-> | ->];
        rewrite ?C1, ?C2, ?D1, ?D2, ?inv_inv, ?VOi; auto.
      * rewrite GO by auto. split; [auto|]. apply (f_gvg HI); auto.
      * rewrite GO by auto. pose proof (f_gvg HI g (inv dr) Lg') as Y. rewrite inv_inv in Y.
        split; [auto|]. rewrite VO; auto; intros Z; rewrite Z in Y; congruence.
    + intros v e Lv. apply LV in Lv as (Lv & X1 & X2). destruct (Hdir e) as [-> | ->]; rewrite ?inv_inv.
      * destruct (Nat.eq_dec v I) as [->|Z1]; [rewrite VI1; auto|].
        destruct (Nat.eq_dec v Ma) as [->|Z2]; [rewrite VM1; auto|].
        rewrite VO by auto. pose proof (f_vgv HI v dr Lv) as Y. split.
        -- apply LG. split; [eauto with inv|]. split; intros Z; rewrite Z in Y; congruence.
        -- rewrite GO; auto; intros Z; rewrite Z in Y; congruence.
      * rewrite VOi, GOd. pose proof (f_vgv HI v (inv dr) Lv) as Y. rewrite inv_inv in Y. split; [|exact Y].
        apply LG. split; [eauto with inv|]. split; intros Z; rewrite Z in Y; congruence.
  - change (TopoW bw bv (w_ver d) (v_W d) (v_D d)). split.
    + intros w e Lw. apply LW in Lw as (Lw & X). split; [auto|]. split; [apply (f_wvw HI)|apply (f_wvd HI)]; auto.
    + intros v Lv. apply LV in Lv as (Lv & X1 & X2). split; [|apply (f_vwv HI); auto].
      apply LW. split; [eauto with inv|]. intros E. destruct (Hvw v Lv E); congruence.
  - change (HT (2 * MAX_K) (updZ (updZ (ghash d) (kindex (g_K d GIA)) false) (kindex (g_K d GMB)) false) (live bg)
      (fun x => kindex (g_K d x))).
    assert (HT1 : HT (2 * MAX_K) (updZ (ghash d) (kindex (g_K d GIA)) false) (fun x => live (gB d) x /\ x <> GIA)
       (fun x => kindex (g_K d x))).
    { apply (HT_del _ _ (live (gB d)) (fun x => kindex (g_K d x)) GIA); auto.
      - exact (i_hG _ _ HI).
      - intros; reflexivity. }
    apply (HT_del _ _ _ _ GMB (live bg) (fun x => kindex (g_K d x)) HT1); auto.
    intros x. rewrite LG. clear. tauto.
  - change (HT MAX_K (updZ (whash d) (kabs (w_K d wAB)) false) (live bw) (fun x => kabs (w_K d x))).
    apply (HT_del _ _ (live (wB d)) (fun x => kabs (w_K d x)) wAB); auto. exact (i_hW _ _ HI).
  - change (forall x, live bw x -> w_K d x <> 0). intros x Lx. apply LW in Lx as [Lx _]. apply (i_hW0 _ _ HI); auto.
  - change (KCons bv vg' (v_W d) (v_D d) (g_K d) (w_K d) (wm_ex d) (ira d) (masha d) kM).
    rewrite <- EI, <- EMa, Hex. intros v Lv. apply LV in Lv as (Lv & X1 & X2).
    pose proof (i_K _ _ HI v Lv) as K. rewrite Hex, <- EI, <- EMa in K.
    destruct (Nat.eq_dec v I) as [->|Z1]; [|destruct (Nat.eq_dec v Ma) as [->|Z2]].
    + pose proof (i_K _ _ HI vA LvA) as KA. rewrite Hex, <- EI, <- EMa, <- EwA, wterm_o' in KA by auto.
      pose proof (VOi I) as V2.
      rewrite wterm_i in *. destruct dr; cbn [inv] in *; rewrite VI1, V2; rewrite <- EGIA in K; rewrite <- EGAC, GA' in KA;
        destruct (v_D d vA); cbn [SIGN] in *; eqm_lin.
    + pose proof (i_K _ _ HI vB' LvB) as KB. rewrite Hex, <- EI, <- EMa, <- EwB, wterm_o', DB in KB by auto.
      pose proof (VOi Ma) as V2.
      rewrite wterm_m in * by auto. destruct dr; cbn [inv] in *; rewrite VM1, V2; rewrite <- EGMB in K; rewrite <- EGBD, GB' in KB;
        destruct (v_D d vA); cbn [SIGN inv] in *; eqm_lin.
    + rewrite wterm_o' in * by auto. rewrite !VO by auto. exact K.
  - change (SpinG bg gv' (v_S d)). intros x Lx.
    destruct (Gcase x Lx) as [->|[->|(Lx' & X1 & X2 & X3 & X4)]].
    + destruct dr; cbn [inv] in *; rewrite C1, C2; congruence.
    + destruct dr; cbn [inv] in *; rewrite D1, D2; congruence.
    + rewrite !GO by auto. apply (i_spin _ _ HI); auto.
  - change (SpinW bw (w_ver d) (v_S d) (v_W d) (wm_ex d) (ira d) (masha d) (wm_ds d)).
    intros x Lx. apply LW in Lx as [Lx _]. apply (i_cur _ _ HI); auto.
  - change (Meas (measG d) (gmeas d) (wmeas d) bg (g_meas d) bw (w_meas d)).
    pose proof (i_meas _ _ HI) as M. unfold Meas in *. destruct (measG d).
    + destruct M as (M1 & M2 & M3). split; [|split].
      * apply LG. split; [auto|]. split; intros E; rewrite <- E in *; rewrite (proj2 (M2 _ M1) eq_refl) in *; discriminate.
      * intros x Lx. apply LG in Lx as [Lx _]. auto.
      * intros x Lx. apply LW in Lx as [Lx _]. auto.
    + destruct M as (M1 & M2 & M3). split; [|split].
      * apply LW. split; [auto|]. intros E; rewrite <- E in *; rewrite (proj2 (M2 _ M1) eq_refl) in *; discriminate.
      * intros x Lx. apply LW in Lx as [Lx _]. auto.
      * intros x Lx. apply LG in Lx as [Lx _]. auto.
  - change (Worm (wm_ex d) (ira d) (masha d) kM (wm_ds d) (order d - 1) bv (v_W d) (v_D d) bw (w_worm d)).
    rewrite <- EI, <- EMa, Hex. unfold Worm. rsplit. split; [clear - Ho; lia|]. rsplit.
    intros x Lx. apply LW in Lx as [Lx _]. apply HW; auto.
  - change (Gam (gamma d) (order d - 1) (c_gamma3 c) bg (g_meas d) (g_gg d) bw (w_meas d) (w_delta d) (w_ww d) (vin d) (vout d)).
    assert (Ho1 : order d - 1 <> 0) by (clear - Ho; lia).
    destruct (i_gam _ _ HI) as [(X & X1 & X2)|[(X & X1 & X2 & g & Y1 & Y2 & Y3 & Y4 & Y5 & Y6)|(X & X1 & X2 & w & Y1 & Y2 & Y2' & Y3 & Y4 & Y5 & Y6)]].
    + left. split; [auto|]. split; intros x Lx.
      * apply LG in Lx as [Lx _]. auto.
      * apply LW in Lx as [Lx _]. auto.
    + right. left. rsplit. exists g. split.
      { apply LG. split; [auto|]. split; intros E; rewrite <- E in *; rewrite (proj2 (Y5 _ Y1) eq_refl) in *; discriminate. }
      rsplit. split; intros x Lx.
      * apply LG in Lx as [Lx _]. auto.
      * apply LW in Lx as [Lx _]. auto.
    + right. right. rsplit. exists w. split.
      { apply LW. split; [auto|]. intros E; rewrite <- E in *; rewrite (proj2 (Y5 _ Y1) eq_refl) in *; discriminate. }
      rsplit. split; intros x Lx.
      * apply LW in Lx as [Lx _]. auto.
      * apply LG in Lx as [Lx _]. auto.
  - change (Delta bw (w_delta d) (w_meas d)). intros x Lx. apply LW in Lx as [Lx _]. apply (i_delta _ _ HI); auto.
  - change (Loc bg gv' (v_R d)). intros x Lx. destruct (Gcase x Lx) as [->|[->|(Lx' & X1 & X2 & X3 & X4)]].
    + destruct dr; cbn [inv] in *; rewrite C1, C2; congruence.
    + destruct dr; cbn [inv] in *; rewrite D1, D2; congruence.
    + rewrite !GO by auto. apply (i_loc _ _ HI); auto.
  - change (forall x, live bv x -> site_ok (c_lat c) (v_R d x)). intros x Lx. apply LV in Lx as [Lx _]. eauto with inv.
  - change (forall x, live bv x -> tau_gen c (v_T d x)). intros x Lx. apply LV in Lx as [Lx _]. eauto with inv.
  - change (StoreG (c_tab c) bg gv' (v_R d) (v_T d) (v_S d) (g_meas d) (g_gg d) (uext d) (upd (upd (g_W d) GAC gIC) GBD gMD)).
    intros x Lx. rewrite !upd_eq. destruct (Gcase x Lx) as [->|[->|(Lx' & X1 & X2 & X3 & X4)]].
    + decs. destruct dr; cbn [inv] in *; rewrite C1, C2; exact HgIC.
    + decs. destruct dr; cbn [inv] in *; rewrite D1, D2; exact HgMD.
    + decs. rewrite !GO by auto. apply (i_sG _ _ HI); auto.
  - change (StoreW (c_tab c) bw (w_ver d) (v_R d) (v_T d) (v_S d) (w_worm d) (w_meas d) (w_delta d) (w_ww d) (uext d) (w_W d)).
    intros x Lx. apply LW in Lx as [Lx _]. apply (i_sW _ _ HI); auto.
Qed.
End Pres3.
