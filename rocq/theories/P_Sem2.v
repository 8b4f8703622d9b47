(** Semantics of the updates that add or remove interactions and of the vertex-correction updates *)
From Coq Require Import ZArith List Bool Arith Lia ZifyBool.
From Verif Require Import Base Num RNG Momentum Complex Lattice Bundle IndexMap Weights Diagram Markov
  P_Momentum P_RNG P_Bundle P_Lattice P_IndexMap P_WP P_Inv P_Rel P_Sem1.
Import ListNotations.
Open Scope Z_scope.

Lemma badd2 b : BInv b -> (avail b < 19)%nat ->
  exists a1 b1 a2 b2, badd b = Ok (a1, b1) /\ badd b1 = Ok (a2, b2).
Proof.
  intros HB Ha. destruct (badd_spec b HB) as (a1 & b1 & E1 & _ & _ & _ & HB1 & A1 & _); [lia|].
  destruct (badd_spec b1 HB1) as (a2 & b2 & E2 & _); [lia|]. eauto 8.
Qed.
Lemma bremove2 b x y : BInv b -> live b x -> live b y -> x <> y ->
  exists b1 b2, bremove b x = Ok b1 /\ bremove b1 y = Ok b2.
Proof.
  intros HB Lx Ly Hn. destruct (bremove_spec b x HB Lx) as (b1 & E1 & HB1 & _ & L1 & _).
  destruct (bremove_spec b1 y HB1) as (b2 & E2 & _); [apply L1; auto|]. eauto.
Qed.

Section Sem2.
Context {N : Num} {E : Type} (next : E -> Z * E).
Notation mst := (@mstate N E).

Lemma updZ_true_other h (k j : Z) : j <> k -> h j = false -> updZ h k true j = false.
Proof. intros Hn Hh. unfold updZ. destruct (Z.eqb_spec j k); [contradiction|auto]. Qed.
Lemma updZ_false_other h (k j : Z) : j <> k -> h j = true -> updZ h k false j = true.
Proof. intros Hn Hh. unfold updZ. destruct (Z.eqb_spec j k); [contradiction|auto]. Qed.

Lemma wp_orw1 c i (s : mst) (Q : real -> mst -> Prop) : cfg_ok c -> 0 <= i <= c_order c ->
  (forall x, nth_error (c_orw c) (Z.to_nat i) = Some x -> Q x s) -> wp (orw c i) s Q.
Proof. intros C Hi. pose proof (co_orw c C). apply wp_orw; lia. Qed.
Lemma f_cnt c d (HI : Inv c d) : order d <> 0 ->
  order d = Z.of_nat (avail (wB d)) /\ avail (gB d) = (2 * avail (wB d))%nat /\ avail (vB d) = (2 * avail (wB d))%nat /\
  1 <= order d <= c_order c.
Proof. intros H. destruct (i_cnt _ _ HI) as (A & B & B' & B'' & B3). lia. Qed.

Lemma add_write_ok de I Ma dr dw GIC GMD kW kIA kMB kM RA RB tA tB sA sB wW gIA gMB gAC gBD
  vA vB' GIA GMB WAB bv1 bv bg1 bg bw (d : diagram) :
  badd (vB d) = Ok (vA, bv1) -> badd bv1 = Ok (vB', bv) ->
  badd (gB d) = Ok (GIA, bg1) -> badd bg1 = Ok (GMB, bg) -> badd (wB d) = Ok (WAB, bw) ->
  inrange kIA -> inrange kMB -> inrange kW -> kIA <> kMB ->
  ghash d (kindex kIA) = false -> ghash d (kindex kMB) = false -> whash d (kabs kW) = false ->
  let wr := cdiv (cmul (cmul (cmul (cmul (rmul_c (rofZ (-1)) gIA) gMB) wW) gAC) gBD) (cmul (g_W d GIC) (g_W d GMD)) in
  add_write de I Ma dr dw GIC GMD kW kIA kMB kM RA RB tA tB sA sB wW gIA gMB gAC gBD wr (phase wr) d
  = Ok (add_post de I Ma dr dw GIC GMD kW kIA kMB kM RA RB tA tB sA sB wW gIA gMB gAC gBD
          vA vB' GIA GMB WAB bv bg bw d).
Proof.
  destruct d. cbv zeta. unfold add_write, add_post, mulR. intros B1 B2 B3 B4 B5 R1 R2 R3 Hk H1 H2 H3.
  dred_in B1. dred_in B3. dred_in B5. dred_in H1. dred_in H2. dred_in H3. dred.
  rewrite B1. dred. rewrite B2. dred. rewrite B3. dred. rewrite B4. dred. rewrite B5. dred.
  rewrite AddGHash_ok by auto. dred.
  rewrite AddGHash_ok by (auto; dred; apply updZ_true_other; auto; intros X; apply kindex_inj in X; auto). dred.
  rewrite AddWHash_ok by auto. dred. reflexivity.
Qed.

Lemma Add_sem de c (s : mst) : cfg_ok c -> Inv c (md s) ->
  wp (Add_gen next de c) s (Post next (add_rel de c) (if de then ADD_DELTA_INTERACTION else ADD_INTERACTION) s).
Proof.
  intros C HI. unfold Add_gen. cbv zeta. start d Sil0.
  wguard E1. apply negb_false_iff in E1.
  wguard E0. apply orb_false_iff in E0 as [E0 E2]. apply Z.eqb_neq in E0. apply Z.leb_gt in E2.
  destruct (f_wo HI E1) as (Li & Lm & Him & Dm & _ & Hds & HK & HW).
  pose proof (co_order c C) as CO. destruct (f_cnt c d HI E0) as (A1 & A2 & A3 & A4).
  assert (O1 : 0 <= order d + 1 <= c_order c) by lia. assert (O0 : 0 <= order d <= c_order c) by lia.
  assert (AV : (avail (vB d) < 19 /\ avail (gB d) < 19 /\ avail (wB d) < 20)%nat) by lia.
  destruct AV as (AV1 & AV2 & AV3).
  wrd. wrd. apply wp_bind, wp_PickK. draw Sil0 kW HkW.
  wlift (WHashCheck_ok d _ HkW). wguard E3.
  match goal with _ : (if ?k =? 0 then _ else _) = _ |- _ => destruct (Z.eqb_spec k 0) as [|Ek]; [discriminate|] end.
  apply wp_bind, wp_PickDir. draw0 Sil0 dr. apply wp_bind, wp_PickDir. draw0 Sil0 dw.
  set (GIC := v_G d (ira d) dr). set (GMD := v_G d (masha d) dr).
  assert (LI : live (gB d) GIC) by (unfold GIC; eauto with inv).
  assert (LM : live (gB d) GMD) by (unfold GMD; eauto with inv).
  apply wp_bind, wp_rd; [eauto with inv|]. apply wp_bind, wp_rd; [eauto with inv|].
  pose proof (ksubs2_range (g_K d GIC) dr dw kW ltac:(eauto with inv) HkW) as R1.
  pose proof (kadds2_range (g_K d GMD) dr dw kW ltac:(eauto with inv) HkW) as R2.
  pose proof (ksubs_range (wm_K d) dw kW HK HkW) as R3.
  wlift (GHashCheck_ok d _ R1). wguard E4. wlift (GHashCheck_ok d _ R2). wguard E5.
  wguard E6. apply Z.eqb_neq in E6.
  apply wp_bind, wp_PickTau. draw Sil0 tA HtA.
  apply wp_bind. eapply wp_mono with (Q := fun t s' => sil s s' /\ tau_draw c t /\ (de = true -> t = tA)).
  { destruct de.
    - apply wp_ret. auto.
    - apply wp_PickTau. draw Sil0 t Ht. split; [exact Sil0|]. split; [auto|discriminate]. }
  clear Sil0. intros tB s' (Sil0 & HtB & Htd).
  wgspin. wgspin. wrd. wrd.
  wwt wW HWw ltac:(wok). wwt gIA H1 ltac:(wok). wwt gMB H2 ltac:(wok). wwt gAC H3 ltac:(wok). wwt gBD H4 ltac:(wok).
  apply wp_bind, wp_orw1; [exact C|assumption|]. intros o1 Ho1.
  apply wp_bind, wp_orw1; [exact C|assumption|]. intros o0 Ho0.
  destruct (badd2 (vB d) (i_bv _ _ HI)) as (vA & bv1 & vB' & bv & Bv1 & Bv2); [exact AV1|].
  destruct (badd2 (gB d) (i_bg _ _ HI)) as (GIA & bg1 & GMB & bg & Bg1 & Bg2); [exact AV2|].
  destruct (badd_spec (wB d) (i_bw _ _ HI)) as (WAB & bw & Bw & _); [exact AV3|].
  unfold d. eapply wp_decide1; [eapply f_order; eauto|exact Sil0| |].
  - eapply add_write_ok; eauto.
  - fold d. replace (mkspin _ _ (inv dr)) with (v_S d (g_ver d GIC IN) OUT) in H1 by (destruct dr; reflexivity).
    replace (mkspin _ _ (inv dr)) with (v_S d (g_ver d GMD IN) OUT) in H2 by (destruct dr; reflexivity).
    replace (mkspin _ _ dr) with (v_S d (g_ver d GIC IN) OUT) in H3 by (destruct dr; reflexivity).
    replace (mkspin _ _ dr) with (v_S d (g_ver d GMD IN) OUT) in H4 by (destruct dr; reflexivity).
    eapply add_i with (dr := dr) (dw := dw); try reflexivity; try eassumption; auto.
Qed.

Lemma del_write_ok I Ma dr vA vB' GIA GMB wAB GAC GBD kM gIC gMD bv1 bv bg1 bg bw (d : diagram) :
  bremove (vB d) vA = Ok bv1 -> bremove bv1 vB' = Ok bv ->
  bremove (gB d) GIA = Ok bg1 -> bremove bg1 GMB = Ok bg -> bremove (wB d) wAB = Ok bw ->
  inrange (g_K d GIA) -> inrange (g_K d GMB) -> inrange (w_K d wAB) -> g_K d GIA <> g_K d GMB ->
  ghash d (kindex (g_K d GIA)) = true -> ghash d (kindex (g_K d GMB)) = true -> whash d (kabs (w_K d wAB)) = true ->
  let wr := cdiv (cmul (rmul_c (rofZ (-1)) gIC) gMD)
             (cmul (cmul (cmul (cmul (g_W d GIA) (g_W d GMB)) (g_W d GAC)) (g_W d GBD)) (w_W d wAB)) in
  del_write I Ma dr vA vB' GIA GMB wAB GAC GBD kM gIC gMD wr (phase wr) d
  = Ok (del_post I Ma dr GIA GMB wAB GAC GBD kM gIC gMD bv bg bw d).
Proof.
  destruct d. cbv zeta. unfold del_write, del_post, mulR. intros B1 B2 B3 B4 B5 R1 R2 R3 Hk H1 H2 H3.
  dred_in B1. dred_in B3. dred_in B5. dred_in H1. dred_in H2. dred_in H3.
  dred_in R1. dred_in R2. dred_in R3. dred_in Hk. dred.
  rewrite B1. dred. rewrite B2. dred. rewrite RemoveGHash_ok by auto. dred. rewrite B3. dred.
  rewrite RemoveGHash_ok by (auto; dred; apply updZ_false_other; auto; intros X; apply kindex_inj in X; auto). dred.
  rewrite B4. dred. rewrite RemoveWHash_ok by auto. dred. rewrite B5. dred. reflexivity.
Qed.

Lemma f_Kinj c d (HI : Inv c d) g g' : live (gB d) g -> live (gB d) g' -> g <> g' -> g_K d g <> g_K d g'.
Proof. intros L L' Hn X. apply Hn. apply (proj2 (proj2 (i_hG _ _ HI))); auto. now rewrite X. Qed.

Lemma Del_sem de c (s : mst) : cfg_ok c -> Inv c (md s) ->
  wp (Del_gen next de c) s (Post next (del_rel de c) (if de then DEL_DELTA_INTERACTION else DEL_INTERACTION) s).
Proof.
  intros C HI. unfold Del_gen. cbv zeta. start d Sil0.
  wguard E1. apply negb_false_iff in E1. wguard E0. apply Z.leb_gt in E0.
  destruct (f_wo HI E1) as (Li & Lm & Him & Dm & Eo & Hds & HK & HW).
  pose proof (co_order c C) as CO. destruct (f_cnt c d HI Eo) as (A1 & A2 & A3 & A4).
  assert (O1 : 0 <= order d - 1 <= c_order c) by lia. assert (O0 : 0 <= order d <= c_order c) by lia.
  wrd. wrd. apply wp_bind, wp_PickDir. draw0 Sil0 dr.
  remember (v_G d (ira d) dr) as GIA eqn:EGIA. remember (v_G d (masha d) dr) as GMB eqn:EGMB.
  assert (LI : live (gB d) GIA) by (subst; eauto with inv).
  assert (LM : live (gB d) GMB) by (subst; eauto with inv).
  assert (HGn : GIA <> GMB) by (intros X; subst; apply (f_vg_inj HI) in X; auto).
  wrd. wrd. wguard E2. apply orb_false_iff in E2 as [E2 E2']. wguard E3. apply orb_false_iff in E3 as [E3 E3'].
  remember (g_ver d GIA dr) as vA eqn:EvA. remember (g_ver d GMB dr) as vB' eqn:EvB.
  assert (LA : live (vB d) vA) by (subst vA; eauto with inv).
  assert (LB : live (vB d) vB') by (subst vB'; eauto with inv).
  assert (HVn : vA <> vB').
  { intros X. rewrite EvA, EvB in X. apply (f_gv_inj HI) in X; auto. }
  wrd. wrd.
  wguard E4. apply negb_false_iff, spin_eqb_true in E4. wguard E5. apply negb_false_iff, spin_eqb_true in E5.
  wguard E6. apply negb_false_iff, Nat.eqb_eq in E6.
  remember (v_W d vA) as wAB eqn:Ew.
  assert (Lw : live (wB d) wAB) by (subst wAB; eauto with inv).
  wrd. wguard E7. apply orb_false_iff in E7 as [E7 E10]. apply orb_false_iff in E7 as [E7 E9]. apply orb_false_iff in E7 as [E7 E8].
  assert (Ed : w_delta d wAB = de) by (destruct de, (w_delta d wAB); simpl in *; congruence).
  wrd. wrd. wrd. wrd. wguard E11. wguard E12.
  wwt gIC H1 ltac:(wok). wwt gMD H2 ltac:(wok).
  apply wp_bind, wp_orw1; [exact C|assumption|]. intros om Hom.
  apply wp_bind, wp_orw1; [exact C|assumption|]. intros o0 Ho0.
  destruct (bremove2 (vB d) vA vB' (i_bv _ _ HI)) as (bv1 & bv & Bv1 & Bv2); auto.
  destruct (bremove2 (gB d) GIA GMB (i_bg _ _ HI)) as (bg1 & bg & Bg1 & Bg2); auto.
  destruct (bremove_spec (wB d) wAB (i_bw _ _ HI)) as (bw & Bw & _); auto.
  unfold d. eapply wp_decide1; [eapply f_order; eauto|exact Sil0| |].
  - eapply del_write_ok; try eassumption; eauto with inv. eapply f_Kinj; eauto.
  - eapply del_i with (dr := dr) (vA := vA) (vB' := vB'); try reflexivity; try eassumption; auto.
Qed.

(** *** Gamma updates *)
Lemma wp_decide2 (R : diagram -> real -> diagram -> diagram -> Prop) op prob write (s0 s : mst) dprop drej :
  0 <= order (md s0) <= 9 -> sil' s0 s -> md s = drej -> write drej = Ok dprop -> R (md s0) prob dprop drej ->
  wp (decide next op (order (md s0)) prob write) s (Post next R op s0).
Proof.
  intros Ho S Hd Hw HR. subst drej. eapply wp_decide with (s0 := s0) (dprop := dprop); [lia|reflexivity|exact S|exact Hw|].
  intros s' Hs. right. eauto.
Qed.

Lemma toGG_write_ok g ext wt (d : diagram) :
  let wr := cdiv wt (g_W d g) in
  toGG_write g wt wr (phase wr) (s_uext d ext) = Ok (toGG_post g ext wt d).
Proof. destruct d. unfold toGG_post, mulR, toGG_write. dred. reflexivity. Qed.
Lemma fromGG_write_ok g wt (d : diagram) :
  let wr := cdiv wt (g_W d g) in
  fromGG_write g wt wr (phase wr) d = Ok (fromGG_post g wt d).
Proof. destruct d. unfold fromGG_post, mulR, fromGG_write. dred. reflexivity. Qed.
Lemma toWW_write_ok g ext wt (d : diagram) :
  let wr := cdiv wt (w_W d g) in
  toWW_write g wt wr (phase wr) (s_uext d ext) = Ok (toWW_post g ext wt d).
Proof. destruct d. unfold toWW_post, mulR, toWW_write. dred. reflexivity. Qed.
Lemma fromWW_write_ok g wt (d : diagram) :
  let wr := cdiv wt (w_W d g) in
  fromWW_write g wt wr (phase wr) d = Ok (fromWW_post g wt d).
Proof. destruct d. unfold fromWW_post, mulR, fromWW_write. dred. reflexivity. Qed.
Lemma JumpToGG_sem c (s : mst) : cfg_ok c -> Inv c (md s) -> c_gamma3 c = true ->
  wp (JumpToGGGammaG next c) s (Post next (toGG_rel c) JUMP_TO_GGGAMMAG s).
Proof.
  intros C HI G3. unfold JumpToGGGammaG. cbv zeta. start d Sil0.
  wguard E0. apply orb_false_iff in E0 as [E0 E2]. apply orb_false_iff in E0 as [E0 E1].
  apply Z.eqb_neq in E0. apply negb_false_iff, Z.eqb_eq in E2.
  apply wp_bind, wp_pick; [apply (i_bg _ _ HI)|eauto with inv|]. draw Sil0 g Lg.
  wguard E3. wrd. wrd. wgspin. apply wp_bind, wp_PickTau. draw Sil0 t Ht.
  apply wp_bind, wp_modify. wwt wt HWt ltac:(wok).
  unfold d. eapply wp_decide2 with (drej := s_uext d (mkExt (v_R d (g_ver d g IN)) t UP)).
  - eapply f_order; eauto.
  - apply sil_sil' in Sil0. exact Sil0.
  - destruct Sil0 as [X _]. cbn [md s_md]. rewrite X. reflexivity.
  - apply toGG_write_ok.
  - econstructor; eauto.
Qed.
Lemma JumpFromGG_sem c (s : mst) : cfg_ok c -> Inv c (md s) ->
  wp (JumpFromGGGammaGToG next c) s (Post next (fromGG_rel c) JUMP_FROM_GGGAMMAG_TO_G s).
Proof.
  intros C HI. unfold JumpFromGGGammaGToG. cbv zeta. start d Sil0.
  wguard E0. apply orb_false_iff in E0 as [E0 E2]. apply orb_false_iff in E0 as [E0 E1].
  apply Z.eqb_neq in E0. apply negb_false_iff, Z.eqb_eq in E2.
  destruct (i_gam _ _ HI) as [(A & _)|[(_ & _ & G3 & g & Lg & Mg & Vi & Vo & GG & _)|(A & _)]]; try lia.
  rewrite Vi, Vo. unfold rdslot.
  apply wp_bind. apply wp_bind, wp_rd; [eauto with inv|]. apply wp_rd; [eauto with inv|].
  apply wp_bind. apply wp_bind, wp_rd; [eauto with inv|]. apply wp_rd; [eauto with inv|].
  pose proof (f_gvg HI g IN Lg) as Eg. cbn [inv] in Eg. rewrite Eg.
  wrd. wguard E3. wguard E4. apply negb_false_iff, spin_eqb_true in E4.
  wguard E5. apply negb_false_iff, site_eqb_true in E5.
  wgspin. wwt wt HWt ltac:(wok).
  unfold d. eapply wp_decide1; [eapply f_order; eauto|exact Sil0| |].
  - apply fromGG_write_ok.
  - econstructor; eauto. apply GG; auto.
Qed.
Lemma JumpToWW_sem c (s : mst) : cfg_ok c -> Inv c (md s) -> c_gamma3 c = true ->
  wp (JumpToWWGammaW next c) s (Post next (toWW_rel c) JUMP_TO_WWGAMMAW s).
Proof.
  intros C HI G3. unfold JumpToWWGammaW. cbv zeta. start d Sil0.
  wguard E0. apply orb_false_iff in E0 as [E0 E2]. apply orb_false_iff in E0 as [E0 E1].
  apply Z.eqb_neq in E0. apply negb_false_iff, Z.eqb_eq in E2.
  apply wp_bind, wp_pick; [apply (i_bw _ _ HI)|eauto with inv|]. draw Sil0 w Lw.
  wguard E3. wguard E4. wrd. wrd. apply wp_bind, wp_PickTau. draw Sil0 t Ht.
  apply wp_bind, wp_PickSite; [apply C|]. draw Sil0 r Hr.
  apply wp_bind, wp_modify. wwt wt HWt ltac:(wok).
  unfold d. eapply wp_decide2 with (drej := s_uext d (mkExt r t UP)).
  - eapply f_order; eauto.
  - apply sil_sil' in Sil0. exact Sil0.
  - destruct Sil0 as [X _]. cbn [md s_md]. rewrite X. reflexivity.
  - apply toWW_write_ok.
  - econstructor; eauto.
Qed.
Lemma JumpFromWW_sem c (s : mst) : cfg_ok c -> Inv c (md s) ->
  wp (JumpFromWWGammaWToW next c) s (Post next (fromWW_rel c) JUMP_FROM_WWGAMMAW_TO_W s).
Proof.
  intros C HI. unfold JumpFromWWGammaWToW. cbv zeta. start d Sil0.
  wguard E0. apply orb_false_iff in E0 as [E0 E2]. apply orb_false_iff in E0 as [E0 E1].
  apply Z.eqb_neq in E0. apply negb_false_iff, Z.eqb_eq in E2.
  destruct (i_gam _ _ HI) as [(A & _)|[(A & _)|(_ & _ & G3 & w & Lw & Mw & Dw & Vi & Vo & WW & _)]]; try lia.
  rewrite Vi, Vo. unfold rdslot.
  apply wp_bind. apply wp_bind, wp_rd; [eauto with inv|]. apply wp_rd; [eauto with inv|].
  apply wp_bind. apply wp_bind, wp_rd; [eauto with inv|]. apply wp_rd; [eauto with inv|].
  rewrite (f_wvw HI w IN Lw).
  wrd. wguard E4. apply negb_false_iff, spin_eqb_true in E4.
  wwt wt HWt ltac:(wok).
  unfold d. eapply wp_decide1; [eapply f_order; eauto|exact Sil0| |].
  - apply fromWW_write_ok.
  - econstructor; eauto. apply WW; auto.
Qed.
End Sem2.
