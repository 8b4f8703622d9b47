(** Two further facts about every diagram the program reaches: a worm whose ends share a W line could
    have been created there, and the external point of a vertex correction could have been drawn *)
From Coq Require Import ZArith List Bool Arith Lia ZifyBool.
From Verif Require Import Base Num RNG Momentum Complex Lattice Bundle IndexMap Weights Diagram Markov DiagramIO History
  P_Momentum P_RNG P_Bundle P_Lattice P_IndexMap P_WP P_Inv P_Rel P_Sem1 P_Sem2 P_Sem3 P_Pres1 P_Pres2 P_Pres3 P_Pres4
  P_Hop P_Fix P_IO P_History P_IOProm P_Step.
Import ListNotations.
Open Scope Z_scope.

Section Reach.
Context {N : Num}.
Definition Mov (d : diagram) : Prop := wm_ex d = true -> v_W d (ira d) = v_W d (masha d) ->
  CanNotMoveV (wm_ds d) (v_S d (ira d) IN) (v_S d (ira d) OUT) &&
  CanNotMoveV (- wm_ds d) (v_S d (masha d) IN) (v_S d (masha d) OUT) = false.
Definition Ext (c : cfg) (d : diagram) : Prop := gamma d <> 0 -> tau_draw c (ex_T (uext d)) /\ site_ok (c_lat c) (ex_R (uext d)).

(** every vertex time was drawn at the present inverse temperature or is still the initial 0 *)
Definition Drawn (c : cfg) (d : diagram) : Prop := forall v, live (vB d) v -> v_T d v = rofZ 0 \/ tau_draw c (v_T d v).

Lemma Mov_eq d d' : wm_ex d' = wm_ex d -> (wm_ex d = true -> v_W d' (ira d') = v_W d' (masha d') -> v_W d (ira d) = v_W d (masha d)) ->
  (wm_ex d = true -> wm_ds d' = wm_ds d /\ forall e, v_S d' (ira d') e = v_S d (ira d) e /\ v_S d' (masha d') e = v_S d (masha d) e) -> Mov d -> Mov d'.
Proof.
  intros E1 E2 E3 M X Y. rewrite E1 in X. destruct (E3 X) as (Ed & Es). rewrite Ed, !(fun e => proj1 (Es e)), !(fun e => proj2 (Es e)).
  apply M; auto.
Qed.

Lemma arrive ds (f : dir -> spin) dr : ds = 1 \/ ds = -1 -> CanNotMoveG ds (f (inv dr)) dr = false ->
  CanNotMoveV ds (flip_at f (inv dr) IN) (flip_at f (inv dr) OUT) = false.
Proof.
  unfold flip_at. intros [-> | ->]; destruct dr; cbn [inv dir_eqb]; destruct (f IN), (f OUT); cbn; auto.
Qed.
Lemma add_mov c d de p d' r : cfg_ok c -> Inv c d -> Mov d -> add_rel de c d p d' r -> Mov d'.
Proof.
  intros C HI M H. destruct H as [I Ma dr dw GIC GMD kW kIA kMB kM vC vD tA tB sA sB wW gIA gMB gAC gBD o1 o0
    vA vB' GIA GMB WAB bv1 bv bg1 bg bw Hex Ho Hoc EI EMa RkW NkW HkW EGIC EGMD EkIA EkMB EkM HkIA HkMB NkAB
    HtA HtB Htd EsA EsB EvC EvD HwW HgIA HgMB HgAC HgBD _ _ Bv1 Bv Bg1 Bg Bw].
  destruct (f_wo HI Hex) as (Li & Lm & Nim & _).
  destruct (f_cnt c d HI Ho) as (Ao & Ag & Av & Hoo). pose proof (co_order c C) as Hco.
  destruct (badd2_spec _ _ _ _ _ (i_bv _ _ HI) ltac:(lia) Bv1 Bv) as (BV & AV & NvAB & NvA & NvB & LV).
  assert (Nx : forall x, live (vB d) x -> x <> vA /\ x <> vB') by (intros x Lx; split; intros ->; auto).
  destruct (Nx _ Li) as [X1 X2]. destruct (Nx _ Lm) as [X3 X4].
  match goal with |- Mov ?X => set (d' := X) end.
  assert (EW : v_W d' = upd (upd (v_W d) vA WAB) vB' WAB) by reflexivity.
  assert (ES : v_S d' = upd (upd (v_S d) vA (mkspin sA sA)) vB' (mkspin sB sB)) by reflexivity.
  assert (E1 : ira d' = ira d) by reflexivity. assert (E2 : masha d' = masha d) by reflexivity.
  apply (Mov_eq d).
  - reflexivity.
  - intros _. rewrite E1, E2, EW, !upd_other by auto. auto.
  - intros _. split; [reflexivity|]. intros e. rewrite E1, E2, ES, !upd_other by auto. auto.
  - exact M.
Qed.
Lemma del_mov c d de p d' r : Inv c d -> Mov d -> del_rel de c d p d' r -> Mov d'.
Proof. intros HI M H. destruct H. apply (Mov_eq d); auto. Qed.
Lemma prop_mov c d op p d' r : cfg_ok c -> Inv c d -> Mov d -> prop_rel c d op p d' r -> Mov d'.
Proof.
  intros C HI M H.
  destruct H as [p d' r H|p d' r H|p d' r H|p d' r H|p d' r H|p d' r H|p d' r H|p d' r H|p d' r H|p d' r H|p d' r H|p d' r H|p d' r H|p d' r H|p d' r H|p d' r H|p d' r H|p d' r G3 H|p d' r G3 H|p d' r G3 H|p d' r G3 H].
  - destruct H as [w vi vo kM kW ds wW Ho Hex Lw Evi Evo RkM EkW NkW HkW Hds Hcan HwW]. intros _ _. exact Hcan.
  - destruct H. intros X. discriminate X.
  - destruct H as [dr g v1 v2 k w1 vW1 w2 vW2 iw1 s1 s2 w1W w2W gW Ho Hex Ev1 Eg Ev2 N21 N2m Hcan Ek Hk
                 Ew1 EvW1 Ew2 EvW2 Eiw Es1 Es2 Hw1 Hw2 HgW].
    destruct (f_wo HI Hex) as (Li & Lm & Nim & Dm & _ & Hds & RK & HW).
    assert (Lg : live (gB d) g) by (subst g v1; eauto with inv).
    intros _ _. apply andb_false_intro1.
    change (CanNotMoveV (wm_ds d) (upd (upd (v_S d) v1 s1) v2 s2 v2 IN) (upd (upd (v_S d) v1 s1) v2 s2 v2 OUT) = false).
    rewrite !upd_same, Es2. apply arrive; [exact Hds|]. pose proof (i_spin _ _ HI g Lg) as SG.
    rewrite <- Hcan. f_equal. subst v2. destruct dr; [reflexivity|]. symmetry. exact SG.
  - destruct H as [v1 w v2 k wW Ho Hex E1 Ew Ev2 N21 N2m Ek Nk Hk HwW].
    destruct (f_wo HI Hex) as (Li & Lm & Nim & Dm & _ & Hds & RK & HW). rewrite <- E1 in *.
    destruct (f_two c d HI v1 w v2 Li Ew Ev2) as (Lw & Lv2 & NW & WW & DW & Hends & _).
    intros _ X. change (v_W d v2 = v_W d (masha d)) in X. exfalso. destruct (Hends (masha d) Lm); congruence.
  - destruct H. apply (Mov_eq d); auto.
  - exact (add_mov c d _ _ _ _ C HI M H).
  - exact (del_mov c d _ _ _ _ HI M H).
  - exact (add_mov c d _ _ _ _ C HI M H).
  - exact (del_mov c d _ _ _ _ HI M H).
  - destruct H; intros X; match goal with Hx : wm_ex d = false |- _ => change (wm_ex d = true) in X; congruence end.
  - destruct H; intros X; match goal with Hx : wm_ex d = false |- _ => change (wm_ex d = true) in X; congruence end.
  - destruct H; intros X; match goal with Hx : wm_ex d = false |- _ => change (wm_ex d = true) in X; congruence end.
  - destruct H; intros X; match goal with Hx : wm_ex d = false |- _ => change (wm_ex d = true) in X; congruence end.
  - destruct H; intros X; match goal with Hx : wm_ex d = false |- _ => change (wm_ex d = true) in X; congruence end.
  - destruct H; intros X; match goal with Hx : wm_ex d = false |- _ => change (wm_ex d = true) in X; congruence end.
  - destruct H; intros X; match goal with Hx : wm_ex d = false |- _ => change (wm_ex d = true) in X; congruence end.
  - destruct H; intros X; match goal with Hx : wm_ex d = false |- _ => change (wm_ex d = true) in X; congruence end.
  - destruct H; intros X; match goal with Hx : wm_ex d = false |- _ => change (wm_ex d = true) in X; congruence end.
  - destruct H; intros X; match goal with Hx : wm_ex d = false |- _ => change (wm_ex d = true) in X; congruence end.
  - destruct H; intros X; match goal with Hx : wm_ex d = false |- _ => change (wm_ex d = true) in X; congruence end.
  - destruct H; intros X; match goal with Hx : wm_ex d = false |- _ => change (wm_ex d = true) in X; congruence end.
Qed.

Lemma Ext_same c d d' : gamma d' = gamma d -> uext d' = uext d -> Ext c d -> Ext c d'.
Proof. unfold Ext. intros -> ->. auto. Qed.
Lemma prop_ext c d op p d' r : Inv c d -> Ext c d -> prop_rel c d op p d' r -> Ext c d'.
Proof.
  intros HI M H.
  destruct H as [p d' r H|p d' r H|p d' r H|p d' r H|p d' r H|p d' r H|p d' r H|p d' r H|p d' r H|p d' r H|p d' r H|p d' r H|p d' r H|p d' r H|p d' r H|p d' r H|p d' r H|p d' r G3 H|p d' r G3 H|p d' r G3 H|p d' r G3 H];
  try (destruct H; apply (Ext_same c d); [reflexivity|reflexivity|exact M]).
  - destruct H as [g t ext wt Ho Hex Hga Hg3 Lg Hm Ht Ee Hw]. intros _. change (tau_draw c (ex_T ext) /\ site_ok (c_lat c) (ex_R ext)).
    rewrite Ee. cbn [ex_T ex_R]. split; [exact Ht|]. eauto with inv.
  - destruct H. intros X. now contradiction X.
  - destruct H as [w t rr ext wt Ho Hex Hga Hg3 Lw Hm Hd Ht Hr Ee Hw]. intros _. change (tau_draw c (ex_T ext) /\ site_ok (c_lat c) (ex_R ext)).
    rewrite Ee. cbn [ex_T ex_R]. auto.
  - destruct H. intros X. now contradiction X.
Qed.
Lemma Drawn_upd c d v t : Drawn c d -> tau_draw c t -> forall x, live (vB d) x -> upd (v_T d) v t x = rofZ 0 \/ tau_draw c (upd (v_T d) v t x).
Proof. intros M Ht x Lx. rewrite upd_eq. destruct (Nat.eq_dec x v); auto. Qed.
Lemma prop_drawn c d op p d' r : cfg_ok c -> Inv c d -> Drawn c d -> prop_rel c d op p d' r -> Drawn c d'.
Proof.
  intros C HI M H.
  assert (AD : forall de, add_rel de c d p d' r -> Drawn c d').
  { clear H. intros de H. destruct H as [I Ma dr dw GIC GMD kW kIA kMB kM vC vD tA tB sA sB wW gIA gMB gAC gBD o1 o0
      vA vB' GIA GMB WAB bv1 bv bg1 bg bw Hex Ho Hoc EI EMa RkW NkW HkW EGIC EGMD EkIA EkMB EkM HkIA HkMB NkAB
      HtA HtB Htd EsA EsB EvC EvD HwW HgIA HgMB HgAC HgBD _ _ Bv1 Bv Bg1 Bg Bw].
    destruct (f_cnt c d HI Ho) as (Ao & Ag & Av & Hoo). pose proof (co_order c C) as Hco.
    destruct (badd2_spec _ _ _ _ _ (i_bv _ _ HI) ltac:(lia) Bv1 Bv) as (BV & AV & NvAB & NvA & NvB & LV).
    intros x Lx. change (live bv x) in Lx. change (upd (upd (v_T d) vA tA) vB' tB x = rofZ 0 \/ tau_draw c (upd (upd (v_T d) vA tA) vB' tB x)).
    rewrite !upd_eq. destruct (Nat.eq_dec x vB'); [auto|]. destruct (Nat.eq_dec x vA); [auto|]. apply M. apply LV in Lx. tauto. }
  assert (DL : forall de, del_rel de c d p d' r -> Drawn c d').
  { clear H AD. intros de H. destruct H as [I Ma dr GIA GMB vA vB' wAB GAC GBD vC vD kM gIC gMD om o0 bv1 bv bg1 bg bw
      Hex Ho EI EMa EGIA EGMB MA GA MB GB EvA EvB SvA SvB EwA EwB Hme Hwo Hde Hww EGAC EGBD EvC EvD EkM HgIC HgMD _ _ Bv1 Bv Bg1 Bg Bw].
    destruct (f_wo HI Hex) as (Li & Lm & Nim & _). rewrite <- EI, <- EMa in *.
    assert (LGIA : live (gB d) GIA) by (subst GIA; eauto with inv). assert (LGMB : live (gB d) GMB) by (subst GMB; eauto with inv).
    assert (LvA : live (vB d) vA) by (subst vA; eauto with inv). assert (LvB : live (vB d) vB') by (subst vB'; eauto with inv).
    assert (NGAB : GIA <> GMB). { intros E. apply Nim. apply (f_vg_inj HI I Ma dr); auto. congruence. }
    assert (NvAB : vA <> vB'). { intros E. apply NGAB. apply (f_gv_inj HI GIA GMB dr); auto. congruence. }
    destruct (bremove2_spec _ _ _ _ _ (i_bv _ _ HI) LvA LvB NvAB Bv1 Bv) as (BV & AV & LV).
    intros x Lx. change (live bv x) in Lx. apply M. apply LV in Lx. tauto. }
  assert (DT : forall td, delta_rel td c d p d' r -> Drawn c d').
  { clear H AD DL. intros td H. destruct H as [w vi vo G1 G2 v1 v2 t wW W1 W2 Ho Hex Lw Hde Hme Hww Evi Evo EG1 EG2 HG Ev1 Ev2 Ht Htd HwW HW1 HW2].
    intros x Lx. change (upd (v_T d) vo t x = rofZ 0 \/ tau_draw c (upd (v_T d) vo t x)). rewrite upd_eq. destruct (Nat.eq_dec x vo); [|auto].
    destruct td; [|auto]. rewrite Htd by reflexivity. apply M. subst vi. eauto with inv. }
  destruct H as [p d' r H|p d' r H|p d' r H|p d' r H|p d' r H|p d' r H|p d' r H|p d' r H|p d' r H|p d' r H|p d' r H|p d' r H|p d' r H|p d' r H|p d' r H|p d' r H|p d' r H|p d' r G3 H|p d' r G3 H|p d' r G3 H|p d' r G3 H].
  all: try (destruct H; exact M); eauto.
  - destruct H as [v w gi go vi vo vW t giW goW wW Ho Hex Lv Ew Hde Ht]. exact (Drawn_upd c d v t M Ht).
  - destruct H as [V1 V2 G1 G2 W1 R t1 t2 a b g1 g2 wW o0 o1 Ho Hex Hga HR Ht1 Ht2]. intros x Lx.
    change (upd (upd (v_T d) V1 t1) V2 t2 x = rofZ 0 \/ tau_draw c (upd (upd (v_T d) V1 t1) V2 t2 x)).
    rewrite !upd_eq. destruct (Nat.eq_dec x V2); [auto|]. destruct (Nat.eq_dec x V1); [auto|]. apply M. exact Lx.
Qed.
Definition Rch (c : cfg) (d : diagram) : Prop := Mov d /\ Ext c d /\ Drawn c d.
Lemma rej_reach c d op p d' r : prop_rel c d op p d' r -> Rch c d -> Rch c r.
Proof.
  intros H (M & X & Y). destruct (rej_same c _ _ _ _ _ H) as [->|(G & e & ->)]; [split; [exact M|split; [exact X|exact Y]]|]. split; [exact M|]. split; [|exact Y].
  intros Z. now contradiction Z.
Qed.
Lemma hstep_reach c d d' : cfg_ok c -> Inv c d -> Rch c d -> hstep c d d' -> Rch c d'.
Proof.
  intros C HI X H. destruct H as [|op p d' r H _|op p d' r H _]; [auto| |].
  - exact (rej_reach c d op p d' r H X).
  - destruct X as (M & X & Y). split; [exact (prop_mov c d op p d' r C HI M H)|]. split; [exact (prop_ext c d op p d' r HI X H)|exact (prop_drawn c d op p d' r C HI Y H)].
Qed.
Lemma hsteps_reach c n d d' : cfg_ok c -> Inv c d -> Rch c d -> hsteps c n d d' -> Rch c d'.
Proof.
  intros C HI X H. induction H as [d|n d1 d2 d3 H Hs IH]; [auto|].
  exact (IH (hstep_pres c _ _ C HI H) (hstep_reach c _ _ C HI X H)).
Qed.
Lemma Drawn_retuned c c' d : retuned c c' -> Drawn c d <-> Drawn c' d.
Proof. intros (_ & EL & EB & _). unfold Drawn, tau_draw. rewrite EB. tauto. Qed.
Lemma Ext_retuned c c' d : retuned c c' -> Ext c d <-> Ext c' d.
Proof. intros (_ & EL & EB & _). unfold Ext, tau_draw. rewrite EL, EB. tauto. Qed.

Lemma Mov_copy fv fg fw d d' : same_diagram fv fg fw d d' -> Mov d -> (wm_ex d = true -> live (vB d) (ira d) /\ live (vB d) (masha d) /\
    live (wB d) (v_W d (ira d)) /\ live (wB d) (v_W d (masha d))) -> Mov d'.
Proof.
  intros SD M L. apply (Mov_eq d); auto; [apply SD| |].
  - intros Ex. destruct (L Ex) as (Li & Lm & Lwi & Lwm). rewrite <- live_exist in Li, Lm, Lwi, Lwm. destruct (sd_worm _ _ _ _ _ SD Ex) as (-> & -> & _).
    rewrite !(sd_vW _ _ _ _ _ SD) by auto. now apply (sd_w _ _ _ _ _ SD).
  - intros Ex. destruct (L Ex) as (Li & Lm & _). rewrite <- live_exist in Li, Lm. destruct (sd_worm _ _ _ _ _ SD Ex) as (-> & -> & Ed & _). split; [exact Ed|].
    intros e. rewrite !(sd_vS _ _ _ _ _ SD) by auto. auto.
Qed.
Lemma Drawn_copy c d d1 d' : BInv (vB d) -> copy d d1 -> fixed d1 d' -> Drawn c d -> Drawn c d'.
Proof.
  intros B Y F D v L. destruct F as (_ & _ & _ & _ & EB & _ & _ & _ & _ & _ & _ & _ & _ & _ & ET & _). rewrite EB in L. rewrite ET.
  destruct (cp_onto (vB d) (vB d1) v B (y_bv _ _ Y) (y_av _ _ Y) L) as (x & Lx & <-). destruct (y_v _ _ Y x Lx) as (_ & -> & _). now apply D.
Qed.
End Reach.

Section Hist.
Context {N : Num} {E : Type} (next : E -> Z * E).
Lemma reach_history (c : cfg) (s : mstate) : cfg_ok c -> new_ok (c_lat c) -> history next c s -> Rch c (md s).
Proof.
  intros C LK H. induction H as [s d0 K B|s s1 d0 F H IH T K L|s s' c' n H IH R HH].
  - destruct (fresh_structural c d0 C LK K) as (d & B' & _ & _ & Ex & G & _). rewrite B in B'. injection B' as <-.
    split; [intros X; congruence|]. split; [intros X; congruence|]. destruct LK as [L1 L2].
    destruct (BuildNew_inv c d0 C L1 L2 K) as (co & d1 & d2 & Ec & B' & Y & F & _). rewrite B in B'. injection B' as <-.
    apply (Drawn_copy c (dref co d0) d1 (md s)); auto; [apply BInv_bk; lia|]. intros v _. left. reflexivity.
  - pose proof (history_inv next c s1 C LK H) as HI. pose proof (Inv_Pre c _ HI) as P. rewrite (ToDict_spec c _ P) in T. injection T as <-.
    destruct (load_inv c (md s1) d0 C P K) as (d1 & d' & B' & Y & F & HI' & Ga' & _). rewrite L in B'. injection B' as ->.
    destruct (copy_same c (md s1) d1 d' HI Y F HI') as (SD & _). destruct IH as (IH & _ & ID).
    split; [|split; [intros X; congruence|]].
    + apply (Mov_copy _ _ _ _ _ SD IH). intros Ex. destruct (f_wo HI Ex) as (Li & Lm & _).
      repeat split; auto; try (apply (f_vw HI)); auto; try apply Li; try apply Lm.
    + exact (Drawn_copy c _ d1 d' (i_bv _ _ HI) Y F ID).
  - pose proof (history_inv next c s C LK H) as HI. destruct IH as (M & X & Y).
    apply (retuned_Inv c c' _ R) in HI. pose proof (retuned_ok c c' C R) as C'. apply (Ext_retuned c c' _ R) in X. apply (Drawn_retuned c c' _ R) in Y.
    destruct (Hop_ok next c' n s C' HI) as (s2 & B & S & _). rewrite HH in B. injection B as <-.
    destruct (hsteps_reach c' _ _ _ C' HI (Logic.conj M (Logic.conj X Y)) S) as (M' & X' & Y'). split; [exact M'|]. split; [now apply (Ext_retuned c c' _ R)|now apply (Drawn_retuned c c' _ R)].
Qed.
End Hist.
