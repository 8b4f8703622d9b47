(** The fermion-loop sign follows the number of loops *)
From Coq Require Import ZArith List Bool Arith Lia ZifyBool Permutation.
From Verif Require Import Base Num RNG Momentum Complex Lattice Bundle IndexMap Weights Diagram Markov DiagramIO History
  P_Momentum P_RNG P_Bundle P_Lattice P_IndexMap P_WP P_Inv P_Rel P_Sem1 P_Sem2 P_Sem3 P_Pres1 P_Pres2 P_Pres3 P_Pres4 P_Hop P_Fix P_IO P_History P_IOProm.
From Verif Require P_Perm.
Import ListNotations.
Open Scope Z_scope.

Section Loop.
Context {N : Num}.
Notation par := P_Perm.par.
Notation swapn := P_Perm.swapn.

(** the next vertex along the G lines in direction [dr]; unused slots stay put *)
Definition nx (d : diagram) (dr : dir) (v : nat) : nat :=
  if bexist (vB d) v then g_ver d (v_G d v dr) dr else v.
Definition LoopSign (d : diagram) : Prop :=
  exists s, par (nx d OUT) s /\ sfl d = if s then rofZ 1 else rofZ (-1).
(** the number type multiplies signs exactly *)
Definition sign_law : Prop := rmul (rofZ 1) (rofZ (-1)) = rofZ (-1) /\ rmul (rofZ (-1)) (rofZ (-1)) = rofZ 1.

Lemma nx_live d dr v : live (vB d) v -> nx d dr v = g_ver d (v_G d v dr) dr.
Proof. intros L. unfold nx. apply live_exist in L. now rewrite L. Qed.
Lemma nx_dead d dr v : ~ live (vB d) v -> nx d dr v = v.
Proof. intros L. unfold nx. destruct (bexist (vB d) v) eqn:E; auto. exfalso. apply L. now apply live_exist. Qed.
Lemma nx_inv c d dr v : Inv c d -> nx d (inv dr) (nx d dr v) = v.
Proof.
  intros HI. destruct (live_dec (vB d) v) as [L|L]; [|now rewrite (nx_dead d dr v L), nx_dead].
  rewrite (nx_live d dr v L), nx_live by eauto with inv. rewrite (f_gvg HI) by eauto with inv. now apply (f_vgv HI).
Qed.
Lemma par_dir c d dr dr' s : Inv c d -> par (nx d dr) s -> par (nx d dr') s.
Proof.
  intros HI P. destruct (dir_eqb dr dr') eqn:E.
  - apply dir_eqb_true in E. now subst.
  - assert (dr' = inv dr) as -> by (destruct dr, dr'; try discriminate; auto).
    apply (P_Perm.par_inv (f := nx d dr)); auto. intros x _. now apply (nx_inv c).
Qed.
Lemma LoopSign_same d d' : vB d' = vB d -> v_G d' = v_G d -> g_ver d' = g_ver d -> sfl d' = sfl d -> LoopSign d -> LoopSign d'.
Proof.
  intros E1 E2 E3 E4 (s & P & S). exists s. rewrite E4. split; auto. apply (P_Perm.par_ext (f := nx d OUT)); auto.
  intros x _. unfold nx. now rewrite E1, E2, E3.
Qed.

Lemma reconnect_sign c d p d' r : sign_law -> cfg_ok c -> Inv c d -> reconnect_rel c d p d' r -> LoopSign d -> LoopSign d'.
Proof.
  intros [S1 S2] C HI H (s & P & S). pose proof (reconnect_pres c d p d' r C HI H) as HI'.
  destruct H as [I Ma dr GIA GMB k vA vB' gi gm Ho Hex EI EMa ER EGIA EGMB ES Ek EvA EvB Hgi Hgm].
  destruct (f_wo HI Hex) as (Li & Lm & Nim & _). rewrite <- EI, <- EMa in *.
  set (d' := reconnect_post I Ma dr GIA GMB k gi gm d) in *.
  exists (negb s). split.
  - apply (par_dir c d' dr OUT); auto. apply (par_dir c d OUT dr) in P; auto.
    assert (NG : GIA <> GMB) by (intros E; apply Nim; apply (f_vg_inj HI I Ma dr); auto; congruence).
    apply (P_Perm.par_ext (f := fun x => nx d dr (swapn I Ma x))).
    2:{ apply P_Perm.par_pre; auto; [apply Li|apply Lm]. }
    intros x Hx.
    assert (GV : forall g, g_ver d' g dr = g_ver d g dr).
    { intros g. change (upd2 (upd2 (g_ver d) GIA (inv dr) Ma) GMB (inv dr) I g dr = g_ver d g dr). rewrite !upd2_eq.
      destruct dr; cbn; repeat destruct (Nat.eq_dec _ _); reflexivity. }
    assert (VG : forall v, v_G d' v dr = if Nat.eq_dec v I then GMB else if Nat.eq_dec v Ma then GIA else v_G d v dr).
    { intros v. change (upd2 (upd2 (v_G d) Ma dr GIA) I dr GMB v dr = if Nat.eq_dec v I then GMB else if Nat.eq_dec v Ma then GIA else v_G d v dr).
      rewrite !upd2_eq. destruct dr; cbn; reflexivity. }
    destruct (live_dec (vB d) x) as [L|L].
    + rewrite (nx_live d' dr x L), VG, GV. destruct (Nat.eq_dec x I) as [->|N1]; [|destruct (Nat.eq_dec x Ma) as [->|N2]].
      * rewrite P_Perm.swapn_l, nx_live by auto. congruence.
      * rewrite P_Perm.swapn_r, nx_live by auto. congruence.
      * rewrite P_Perm.swapn_o, nx_live by auto. reflexivity.
    + rewrite (nx_dead d' dr x L), P_Perm.swapn_o, nx_dead; auto; intros ->; auto.
  - change (rmul (sfl d) (rofZ (-1)) = if negb s then rofZ 1 else rofZ (-1)). rewrite S. destruct s; cbn; auto.
Qed.

Lemma add_sign de c d p d' r : cfg_ok c -> Inv c d -> add_rel de c d p d' r -> LoopSign d -> LoopSign d'.
Proof.
  intros C HI H (s & P & S). pose proof (add_pres de c d p d' r C HI H) as HI'.
  destruct H as [I Ma dr dw GIC GMD kW kIA kMB kM vC vD tA tB sA sB wW gIA gMB gAC gBD o1 o0
    vA vB' GIA GMB WAB bv1 bv bg1 bg bw Hex Ho Hoc EI EMa RkW NkW HkW EGIC EGMD EkIA EkMB EkM HkIA HkMB NkAB
    HtA HtB Htd EsA EsB EvC EvD HwW HgIA HgMB HgAC HgBD _ _ Bv1 Bv Bg1 Bg Bw].
  destruct (f_wo HI Hex) as (Li & Lm & Nim & _).
  destruct (f_cnt c d HI Ho) as (Ao & Ag & Av & Hoo). pose proof (co_order c C) as Hco.
  destruct (badd2_spec _ _ _ _ _ (i_bv _ _ HI) ltac:(lia) Bv1 Bv) as (BV & AV & NvAB & NvA & NvB & LV).
  destruct (badd2_spec _ _ _ _ _ (i_bg _ _ HI) ltac:(lia) Bg1 Bg) as (BG & AG & NgAB & NgA & NgB & LG).
  rewrite <- EI, <- EMa in *.
  match type of HI' with Inv _ ?X => set (d' := X) in * end.
  assert (LGIC : live (gB d) GIC) by (subst GIC; eauto with inv).
  assert (LGMD : live (gB d) GMD) by (subst GMD; eauto with inv).
  assert (NGCD : GIC <> GMD) by (intros E; apply Nim; apply (f_vg_inj HI I Ma dr); auto; congruence).
  assert (LvA : live bv vA) by (apply LV; auto). assert (LvB : live bv vB') by (apply LV; auto).
  assert (Nvx : forall x, live (vB d) x -> x <> vA /\ x <> vB') by (intros x Lx; split; intros ->; auto).
  assert (Ngx : forall x, live (gB d) x -> x <> GIA /\ x <> GMB) by (intros x Lx; split; intros ->; auto).
  destruct (Nvx I Li) as [NIA NIB]. destruct (Nvx Ma Lm) as [NMA NMB].
  exists s. split; [|exact S].
  apply (par_dir c d' dr OUT); auto. apply (par_dir c d OUT dr) in P; auto.
  apply (P_Perm.par_ext (f := fun x => nx d dr (swapn I vA (swapn Ma vB' x)))).
  2:{ rewrite <- (negb_involutive s). apply (P_Perm.par_pre (a := Ma) (b := vB') (f := fun x => nx d dr (swapn I vA x))); auto; [apply Lm|apply LvB|].
      apply P_Perm.par_pre; auto; [apply Li|apply LvA]. }
  intros x Hx.
  assert (GV : forall g, g_ver d' g dr = if Nat.eq_dec g GMB then vB' else if Nat.eq_dec g GIA then vA else g_ver d g dr).
  { intros g. change (g_ver d') with (upd2 (upd2 (upd2 (upd2 (upd2 (upd2 (g_ver d) GIA (inv dr) I) GIA dr vA) GMB (inv dr) Ma) GMB dr vB')
       GIC (inv dr) vA) GMD (inv dr) vB'). rewrite !upd2_eq.
    destruct dr; cbn; repeat destruct (Nat.eq_dec _ _); congruence. }
  assert (VG : forall v, v_G d' v dr = if Nat.eq_dec v Ma then GMB else if Nat.eq_dec v I then GIA else
      if Nat.eq_dec v vB' then GMD else if Nat.eq_dec v vA then GIC else v_G d v dr).
  { intros v. change (v_G d') with (upd2 (upd2 (upd2 (upd2 (upd2 (upd2 (v_G d) vA dr GIC) vA (inv dr) GIA) vB' dr GMD) vB' (inv dr) GMB)
       I dr GIA) Ma dr GMB). rewrite !upd2_eq. destruct dr; cbn; repeat destruct (Nat.eq_dec _ _); congruence. }
  assert (LD : forall v, live (vB d') v <-> live (vB d) v \/ v = vA \/ v = vB') by (intros v; exact (LV v)).
  destruct (live_dec (vB d') x) as [L|L].
  - rewrite (nx_live d' dr x L), VG, GV. destruct (Nat.eq_dec x Ma) as [->|X1]; [|destruct (Nat.eq_dec x I) as [->|X2];
      [|destruct (Nat.eq_dec x vB') as [->|X3]; [|destruct (Nat.eq_dec x vA) as [->|X4]]]].
    + rewrite P_Perm.swapn_l, P_Perm.swapn_o, nx_dead by auto. destruct (Nat.eq_dec GMB GMB); congruence.
    + rewrite (P_Perm.swapn_o (a := Ma)), P_Perm.swapn_l, nx_dead by auto. destruct (Nat.eq_dec GIA GMB); [congruence|]. destruct (Nat.eq_dec GIA GIA); congruence.
    + rewrite P_Perm.swapn_r, P_Perm.swapn_o, nx_live by auto. destruct (Ngx GMD LGMD).
      destruct (Nat.eq_dec GMD GMB); [congruence|]. destruct (Nat.eq_dec GMD GIA); congruence.
    + rewrite (P_Perm.swapn_o (a := Ma)), P_Perm.swapn_r, nx_live by auto. destruct (Ngx GIC LGIC).
      destruct (Nat.eq_dec GIC GMB); [congruence|]. destruct (Nat.eq_dec GIC GIA); congruence.
    + assert (Lx : live (vB d) x) by (destruct (proj1 (LD x) L) as [|[|]]; auto; congruence).
      rewrite (P_Perm.swapn_o (a := Ma)), P_Perm.swapn_o, nx_live by auto. destruct (Ngx (v_G d x dr)) as [Q1 Q2]; [eauto with inv|].
      destruct (Nat.eq_dec (v_G d x dr) GMB); [congruence|]. destruct (Nat.eq_dec (v_G d x dr) GIA); congruence.
  - rewrite (nx_dead d' dr x L). assert (N0 : forall y, live (vB d) y \/ y = vA \/ y = vB' -> x <> y) by (intros y Hy ->; apply L, LD; auto).
    rewrite (P_Perm.swapn_o (a := Ma)), P_Perm.swapn_o, nx_dead; auto. intros Lx. apply L, LD; auto.
Qed.

Lemma del_sign de c d p d' r : cfg_ok c -> Inv c d -> del_rel de c d p d' r -> LoopSign d -> LoopSign d'.
Proof.
  intros C HI H (s & P & S). pose proof (del_pres de c d p d' r C HI H) as HI'.
  destruct H as [I Ma dr GIA GMB vA vB' wAB GAC GBD vC vD kM gIC gMD om o0 bv1 bv bg1 bg bw Hex Ho EI EMa EGIA EGMB
    MA GA MB GB EvA EvB SvA SvB EwA EwB Hme Hwo Hde Hww EGAC EGBD EvC EvD EkM HgIC HgMD _ _ Bv1 Bv Bg1 Bg Bw].
  destruct (f_wo HI Hex) as (Li & Lm & Nim & Dm & Ho0 & Hds & RK & HW).
  rewrite <- EI, <- EMa in *.
  match type of HI' with Inv _ ?X => set (d' := X) in * end.
  assert (LGIA : live (gB d) GIA) by (subst GIA; eauto with inv).
  assert (LGMB : live (gB d) GMB) by (subst GMB; eauto with inv).
  assert (LvA : live (vB d) vA) by (subst vA; eauto with inv).
  assert (LvB : live (vB d) vB') by (subst vB'; eauto with inv).
  assert (LwAB : live (wB d) wAB) by (rewrite EwA; eauto with inv).
  assert (NIw : v_W d I <> wAB /\ v_W d Ma <> wAB).
  { split; intros E; rewrite (proj2 (HW wAB LwAB)) in Hwo; auto; discriminate. }
  destruct NIw as [NIw NMw].
  assert (NIA : I <> vA) by congruence. assert (NIB : I <> vB') by congruence.
  assert (NMA : Ma <> vA) by congruence. assert (NMB : Ma <> vB') by congruence.
  assert (NGAB : GIA <> GMB). { intros E. apply Nim. apply (f_vg_inj HI I Ma dr); auto. congruence. }
  assert (NvAB : vA <> vB'). { intros E. apply NGAB. apply (f_gv_inj HI GIA GMB dr); auto. congruence. }
  destruct (bremove2_spec _ _ _ _ _ (i_bv _ _ HI) LvA LvB NvAB Bv1 Bv) as (BV & AV & LV).
  exists s. split; [|exact S].
  apply (par_dir c d' dr OUT); auto. apply (par_dir c d OUT dr) in P; auto.
  apply (P_Perm.par_ext (f := fun x => nx d dr (swapn I vA (swapn Ma vB' x)))).
  2:{ rewrite <- (negb_involutive s). apply (P_Perm.par_pre (a := Ma) (b := vB') (f := fun x => nx d dr (swapn I vA x))); auto; [apply Lm|apply LvB|].
      apply P_Perm.par_pre; auto; [apply Li|apply LvA]. }
  intros x Hx.
  assert (GV : forall g, g_ver d' g dr = g_ver d g dr).
  { intros g. change (g_ver d') with (upd2 (upd2 (g_ver d) GAC (inv dr) I) GBD (inv dr) Ma). rewrite !upd2_eq.
    destruct dr; cbn; repeat destruct (Nat.eq_dec _ _); congruence. }
  assert (VG : forall v, v_G d' v dr = if Nat.eq_dec v Ma then GBD else if Nat.eq_dec v I then GAC else v_G d v dr).
  { intros v. change (v_G d') with (upd2 (upd2 (v_G d) I dr GAC) Ma dr GBD). rewrite !upd2_eq. destruct dr; cbn; repeat destruct (Nat.eq_dec _ _); congruence. }
  assert (LD : forall v, live (vB d') v <-> live (vB d) v /\ v <> vA /\ v <> vB') by (intros v; exact (LV v)).
  destruct (live_dec (vB d') x) as [L|L].
  - rewrite (nx_live d' dr x L), VG, GV. apply LD in L. destruct L as (L & L1 & L2).
    destruct (Nat.eq_dec x Ma) as [->|X1]; [|destruct (Nat.eq_dec x I) as [->|X2]].
    + rewrite P_Perm.swapn_l, P_Perm.swapn_o, nx_live by auto. congruence.
    + rewrite (P_Perm.swapn_o (a := Ma)), P_Perm.swapn_l, nx_live by auto. congruence.
    + rewrite (P_Perm.swapn_o (a := Ma)), P_Perm.swapn_o, nx_live by auto. reflexivity.
  - rewrite (nx_dead d' dr x L). destruct (Nat.eq_dec x vB') as [->|X1]; [|destruct (Nat.eq_dec x vA) as [->|X2]].
    + rewrite P_Perm.swapn_r, P_Perm.swapn_o, nx_live by auto. congruence.
    + rewrite (P_Perm.swapn_o (a := Ma)), P_Perm.swapn_r, nx_live by auto. congruence.
    + assert (Lx : ~ live (vB d) x) by (intros Lx; apply L, LD; auto).
      rewrite (P_Perm.swapn_o (a := Ma)), P_Perm.swapn_o, nx_dead; auto; intros ->; auto.
Qed.

Lemma prop_sign c d op p d' r : sign_law -> cfg_ok c -> Inv c d -> prop_rel c d op p d' r -> LoopSign d -> LoopSign d' /\ LoopSign r.
Proof.
  intros SL C HI H L.
  assert (Rej : forall r', r' = d -> LoopSign r') by (intros r' ->; exact L).
  destruct H as [p d' r H|p d' r H|p d' r H|p d' r H|p d' r H|p d' r H|p d' r H|p d' r H|p d' r H|p d' r H|p d' r H|p d' r H|p d' r H|p d' r H|p d' r H|p d' r H|p d' r H|p d' r G3 H|p d' r G3 H|p d' r G3 H|p d' r G3 H].
  5: { split; [exact (reconnect_sign c d p d' r SL C HI H L)|apply Rej; destruct H; reflexivity]. }
  5: { split; [exact (add_sign false c d p d' r C HI H L)|apply Rej; destruct H; reflexivity]. }
  5: { split; [exact (del_sign false c d p d' r C HI H L)|apply Rej; destruct H; reflexivity]. }
  5: { split; [exact (add_sign true c d p d' r C HI H L)|apply Rej; destruct H; reflexivity]. }
  5: { split; [exact (del_sign true c d p d' r C HI H L)|apply Rej; destruct H; reflexivity]. }
  all: destruct H; split; apply (LoopSign_same d); try reflexivity; exact L.
Qed.
Lemma hstep_sign c d d' : sign_law -> cfg_ok c -> Inv c d -> hstep c d d' -> LoopSign d -> LoopSign d'.
Proof.
  intros SL C HI H L. destruct H as [|op p d' r H _|op p d' r H _]; [exact L| |].
  - exact (proj2 (prop_sign c d op p d' r SL C HI H L)).
  - exact (proj1 (prop_sign c d op p d' r SL C HI H L)).
Qed.
End Loop.

Section LoopIO.
Context {N : Num}.
Notation par := P_Perm.par.

Lemma cp_lt b b' x : BInv b -> BInv b' -> (x < 20)%nat -> (cp b b' x < 20)%nat.
Proof. intros B B' H. unfold cp. apply (bi_names _ B'). apply (bi_nm _ B); auto. Qed.
Lemma cp_inj20 b b' x y : BInv b -> BInv b' -> (x < 20)%nat -> (y < 20)%nat -> cp b b' x = cp b b' y -> x = y.
Proof.
  intros B B' Hx Hy E. apply (names_inj b') in E; auto; [|apply (bi_nm _ B); auto|apply (bi_nm _ B); auto].
  apply (nm_inj b); auto.
Qed.

Lemma copy_sign c d d1 d' : Inv c d -> copy d d1 -> fixed d1 d' -> Inv c d' -> LoopSign d -> LoopSign d'.
Proof.
  intros HI Y F HI' (s & P & S).
  destruct (copy_same c d d1 d' HI Y F HI') as (SD & _).
  assert (EV : vB d' = vB d1) by apply F.
  exists s. split; [|rewrite (sd_sfl _ _ _ _ _ SD); exact S].
  apply (P_Perm.par_conj (c := cp (vB d) (vB d1)) (f := nx d OUT)); auto.
  - intros x. apply cp_lt; [apply HI|apply Y].
  - intros x y. apply cp_inj20; [apply HI|apply Y].
  - intros x Hx. destruct (live_dec (vB d) x) as [L|L].
    + rewrite (nx_live d OUT x L). rewrite nx_live; [|rewrite EV; apply cp_live; auto; [apply HI|apply Y|apply Y]].
      rewrite (sd_vG _ _ _ _ _ SD), (sd_gv _ _ _ _ _ SD); auto; apply live_exist; auto. now apply (f_vg HI).
    + rewrite (nx_dead d OUT x L). apply nx_dead. intros L'. apply L. rewrite EV in L'.
      destruct (cp_onto (vB d) (vB d1) _ (i_bv _ _ HI) (y_bv _ _ Y) (y_av _ _ Y) L') as (z & Lz & Ez).
      apply cp_inj20 in Ez; [now subst z|apply HI|apply Y|apply Lz|exact Hx].
Qed.

Lemma fresh_sign c co d0 d1 d' : copy (dref co d0) d1 -> fixed d1 d' -> Inv c d' -> LoopSign d'.
Proof.
  intros Y F HI'.
  assert (EV : vB d' = vB d1) by apply F. assert (EG : gB d' = gB d1) by apply F.
  assert (EGV : g_ver d' = g_ver d1) by apply F.
  assert (ES : sfl d' = rofZ 1). { replace (sfl d') with (sfl d1) by (symmetry; apply F). rewrite (y_sfl _ _ Y). reflexivity. }
  pose proof (y_bv _ _ Y) as BV1. pose proof (y_bg _ _ Y) as BG1. pose proof (y_av _ _ Y) as AV. pose proof (y_ag _ _ Y) as AG.
  assert (B2 : BInv (bk 2)) by (apply BInv_bk; lia).
  set (fv := cp (bk 2) (vB d1)). set (fg := cp (bk 2) (gB d1)).
  assert (GV : forall g e, live (bk 2) g -> g_ver d' (fg g) e = fv (match e with IN => g | OUT => (1 - g)%nat end)).
  { intros g e L. rewrite EGV. destruct (y_g _ _ Y g L) as (Q & _). apply Q. }
  assert (LG : forall g, live (bk 2) g -> live (gB d') (fg g)).
  { intros g L. rewrite EG. apply cp_live; auto. }
  assert (NX : forall g, live (bk 2) g -> nx d' OUT (fv g) = fv (1 - g)%nat).
  { intros g L. rewrite nx_live; [|rewrite EV; apply cp_live; auto].
    pose proof (f_gvg HI' (fg g) IN (LG g L)) as Q. rewrite (GV g IN L) in Q. cbn [inv] in Q. rewrite Q. now apply (GV g OUT). }
  assert (L0 : live (bk 2) 0) by (apply lv; lia). assert (L1 : live (bk 2) 1) by (apply lv; lia).
  exists true. split; [|exact ES].
  apply (P_Perm.par_two (a := fv 0%nat) (b := fv 1%nat)).
  - apply cp_lt; auto; lia.
  - apply cp_lt; auto; lia.
  - intros E. apply cp_inj in E; auto. discriminate.
  - intros x Hx. destruct (Nat.eq_dec x (fv 0%nat)) as [->|N0]; [|destruct (Nat.eq_dec x (fv 1%nat)) as [->|N1]].
    + rewrite P_Perm.swapn_l. now apply NX.
    + rewrite P_Perm.swapn_r. now apply NX.
    + rewrite P_Perm.swapn_o by auto. apply nx_dead. rewrite EV. intros L.
      destruct (cp_onto (bk 2) (vB d1) _ B2 BV1 AV L) as (z & Lz & Ez).
      destruct (bk2 z Lz) as [-> | ->]; fold fv in Ez; congruence.
Qed.

Context {E : Type} (next : E -> Z * E).
Lemma hsteps_sign c n d d' : sign_law -> cfg_ok c -> hsteps c n d d' -> Inv c d -> LoopSign d -> LoopSign d'.
Proof.
  intros SL C H. induction H as [|n d1 d2 d3 H1 H2 IH]; intros HI L; auto.
  apply IH; [exact (hstep_pres c _ _ C HI H1)|exact (hstep_sign c _ _ SL C HI H1 L)].
Qed.
Theorem history_sign c s : sign_law -> cfg_ok c -> new_ok (c_lat c) -> history next c s -> LoopSign (md s).
Proof.
  intros SL C LK H. induction H as [s d0 K B|s s1 d0 F H IH T K L|s s' c' n H IH R HH].
  - destruct (BuildNew_inv c d0 C (proj1 LK) (proj2 LK) K) as (co & d1 & d' & _ & B' & Y & F & HI & _). rewrite B in B'. injection B' as ->.
    exact (fresh_sign c co d0 d1 d' Y F HI).
  - pose proof (history_inv next c s1 C LK H) as HI. pose proof (Inv_Pre c _ HI) as P. rewrite (ToDict_spec c _ P) in T. injection T as <-.
    destruct (load_inv c (md s1) d0 C P K) as (d1 & d' & B' & Y & F & HI' & _). rewrite L in B'. injection B' as ->.
    exact (copy_sign c _ _ _ HI Y F HI' IH).
  - pose proof (history_inv next c s C LK H) as HI. apply (retuned_Inv c c' _ R) in HI. pose proof (retuned_ok c c' C R) as C'.
    destruct (Hop_ok next c' n s C' HI) as (s2 & B & S & _). rewrite HH in B. injection B as <-.
    exact (hsteps_sign c' _ _ _ SL C' S HI IH).
Qed.

(** ** The loops themselves *)
Definition next_vertex (d : diagram) (v : nat) : nat := g_ver d (v_G d v OUT) OUT.
(** [l] is a closed fermion loop: following the outgoing G line from each vertex reaches the next one, cyclically *)
Definition fermion_loop (d : diagram) (l : list nat) : Prop :=
  l <> [] /\ forall i, (i < length l)%nat -> next_vertex d (nth i l 0%nat) = nth (S i mod length l) l 0%nat.

Theorem loops_of c d : Inv c d -> LoopSign d ->
  exists loops, NoDup (concat loops) /\ (forall v, In v (concat loops) <-> bexist (vB d) v = true) /\
    (forall l, In l loops -> fermion_loop d l) /\
    sfl d = if Nat.odd (length loops) then rofZ 1 else rofZ (-1).
Proof.
  intros HI (s & P & S).
  destruct (P_Perm.loops_exist (live := bexist (vB d)) (ll := liveL (vB d)) P) as (loops & H1 & H2 & H3).
  - apply liveL_nodup, HI.
  - intros x. rewrite liveL_in by apply HI. rewrite live_exist. split; [intros L; split; [apply L|exact L]|tauto].
  - intros x _ L. unfold nx. rewrite L. apply live_exist in L. apply live_exist. eauto with inv.
  - intros x _ L. unfold nx. now rewrite L.
  - rewrite liveL_length. destruct (i_cnt _ _ HI) as (_ & _ & A & _). rewrite A. rewrite Nat.even_mul. reflexivity.
  - assert (IN1 : forall v, In v (concat loops) <-> bexist (vB d) v = true).
    { intros v. split; intros Hv.
      - apply (Permutation_in _ H1) in Hv. apply liveL_in in Hv; [|apply HI]. now apply live_exist.
      - apply (Permutation_in _ (Permutation_sym H1)). apply liveL_in; [apply HI|]. now apply live_exist. }
    exists loops. split; [|split; [|split]].
    + eapply Permutation_NoDup; [apply Permutation_sym, H1|]. apply liveL_nodup, HI.
    + exact IN1.
    + intros l Hl. destruct (H2 l Hl) as [Q1 Q2]. split; [exact Q1|]. intros i Hi. rewrite <- (Q2 i Hi). unfold nx, next_vertex.
      replace (bexist (vB d) (nth i l 0%nat)) with true; auto. symmetry. apply IN1. apply in_concat. exists l. split; auto. now apply nth_In.
    + rewrite H3. exact S.
Qed.
End LoopIO.

Theorem history_loops (N : Num) (E : Type) (next : E -> Z * E) (c : @cfg N) (s : mstate) :
  rmul (rofZ 1) (rofZ (-1)) = rofZ (-1) -> rmul (rofZ (-1)) (rofZ (-1)) = rofZ 1 ->
  cfg_ok c -> new_ok (c_lat c) -> history next c s ->
  let d := md s in
  exists loops : list (list nat),
    NoDup (concat loops) /\ (forall v, In v (concat loops) <-> bexist (vB d) v = true) /\
    (forall l, In l loops -> l <> [] /\ forall i, (i < length l)%nat ->
       g_ver d (v_G d (nth i l 0%nat) OUT) OUT = nth (S i mod length l) l 0%nat) /\
    sfl d = if Nat.odd (length loops) then rofZ 1 else rofZ (-1).
Proof.
  intros S1 S2 C L H d. exact (loops_of c d (history_inv next c s C L H) (history_sign next c s (Logic.conj S1 S2) C L H)).
Qed.
