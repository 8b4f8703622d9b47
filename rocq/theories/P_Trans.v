(** Whatever a diagram can propose, a diagram equal up to slot numbers can propose as well *)
From Coq Require Import ZArith List Bool Arith Lia ZifyBool FunctionalExtensionality Permutation.
From Verif Require Import Base Num RNG Momentum Complex Lattice Bundle IndexMap Weights Diagram Markov DiagramIO History
  P_Momentum P_RNG P_Bundle P_Lattice P_IndexMap P_WP P_Inv P_Rel P_Sem1 P_Sem2 P_Sem3 P_Pres1 P_Pres2 P_Pres3 P_Pres4
  P_Hop P_Fix P_IO P_History P_IOProm P_Step P_Reach Alike P_Alike P_Undo.
Import ListNotations.
Open Scope Z_scope.

(** *** renamed arrays *)
Lemma upd_ren {A B} b b' f (h : nat -> A) (h' : nat -> B) (r : A -> B) x a : lbij b b' f -> live b x ->
  (forall z, live b z -> h' (f z) = r (h z)) -> forall z, live b z -> upd h' (f x) (r a) (f z) = r (upd h x a z).
Proof.
  intros (_ & Inj & _) Lx H z Lz. rewrite !upd_eq. destruct (Nat.eq_dec (f z) (f x)) as [E|E], (Nat.eq_dec z x) as [F|F]; auto.
  - destruct F. apply Inj; auto.
  - destruct E. now subst.
Qed.
Lemma upd_same_ren {A} b b' f (h h' : nat -> A) x a : lbij b b' f -> live b x ->
  (forall z, live b z -> h' (f z) = h z) -> forall z, live b z -> upd h' (f x) a (f z) = upd h x a z.
Proof. intros L Lx H. exact (upd_ren b b' f h h' (fun y => y) x a L Lx H). Qed.
Lemma upd2_ren b b' f (h h' : nat -> dir -> nat) (r : nat -> nat) x e0 a : lbij b b' f -> live b x ->
  (forall z e, live b z -> h' (f z) e = r (h z e)) -> forall z e, live b z -> upd2 h' (f x) e0 (r a) (f z) e = r (upd2 h x e0 a z e).
Proof.
  intros (_ & Inj & _) Lx H z e Lz. rewrite !upd2_eq. destruct (Nat.eq_dec (f z) (f x)) as [E|E], (Nat.eq_dec z x) as [F|F]; auto.
  - destruct (dir_eqb e e0); [reflexivity|apply H; auto].
  - destruct F. apply Inj; auto.
  - destruct E. now subst.
Qed.

Lemma lbij_av b b' f : BInv b -> BInv b' -> lbij b b' f -> avail b' = avail b.
Proof.
  intros B B' L. pose proof (Permutation_length (lbij_perm b b' f B B' L)) as P.
  rewrite map_length, !liveL_length in P. exact P.
Qed.
Section Ext2.
Context (b b' b2 b2' : bundle) (f : nat -> nat) (x y x1 y1 : nat) (L : lbij b b' f) (Nxy : x <> y) (N1 : x1 <> y1)
  (Fx : ~ live b x) (Fy : ~ live b y) (Fx1 : ~ live b' x1) (Fy1 : ~ live b' y1)
  (L2 : forall z, live b2 z <-> live b z \/ z = x \/ z = y) (L2' : forall z, live b2' z <-> live b' z \/ z = x1 \/ z = y1).
Let f2 := upd (upd f x x1) y y1.
Lemma ext2_x : f2 x = x1. Proof. unfold f2. now rewrite upd_other, upd_same by auto. Qed.
Lemma ext2_y : f2 y = y1. Proof. unfold f2. now rewrite upd_same. Qed.
Lemma ext2_o z : live b z -> f2 z = f z. Proof. intros Lz. unfold f2. rewrite !upd_other; auto; intros ->; auto. Qed.
Lemma ext2_cases (Q : nat -> Prop) : Q x -> Q y -> (forall z, live b z -> z <> x -> z <> y -> f z <> x1 -> f z <> y1 -> Q z) -> forall z, live b2 z -> Q z.
Proof.
  intros Qx Qy Q0 z Lz. apply L2 in Lz as [Lz|[->| ->]]; auto. destruct L as (L1 & _). pose proof (L1 z Lz).
  apply Q0; auto; intros E; subst; auto.
Qed.
Lemma ext2_lbij : lbij b2 b2' f2.
Proof.
  destruct L as (L1 & Inj & Sur). split; [|split].
  - intros z Lz. apply L2'. apply L2 in Lz as [Lz|[->| ->]]; [rewrite ext2_o by auto|rewrite ext2_x|rewrite ext2_y]; auto.
  - intros z w Lz Lw. apply L2 in Lz, Lw.
    destruct Lz as [Lz|[->| ->]], Lw as [Lw|[->| ->]]; rewrite ?ext2_x, ?ext2_y, ?(ext2_o z Lz), ?(ext2_o w Lw); auto; intros E; try congruence; exfalso.
    + pose proof (L1 z Lz). rewrite E in *. auto.
    + pose proof (L1 z Lz). rewrite E in *. auto.
    + pose proof (L1 w Lw). rewrite <- E in *. auto.
    + pose proof (L1 w Lw). rewrite <- E in *. auto.
  - intros z Lz. apply L2' in Lz as [Lz|[->| ->]].
    + destruct (Sur z Lz) as (w & Lw & <-). exists w. rewrite ext2_o by auto. split; auto. apply L2; auto.
    + exists x. rewrite ext2_x. split; auto. apply L2; auto.
    + exists y. rewrite ext2_y. split; auto. apply L2; auto.
Qed.
Lemma ext2_upd {A} (h h' : nat -> A) a a' : (forall z, live b z -> h' (f z) = h z) -> forall z, live b2 z -> upd (upd h' x1 a) y1 a' (f2 z) = upd (upd h x a) y a' z.
Proof.
  intros H. apply ext2_cases.
  - rewrite ext2_x. rewrite !upd_eq. decs.
  - rewrite ext2_y. now rewrite !upd_same.
  - intros z Lz Zx Zy Z1 Z2. rewrite ext2_o, !upd_other by auto. auto.
Qed.
End Ext2.
Section Ext1.
Context (b b' b2 b2' : bundle) (f : nat -> nat) (x x1 : nat) (L : lbij b b' f)
  (Fx : ~ live b x) (Fx1 : ~ live b' x1)
  (L2 : forall z, live b2 z <-> live b z \/ z = x) (L2' : forall z, live b2' z <-> live b' z \/ z = x1).
Let f2 := upd f x x1.
Lemma ext1_x : f2 x = x1. Proof. unfold f2. now rewrite upd_same. Qed.
Lemma ext1_o z : live b z -> f2 z = f z. Proof. intros Lz. unfold f2. rewrite !upd_other; auto; intros ->; auto. Qed.
Lemma ext1_cases (Q : nat -> Prop) : Q x -> (forall z, live b z -> z <> x -> f z <> x1 -> Q z) -> forall z, live b2 z -> Q z.
Proof.
  intros Qx Q0 z Lz. apply L2 in Lz as [Lz| ->]; auto. destruct L as (L1 & _). pose proof (L1 z Lz).
  apply Q0; auto; intros E; subst; auto.
Qed.
Lemma ext1_lbij : lbij b2 b2' f2.
Proof.
  destruct L as (L1 & Inj & Sur). split; [|split].
  - intros z Lz. apply L2'. apply L2 in Lz as [Lz| ->]; [rewrite ext1_o by auto|rewrite ext1_x]; auto.
  - intros z w Lz Lw. apply L2 in Lz, Lw.
    destruct Lz as [Lz| ->], Lw as [Lw| ->]; rewrite ?ext1_x, ?(ext1_o z Lz), ?(ext1_o w Lw); auto; intros E; try congruence; exfalso.
    + pose proof (L1 z Lz). rewrite E in *. auto.
    + pose proof (L1 w Lw). rewrite <- E in *. auto.
  - intros z Lz. apply L2' in Lz as [Lz| ->].
    + destruct (Sur z Lz) as (w & Lw & <-). exists w. rewrite ext1_o by auto. split; auto. apply L2; auto.
    + exists x. rewrite ext1_x. split; auto. apply L2; auto.
Qed.
Lemma ext1_upd {A} (h h' : nat -> A) a : (forall z, live b z -> h' (f z) = h z) -> forall z, live b2 z -> upd h' x1 a (f2 z) = upd h x a z.
Proof.
  intros H. apply ext1_cases.
  - rewrite ext1_x. now rewrite !upd_same.
  - intros z Lz Zx Z1. rewrite ext1_o, !upd_other by auto. auto.
Qed.
End Ext1.
Lemma lbij_del2 b b' b2 b2' f x y : lbij b b' f -> live b x -> live b y ->
  (forall z, live b2 z <-> live b z /\ z <> x /\ z <> y) -> (forall z, live b2' z <-> live b' z /\ z <> f x /\ z <> f y) -> lbij b2 b2' f.
Proof.
  intros (L1 & Inj & Sur) Lx Ly H H'. split; [|split].
  - intros z Lz. apply H in Lz as (Lz & Nx & Ny). apply H'. split; [auto|]. repeat split; auto.
  - intros z w Lz Lw. apply H in Lz, Lw. apply Inj; tauto.
  - intros z Lz. apply H' in Lz as (Lz & Nx & Ny). destruct (Sur z Lz) as (w & Lw & <-). exists w. split; auto. apply H. split; [auto|split; intros ->; auto].
Qed.
Lemma lbij_del1 b b' b2 b2' f x : lbij b b' f -> live b x ->
  (forall z, live b2 z <-> live b z /\ z <> x) -> (forall z, live b2' z <-> live b' z /\ z <> f x) -> lbij b2 b2' f.
Proof.
  intros (L1 & Inj & Sur) Lx H H'. split; [|split].
  - intros z Lz. apply H in Lz as (Lz & Nx). apply H'. split; [auto|]. repeat split; auto.
  - intros z w Lz Lw. apply H in Lz, Lw. apply Inj; tauto.
  - intros z Lz. apply H' in Lz as (Lz & Nx). destruct (Sur z Lz) as (w & Lw & <-). exists w. split; auto. apply H. split; [auto|intros ->; auto].
Qed.
Lemma GWD_ext {N : Num} T x r1 r2 t1 t2 s1 s2 m e1 e2 : GWeightDir T x r1 r2 t1 t2 s1 s2 m false e1 = GWeightDir T x r1 r2 t1 t2 s1 s2 m false e2.
Proof. rewrite !GWeightDir_eq. destruct x; apply GWeight_ext. Qed.
Lemma WWD_ext {N : Num} T x r1 r2 t1 t2 s1 s2 wo m dl e1 e2 : m && dl = false ->
  WWeightDir T x r1 r2 t1 t2 s1 s2 wo m dl false e1 = WWeightDir T x r1 r2 t1 t2 s1 s2 wo m dl false e2.
Proof. intros Q. rewrite !WWeightDir_eq by auto. destruct x; apply WWeight_cong; auto; discriminate. Qed.

Section T.
Context {N : Num} (c : cfg) (C : cfg_ok c).
Notation D := (@diagram N).
Context (fv fg fw : nat -> nat) (d e : D) (HI : Inv c d) (HE : Inv c e) (A : alike0 fv fg fw d e).

Lemma t_v v : live (vB d) v -> live (vB e) (fv v). Proof. apply A. Qed.
Lemma t_g g : live (gB d) g -> live (gB e) (fg g). Proof. apply A. Qed.
Lemma t_w w : live (wB d) w -> live (wB e) (fw w). Proof. apply A. Qed.
Lemma t_vG v x : live (vB d) v -> v_G e (fv v) x = fg (v_G d v x). Proof. now apply (b_vG c fv fg fw d e HI HE A). Qed.
Lemma t_vW v : live (vB d) v -> v_W e (fv v) = fw (v_W d v). Proof. intros. now apply (b_vWD c fv fg fw d e HI HE A). Qed.
Lemma t_vD v : live (vB d) v -> v_D e (fv v) = v_D d v. Proof. intros. now apply (b_vWD c fv fg fw d e HI HE A). Qed.
Lemma t_gv g x : live (gB d) g -> g_ver e (fg g) x = fv (g_ver d g x). Proof. apply A. Qed.
Lemma t_wv w x : live (wB d) w -> w_ver e (fw w) x = fv (w_ver d w x). Proof. apply A. Qed.
Lemma t_wo w : live (wB d) w -> w_worm e (fw w) = w_worm d w. Proof. now apply (b_wo c fv fg fw d e HI HE A). Qed.
Lemma t_gh k : inrange k -> ghash e (kindex k) = ghash d (kindex k).
Proof. intros H. apply (b_gh c fv fg fw d e HI HE A). apply kindex_range in H. lia. Qed.
Lemma t_wh k : inrange k -> whash e (kabs k) = whash d (kabs k).
Proof. intros H. apply (b_wh c fv fg fw d e HI HE A). unfold inrange, kabs in *. lia. Qed.
Lemma t_S v : order d <> 0 -> live (vB d) v -> v_S e (fv v) = v_S d v.
Proof. intros O Lv. apply functional_extensionality. intros x. now apply A. Qed.
Lemma t_R v : order d <> 0 -> live (vB d) v -> v_R e (fv v) = v_R d v. Proof. intros O Lv. now apply A. Qed.
Lemma t_T v : order d <> 0 -> live (vB d) v -> v_T e (fv v) = v_T d v. Proof. intros O Lv. now apply A. Qed.
Lemma t_inj_v v v' : live (vB d) v -> live (vB d) v' -> fv v = fv v' -> v = v'. Proof. apply A. Qed.
Lemma t_inj_g v v' : live (gB d) v -> live (gB d) v' -> fg v = fg v' -> v = v'. Proof. apply A. Qed.
Lemma t_inj_w v v' : live (wB d) v -> live (wB d) v' -> fw v = fw v' -> v = v'. Proof. apply A. Qed.
Lemma t_gext T r1 r2 t1 t2 s1 s2 m g : live (gB d) g ->
  GWeight T r1 r2 t1 t2 s1 s2 m (g_gg d g) (uext e) = GWeight T r1 r2 t1 t2 s1 s2 m (g_gg d g) (uext d).
Proof. intros Lg. apply GWeight_uext. intros Q. now apply (b_ggext c fv fg fw d e HI A g). Qed.
Lemma t_gextD T x r1 r2 t1 t2 s1 s2 m g : live (gB d) g ->
  GWeightDir T x r1 r2 t1 t2 s1 s2 m (g_gg d g) (uext e) = GWeightDir T x r1 r2 t1 t2 s1 s2 m (g_gg d g) (uext d).
Proof. intros Lg. rewrite !GWeightDir_eq. destruct x; now apply t_gext. Qed.
Lemma t_wext T r1 r2 t1 t2 s1 s2 wo m dl w : live (wB d) w ->
  WWeight T r1 r2 t1 t2 s1 s2 wo m dl (w_ww d w) (uext e) = WWeight T r1 r2 t1 t2 s1 s2 wo m dl (w_ww d w) (uext d).
Proof. intros Lw. apply WWeight_cong; auto. intros Q. now apply (b_wwext c fv fg fw d e HI A w). Qed.
Lemma t_wextD T x r1 r2 t1 t2 s1 s2 wo m dl w : live (wB d) w -> m && dl = false ->
  WWeightDir T x r1 r2 t1 t2 s1 s2 wo m dl (w_ww d w) (uext e) = WWeightDir T x r1 r2 t1 t2 s1 s2 wo m dl (w_ww d w) (uext d).
Proof. intros Lw Q. rewrite !WWeightDir_eq by auto. destruct x; now apply t_wext. Qed.
Definition moves (R : D -> real -> D -> D -> Prop) (d' : D) : Prop :=
  exists p2 e' r2, R e p2 e' r2 /\ exists fv' fg' fw', alike0 fv' fg' fw' d' e'.

Ltac keeps := constructor;
  [try exact (a0_v _ _ _ _ _ A) | try exact (a0_g _ _ _ _ _ A) | try exact (a0_w _ _ _ _ _ A) | try exact (a0_order _ _ _ _ _ A) | try exact (a0_sfl _ _ _ _ _ A)
  |try exact (a0_gv _ _ _ _ _ A) | try exact (a0_wv _ _ _ _ _ A) | try exact (a0_gK _ _ _ _ _ A) | try exact (a0_gm _ _ _ _ _ A) | try exact (a0_gg _ _ _ _ _ A)
  |try exact (a0_wK _ _ _ _ _ A) | try exact (a0_wm _ _ _ _ _ A) | try exact (a0_wd _ _ _ _ _ A) | try exact (a0_ww _ _ _ _ _ A)
  |try exact (a0_R _ _ _ _ _ A) | try exact (a0_T _ _ _ _ _ A) | try exact (a0_S _ _ _ _ _ A) | try exact (a0_ex _ _ _ _ _ A) | try exact (a0_worm _ _ _ _ _ A)
  |try exact (a0_mG _ _ _ _ _ A) | try exact (a0_gamma _ _ _ _ _ A) | try exact (a0_ext _ _ _ _ _ A)].
Ltac tw O := rewrite ?t_gv, ?t_wv, ?t_vG, ?t_vW, ?t_vD, ?(t_R _ O), ?(t_T _ O), ?(t_S _ O), ?t_wo, ?(a0_gm _ _ _ _ _ A), ?(a0_gg _ _ _ _ _ A), ?(a0_wm _ _ _ _ _ A), ?(a0_wd _ _ _ _ _ A), ?(a0_ww _ _ _ _ _ A),
  ?(a0_gK _ _ _ _ _ A), ?(a0_wK _ _ _ _ _ A) by eauto with inv.

Lemma create_move p d' r : create_rel c d p d' r -> moves (create_rel c) d'.
Proof.
  intros H. destruct H as [w vi vo kM kW ds wW Ho Hex Lw Evi Evo RkM EkW NkW HkW Hds Hcan HwW].
  assert (Oe : order e <> 0) by (rewrite (a0_order _ _ _ _ _ A); exact Ho).
  assert (RK : inrange (w_K d w)) by eauto with inv. destruct (ksub_spec (w_K d w) kM RK RkM) as [RkW _]. rewrite <- EkW in RkW.
  eexists _, _, _. split.
  - apply (create_i c e (fw w) (fv vi) (fv vo) kM kW ds wW); auto.
    + rewrite (a0_ex _ _ _ _ _ A). exact Hex.
    + now apply t_w.
    + subst vi. now rewrite t_wv.
    + subst vo. now rewrite t_wv.
    + now rewrite (a0_wK _ _ _ _ _ A).
    + now rewrite t_wh.
    + subst vi vo. tw Ho. exact Hcan.
    + subst vi vo. tw Ho. rewrite t_wext; auto.
  - exists fv, fg, fw. keeps.
    + intros z Lz. apply (upd_same_ren _ _ _ _ _ _ _ (a0_w _ _ _ _ _ A) Lw (a0_wK _ _ _ _ _ A) z Lz).
    + reflexivity.
    + intros _. repeat split.
Qed.

Lemma t_ira : wm_ex d = true -> ira e = fv (ira d). Proof. intros X. now apply (a0_worm _ _ _ _ _ A). Qed.
Lemma t_masha : wm_ex d = true -> masha e = fv (masha d). Proof. intros X. now apply (a0_worm _ _ _ _ _ A). Qed.
Lemma t_wmK : wm_ex d = true -> wm_K e = wm_K d. Proof. intros X. now apply (a0_worm _ _ _ _ _ A). Qed.
Lemma t_wmds : wm_ex d = true -> wm_ds e = wm_ds d. Proof. intros X. now apply (a0_worm _ _ _ _ _ A). Qed.
Lemma t_kw w v : wm_ex d = true -> live (wB d) w -> inrange (kadd (w_K d w) (kscale (SIGN (v_D d v)) (wm_K d))).
Proof. intros X L. apply kadd_spec; [eauto with inv|]. apply kscale_spec; [destruct (v_D d v); cbn; lia|apply (f_wo HI X)]. Qed.

Lemma delete_move p d' r : delete_rel c d p d' r -> moves (delete_rel c) d'.
Proof.
  intros H. destruct H as [w k wW Ho Hex Ew Ew' Ek Hk Hh HW].
  assert (Oe : order e <> 0) by (rewrite (a0_order _ _ _ _ _ A); exact Ho).
  assert (Li := f_li HI Hex). assert (Lm := f_lm HI Hex).
  assert (Lw : live (wB d) w) by (subst w; eauto with inv).
  assert (Rk : inrange k) by (subst k; now apply t_kw).
  eexists _, _, _. split.
  - apply (delete_i c e (fw w) k wW); auto; rewrite ?(t_ira Hex), ?(t_masha Hex), ?(t_wmK Hex); tw Ho; try congruence.
    + now rewrite (a0_ex _ _ _ _ _ A).
    + now rewrite t_wh.
    + rewrite t_wextD; eauto with inv.
  - exists fv, fg, fw. keeps.
    + intros z Lz. apply (upd_same_ren _ _ _ _ _ _ _ (a0_w _ _ _ _ _ A) Lw (a0_wK _ _ _ _ _ A) z Lz).
    + reflexivity.
    + discriminate.
Qed.
Lemma moveW_move p d' r : moveW_rel c d p d' r -> moves (moveW_rel c) d'.
Proof.
  intros H. destruct H as [v1 w v2 k wW Ho Hex E1 Ew E2 N1 N2 Ek Hk Hh HW].
  assert (Oe : order e <> 0) by (rewrite (a0_order _ _ _ _ _ A); exact Ho).
  assert (Li := f_li HI Hex). assert (Lm := f_lm HI Hex).
  assert (L1 : live (vB d) v1) by (now subst v1).
  assert (Lw : live (wB d) w) by (subst w; eauto with inv).
  assert (L2 : live (vB d) v2) by (subst v2; eauto with inv).
  assert (Rk : inrange k) by (subst k; now apply t_kw).
  eexists _, _, _. split.
  - apply (moveW_i c e (fv v1) (fw w) (fv v2) k wW); auto; rewrite ?(t_ira Hex), ?(t_masha Hex), ?(t_wmK Hex); tw Ho; try congruence.
    + now rewrite (a0_ex _ _ _ _ _ A).
    + intros Q. apply N1. now apply t_inj_v.
    + intros Q. apply N2. now apply t_inj_v.
    + now rewrite t_wh.
    + rewrite t_wextD; eauto with inv.
  - exists fv, fg, fw. keeps.
    + intros z Lz. apply (upd_same_ren _ _ _ _ _ _ _ (a0_w _ _ _ _ _ A) Lw (a0_wK _ _ _ _ _ A) z Lz).
    + intros _. change (fv v2 = fv v2 /\ masha e = fv (masha d) /\ wm_K e = wm_K d /\ wm_ds e = wm_ds d).
      repeat split; [apply t_masha|apply t_wmK|apply t_wmds]; auto.
Qed.
Lemma t_eqb v v' : live (vB d) v -> live (vB d) v' -> Nat.eqb (fv v) (fv v') = Nat.eqb v v'.
Proof. intros L L'. apply eq_true_iff_eq. rewrite !Nat.eqb_eq. split; [apply t_inj_v; auto|congruence]. Qed.
Lemma t_worm v : live (vB d) v -> IsWorm e (fv v) = IsWorm d v.
Proof.
  intros Lv. unfold IsWorm. rewrite (a0_ex _ _ _ _ _ A). destruct (wm_ex d) eqn:X; auto.
  rewrite (t_ira X), (t_masha X). cbn [andb]. rewrite !t_eqb; eauto with inv.
Qed.
Lemma moveG_move p d' r : moveG_rel c d p d' r -> moves (moveG_rel c) d'.
Proof.
  intros H. destruct H as [dr g v1 v2 k w1 vW1 w2 vW2 iw1 s1 s2 w1W w2W gW Ho Hex E1 Eg E2 N1 N2 Hc Ek Hh Ew1 EW1 Ew2 EW2 Eiw Es1 Es2 H1 H2 H3].
  assert (Oe : order e <> 0) by (rewrite (a0_order _ _ _ _ _ A); exact Ho).
  assert (Li := f_li HI Hex). assert (Lm := f_lm HI Hex).
  assert (L1 : live (vB d) v1) by (now subst v1).
  assert (Lg : live (gB d) g) by (subst g; eauto with inv).
  assert (L2 : live (vB d) v2) by (subst v2; eauto with inv).
  assert (Lw1 : live (wB d) w1) by (subst w1; eauto with inv).
  assert (Lw2 : live (wB d) w2) by (subst w2; eauto with inv).
  assert (LW1 : live (vB d) vW1) by (subst vW1; eauto with inv).
  assert (LW2 : live (vB d) vW2) by (subst vW2; eauto with inv).
  assert (Rk : inrange k). { subst k. apply ksub_spec; [eauto with inv|]. apply kscale_spec; [destruct dr; cbn; lia|apply (f_wo HI Hex)]. }
  eexists _, _, _. split.
  - apply (moveG_i c e dr (fg g) (fv v1) (fv v2) k (fw w1) (fv vW1) (fw w2) (fv vW2) iw1 s1 s2 w1W w2W gW); auto;
      rewrite ?(t_ira Hex), ?(t_masha Hex), ?(t_wmK Hex), ?(t_wmds Hex); tw Ho; try congruence.
    + now rewrite (a0_ex _ _ _ _ _ A).
    + intros Q. apply N1. now apply t_inj_v.
    + intros Q. apply N2. now apply t_inj_v.
    + now rewrite t_gh.
    + rewrite t_eqb, t_worm by auto. exact Eiw.
    + rewrite t_wextD; eauto with inv.
    + rewrite t_wextD; eauto with inv.
    + rewrite t_gextD; eauto with inv.
  - exists fv, fg, fw. keeps.
    + intros z Lz. apply (upd_same_ren _ _ _ _ _ _ _ (a0_g _ _ _ _ _ A) Lg (a0_gK _ _ _ _ _ A) z Lz).
    + intros _ z x Lz. refine (f_equal (fun f => f x) _).
      apply (upd_same_ren _ _ _ _ _ _ _ (a0_v _ _ _ _ _ A) L2); auto. clear z Lz. intros z Lz.
      apply (upd_same_ren _ _ _ _ _ _ _ (a0_v _ _ _ _ _ A) L1); auto. intros y Ly. now apply t_S.
    + intros _. change (fv v2 = fv v2 /\ masha e = fv (masha d) /\ wm_K e = wm_K d /\ wm_ds e = wm_ds d).
      repeat split; [apply t_masha|apply t_wmK|apply t_wmds]; auto.
Qed.
Lemma reconnect_move p d' r : reconnect_rel c d p d' r -> moves (reconnect_rel c) d'.
Proof.
  intros H. destruct H as [I Ma dr GIA GMB k vA vB' gi gm Ho Hex EI EM ER EG1 EG2 ES Ek EA EB H1 H2].
  assert (Oe : order e <> 0) by (rewrite (a0_order _ _ _ _ _ A); exact Ho).
  assert (LI : live (vB d) I) by (subst I; apply (f_li HI Hex)). assert (LM : live (vB d) Ma) by (subst Ma; apply (f_lm HI Hex)).
  assert (L1 : live (gB d) GIA) by (subst GIA; eauto with inv).
  assert (L2 : live (gB d) GMB) by (subst GMB; eauto with inv).
  assert (LA : live (vB d) vA) by (subst vA; eauto with inv).
  assert (LB : live (vB d) vB') by (subst vB'; eauto with inv).
  eexists _, _, _. split.
  - apply (reconnect_i c e (fv I) (fv Ma) dr (fg GIA) (fg GMB) k (fv vA) (fv vB') gi gm); auto;
      rewrite ?(t_ira Hex), ?(t_masha Hex), ?(t_wmK Hex), ?(t_wmds Hex); tw Ho; try congruence.
    + now rewrite (a0_ex _ _ _ _ _ A).
    + rewrite t_gextD; eauto with inv.
    + rewrite t_gextD; eauto with inv.
  - exists fv, fg, fw. keeps.
    + change (rmul (sfl e) (rofZ (-1)) = rmul (sfl d) (rofZ (-1))). now rewrite (a0_sfl _ _ _ _ _ A).
    + intros z x Lz. apply (upd2_ren _ _ _ _ _ _ _ _ _ (a0_g _ _ _ _ _ A) L2); auto. clear z x Lz. intros z x Lz.
      apply (upd2_ren _ _ _ _ _ _ _ _ _ (a0_g _ _ _ _ _ A) L1); auto. intros. now apply t_gv.
    + intros _. change (ira e = fv (ira d) /\ masha e = fv (masha d) /\ k = k /\ wm_ds e = wm_ds d).
      repeat split; [apply t_ira|apply t_masha|apply t_wmds]; auto.
Qed.
Lemma tau_move p d' r : tau_rel c d p d' r -> moves (tau_rel c) d'.
Proof.
  intros H. destruct H as [v w gi go vi vo vW t giW goW wW Ho Hex Lv Ew Hd Ht Egi Ego Ng Evi Evo EvW H1 H2 H3].
  assert (Oe : order e <> 0) by (rewrite (a0_order _ _ _ _ _ A); exact Ho).
  assert (Lw : live (wB d) w) by (subst w; eauto with inv).
  assert (L1 : live (gB d) gi) by (subst gi; eauto with inv).
  assert (L2 : live (gB d) go) by (subst go; eauto with inv).
  assert (Li : live (vB d) vi) by (subst vi; eauto with inv).
  assert (LO : live (vB d) vo) by (subst vo; eauto with inv).
  assert (LW : live (vB d) vW) by (subst vW; eauto with inv).
  eexists _, _, _. split.
  - apply (tau_i c e (fv v) (fw w) (fg gi) (fg go) (fv vi) (fv vo) (fv vW) t giW goW wW); auto; tw Ho; try congruence.
    + now rewrite (a0_ex _ _ _ _ _ A).
    + now apply t_v.
    + intros Q. apply Ng. now apply t_inj_g.
    + rewrite t_gext; auto.
    + rewrite t_gext; auto.
    + rewrite t_wextD; eauto with inv.
  - exists fv, fg, fw. keeps.
    intros _ z Lz. apply (upd_same_ren _ _ _ _ _ _ _ (a0_v _ _ _ _ _ A) Lv (a0_T _ _ _ _ _ A Ho) z Lz).
Qed.
Lemma delta_move td p d' r : delta_rel td c d p d' r -> moves (delta_rel td c) d'.
Proof.
  intros H. destruct H as [w vi vo G1 G2 v1 v2 t wW W1 W2 Ho Hex Lw Hd Hm Hww Evi Evo EG1 EG2 NG Ev1 Ev2 T0 T1 H1 H2 H3].
  assert (Ho' : order d <> 0) by lia.
  assert (Oe : 2 <= order e) by (rewrite (a0_order _ _ _ _ _ A); exact Ho).
  assert (Li : live (vB d) vi) by (subst vi; eauto with inv).
  assert (LO : live (vB d) vo) by (subst vo; eauto with inv).
  assert (L1 : live (gB d) G1) by (subst G1; eauto with inv).
  assert (L2 : live (gB d) G2) by (subst G2; eauto with inv).
  assert (La : live (vB d) v1) by (subst v1; eauto with inv).
  assert (Lb : live (vB d) v2) by (subst v2; eauto with inv).
  eexists _, _, _. split.
  - apply (delta_i td c e (fw w) (fv vi) (fv vo) (fg G1) (fg G2) (fv v1) (fv v2) t wW W1 W2); auto; tw Ho'; try congruence.
    + now rewrite (a0_ex _ _ _ _ _ A).
    + now apply t_w.
    + intros Q. apply NG. now apply t_inj_g.
    + exact T1.
    + rewrite t_wext; auto.
    + rewrite t_gext; auto.
    + rewrite t_gextD; auto.
  - exists fv, fg, fw. keeps.
    + intros z Lz. apply (upd_same_ren _ _ _ _ _ _ _ (a0_w _ _ _ _ _ A) Lw (a0_wd _ _ _ _ _ A) z Lz).
    + intros _ z Lz. apply (upd_same_ren _ _ _ _ _ _ _ (a0_v _ _ _ _ _ A) LO (a0_T _ _ _ _ _ A Ho') z Lz).
Qed.
Lemma g2w_move p d' r : g2w_rel c d p d' r -> moves (g2w_rel c) d'.
Proof.
  intros H. destruct H as [g w gW wW Ho Hex Hm Hg Lw Hd Eg H1 H2].
  assert (Oe : order e <> 0) by (rewrite (a0_order _ _ _ _ _ A); exact Ho).
  assert (B := b_meas c fv fg fw d e HI HE A). rewrite Hm in B.
  assert (M := i_meas _ _ HI). unfold Meas in M. rewrite Hm in M. destruct M as (Lg & _ & _). rewrite <- Eg in Lg, B.
  eexists _, _, _. split.
  - apply (g2w_i c e (fg g) (fw w) gW wW); auto; tw Ho; try congruence.
    + now rewrite (a0_ex _ _ _ _ _ A).
    + now rewrite (a0_mG _ _ _ _ _ A).
    + now rewrite (a0_gamma _ _ _ _ _ A).
    + now apply t_w.
    + rewrite (GWeight_ext _ _ _ _ _ _ _ _ _ (uext d)). exact H1.
    + rewrite (WWeight_cong _ _ _ _ _ _ _ (v_S d (w_ver d w IN)) (v_S d (w_ver d w OUT)) _ _ _ _ _ (uext d)); auto. discriminate.
  - exists fv, fg, fw. keeps.
    + intros z Lz. apply (upd_same_ren _ _ _ _ _ _ _ (a0_g _ _ _ _ _ A) Lg (a0_gm _ _ _ _ _ A) z Lz).
    + intros z Lz. apply (upd_same_ren _ _ _ _ _ _ _ (a0_w _ _ _ _ _ A) Lw (a0_wm _ _ _ _ _ A) z Lz).
    + reflexivity.
Qed.
Lemma w2g_move p d' r : w2g_rel c d p d' r -> moves (w2g_rel c) d'.
Proof.
  intros H. destruct H as [g w gW wW Ho Hex Hm Hg Lg Hd Ew H1 H2].
  assert (Oe : order e <> 0) by (rewrite (a0_order _ _ _ _ _ A); exact Ho).
  assert (B := b_meas c fv fg fw d e HI HE A). rewrite Hm in B.
  assert (M := i_meas _ _ HI). unfold Meas in M. rewrite Hm in M. destruct M as (Lw & _ & _). rewrite <- Ew in Lw, B.
  eexists _, _, _. split.
  - apply (w2g_i c e (fg g) (fw w) gW wW); auto; tw Ho; try congruence.
    + now rewrite (a0_ex _ _ _ _ _ A).
    + now rewrite (a0_mG _ _ _ _ _ A).
    + now rewrite (a0_gamma _ _ _ _ _ A).
    + now apply t_g.
    + rewrite (GWeight_ext _ _ _ _ _ _ _ _ _ (uext d)). exact H1.
    + rewrite (WWeight_cong _ _ _ _ _ _ _ (v_S d (w_ver d w IN)) (v_S d (w_ver d w OUT)) _ _ _ _ _ (uext d)); auto. discriminate.
  - exists fv, fg, fw. keeps.
    + intros z Lz. apply (upd_same_ren _ _ _ _ _ _ _ (a0_g _ _ _ _ _ A) Lg (a0_gm _ _ _ _ _ A) z Lz).
    + intros z Lz. apply (upd_same_ren _ _ _ _ _ _ _ (a0_w _ _ _ _ _ A) Lw (a0_wm _ _ _ _ _ A) z Lz).
    + reflexivity.
Qed.
Lemma toGG_move p d' r : toGG_rel c d p d' r -> moves (toGG_rel c) d'.
Proof.
  intros H. destruct H as [g t ext wt Ho Hex Hg H3 Lg Hm Ht Ee H1].
  assert (Oe : order e <> 0) by (rewrite (a0_order _ _ _ _ _ A); exact Ho).
  eexists _, _, _. split.
  - apply (toGG_i c e (fg g) t ext wt); auto; tw Ho; try congruence.
    + now rewrite (a0_ex _ _ _ _ _ A).
    + now rewrite (a0_gamma _ _ _ _ _ A).
    + now apply t_g.
  - exists fv, fg, fw. keeps.
    + intros z Lz. apply (upd_same_ren _ _ _ _ _ _ _ (a0_g _ _ _ _ _ A) Lg (a0_gg _ _ _ _ _ A) z Lz).
    + reflexivity.
    + reflexivity.
Qed.
Lemma fromGG_move p d' r : fromGG_rel c d p d' r -> moves (fromGG_rel c) d'.
Proof.
  intros H. destruct H as [g wt Ho Hex Hg Lg Hm Hgg He ER H1].
  assert (Oe : order e <> 0) by (rewrite (a0_order _ _ _ _ _ A); exact Ho).
  assert (U : uext e = uext d) by (apply A; lia).
  eexists _, _, _. split.
  - apply (fromGG_i c e (fg g) wt); auto; tw Ho; try congruence.
    + now rewrite (a0_ex _ _ _ _ _ A).
    + now rewrite (a0_gamma _ _ _ _ _ A).
    + now apply t_g.
  - exists fv, fg, fw. keeps.
    + intros z Lz. apply (upd_same_ren _ _ _ _ _ _ _ (a0_g _ _ _ _ _ A) Lg (a0_gg _ _ _ _ _ A) z Lz).
    + reflexivity.
    + intros Q. now destruct Q.
Qed.
Lemma toWW_move p d' r : toWW_rel c d p d' r -> moves (toWW_rel c) d'.
Proof.
  intros H. destruct H as [w t r ext wt Ho Hex Hg H3 Lw Hm Hd Ht Hs Ee H1].
  assert (Oe : order e <> 0) by (rewrite (a0_order _ _ _ _ _ A); exact Ho).
  eexists _, _, _. split.
  - apply (toWW_i c e (fw w) t r ext wt); auto; tw Ho; try congruence.
    + now rewrite (a0_ex _ _ _ _ _ A).
    + now rewrite (a0_gamma _ _ _ _ _ A).
    + now apply t_w.
  - exists fv, fg, fw. keeps.
    + intros z Lz. apply (upd_same_ren _ _ _ _ _ _ _ (a0_w _ _ _ _ _ A) Lw (a0_ww _ _ _ _ _ A) z Lz).
    + reflexivity.
    + reflexivity.
Qed.
Lemma fromWW_move p d' r : fromWW_rel c d p d' r -> moves (fromWW_rel c) d'.
Proof.
  intros H. destruct H as [w wt Ho Hex Hg Lw Hm Hd Hww He H1].
  assert (Oe : order e <> 0) by (rewrite (a0_order _ _ _ _ _ A); exact Ho).
  assert (U : uext e = uext d) by (apply A; lia).
  eexists _, _, _. split.
  - apply (fromWW_i c e (fw w) wt); auto; tw Ho; try congruence.
    + now rewrite (a0_ex _ _ _ _ _ A).
    + now rewrite (a0_gamma _ _ _ _ _ A).
    + now apply t_w.
  - exists fv, fg, fw. keeps.
    + intros z Lz. apply (upd_same_ren _ _ _ _ _ _ _ (a0_w _ _ _ _ _ A) Lw (a0_ww _ _ _ _ _ A) z Lz).
    + reflexivity.
    + intros Q. now destruct Q.
Qed.
Lemma to0_move p d' r : to0_rel c d p d' r -> moves (to0_rel c) d'.
Proof.
  intros H. destruct H as [o0 o1 Ho Hex Hg H0 H1].
  eexists _, _, _. split.
  - apply (to0_i c e o0 o1); auto.
    + now rewrite (a0_order _ _ _ _ _ A).
    + now rewrite (a0_ex _ _ _ _ _ A).
    + now rewrite (a0_gamma _ _ _ _ _ A).
  - exists fv, fg, fw. keeps.
    + reflexivity.
    + intros Q. now destruct Q.
    + intros Q. now destruct Q.
    + intros Q. now destruct Q.
Qed.
Lemma del_move de p d' r : del_rel de c d p d' r -> moves (del_rel de c) d'.
Proof.
  intros H.
  destruct H as [I Ma dr GIA GMB vA vB' wAB GAC GBD vC vD kM gIC gMD om o0 bv1 bv bg1 bg bw Hex Ho EI EMa EGIA EGMB
    MA GA MB GB EvA EvB SvA SvB EwA EwB Hme Hwo Hde Hww EGAC EGBD EvC EvD EkM HgIC HgMD Hom Ho0' Bv1 Bv Bg1 Bg Bw].
  assert (Ho0 : order d <> 0) by lia.
  assert (LI : live (vB d) I) by (subst I; apply (f_li HI Hex)). assert (LM : live (vB d) Ma) by (subst Ma; apply (f_lm HI Hex)).
  destruct (f_wo HI Hex) as (_ & _ & Nim & _). rewrite <- EI, <- EMa in Nim.
  assert (LGIA : live (gB d) GIA) by (subst GIA; eauto with inv).
  assert (LGMB : live (gB d) GMB) by (subst GMB; eauto with inv).
  assert (LvA : live (vB d) vA) by (subst vA; eauto with inv).
  assert (LvB : live (vB d) vB') by (subst vB'; eauto with inv).
  assert (LwAB : live (wB d) wAB) by (rewrite EwA; eauto with inv).
  assert (LGAC : live (gB d) GAC) by (subst GAC; eauto with inv).
  assert (LGBD : live (gB d) GBD) by (subst GBD; eauto with inv).
  assert (LvC : live (vB d) vC) by (subst vC; eauto with inv).
  assert (LvD : live (vB d) vD) by (subst vD; eauto with inv).
  assert (NGAB : GIA <> GMB). { intros E. apply Nim. apply (f_vg_inj HI I Ma dr); auto. congruence. }
  assert (NvAB : vA <> vB'). { intros E. apply NGAB. apply (f_gv_inj HI GIA GMB dr); auto. congruence. }
  destruct (bremove2_spec _ _ _ _ _ (i_bv _ _ HI) LvA LvB NvAB Bv1 Bv) as (BV & AV & LV).
  destruct (bremove2_spec _ _ _ _ _ (i_bg _ _ HI) LGIA LGMB NGAB Bg1 Bg) as (BG & AG & LG).
  destruct (bremove1_spec _ _ _ (i_bw _ _ HI) LwAB Bw) as (BW & AW & LW).
  assert (NG' : fg GIA <> fg GMB) by (intros Q; apply NGAB; now apply t_inj_g).
  assert (NV' : fv vA <> fv vB') by (intros Q; apply NvAB; now apply t_inj_v).
  destruct (bremove2_ok (vB e) (fv vA) (fv vB') (i_bv _ _ HE) (t_v _ LvA) (t_v _ LvB) NV') as (rv1 & rv & Rv1 & Rv).
  destruct (bremove2_ok (gB e) (fg GIA) (fg GMB) (i_bg _ _ HE) (t_g _ LGIA) (t_g _ LGMB) NG') as (rg1 & rg & Rg1 & Rg).
  destruct (bremove_spec (wB e) (fw wAB) (i_bw _ _ HE) (t_w _ LwAB)) as (rw & Rw & _ & _ & LRW & _).
  destruct (bremove2_spec _ _ _ _ _ (i_bv _ _ HE) (t_v _ LvA) (t_v _ LvB) NV' Rv1 Rv) as (_ & _ & LRV).
  destruct (bremove2_spec _ _ _ _ _ (i_bg _ _ HE) (t_g _ LGIA) (t_g _ LGMB) NG' Rg1 Rg) as (_ & _ & LRG).
  assert (oG : forall z, live bg z -> live (gB d) z) by (intros z Lz; now apply LG in Lz).
  assert (oV : forall z, live bv z -> live (vB d) z) by (intros z Lz; now apply LV in Lz).
  assert (oW : forall z, live bw z -> live (wB d) z) by (intros z Lz; now apply LW in Lz).
  eexists _, _, _. split.
  - apply (del_i de c e (fv I) (fv Ma) dr (fg GIA) (fg GMB) (fv vA) (fv vB') (fw wAB) (fg GAC) (fg GBD) (fv vC) (fv vD) kM gIC gMD om o0 rv1 rv rg1 rg rw); auto;
      rewrite ?(t_ira Hex), ?(t_masha Hex), ?(t_wmK Hex), ?(t_wmds Hex); tw Ho0; try congruence;
      rewrite ?(a0_ex _ _ _ _ _ A), ?(a0_order _ _ _ _ _ A); try assumption; rewrite t_gextD; eauto with inv.
  - exists fv, fg, fw. constructor; try reflexivity.
    + exact (lbij_del2 _ _ _ _ _ _ _ (a0_v _ _ _ _ _ A) LvA LvB LV LRV).
    + exact (lbij_del2 _ _ _ _ _ _ _ (a0_g _ _ _ _ _ A) LGIA LGMB LG LRG).
    + exact (lbij_del1 _ _ _ _ _ _ (a0_w _ _ _ _ _ A) LwAB LW LRW).
    + change (order e - 1 = order d - 1). now rewrite (a0_order _ _ _ _ _ A).
    + exact (a0_sfl _ _ _ _ _ A).
    + intros z x Lz. apply oG in Lz. revert z x Lz. intros z x Lz.
      apply (upd2_ren _ _ _ _ _ _ _ _ _ (a0_g _ _ _ _ _ A) LGBD); auto. clear z x Lz. intros z x Lz.
      apply (upd2_ren _ _ _ _ _ _ _ _ _ (a0_g _ _ _ _ _ A) LGAC); auto. intros. now apply t_gv.
    + intros z x Lz. exact (a0_wv _ _ _ _ _ A z x (oW z Lz)).
    + intros z Lz. exact (a0_gK _ _ _ _ _ A z (oG z Lz)).
    + intros z Lz. exact (a0_gm _ _ _ _ _ A z (oG z Lz)).
    + intros z Lz. exact (a0_gg _ _ _ _ _ A z (oG z Lz)).
    + intros z Lz. exact (a0_wK _ _ _ _ _ A z (oW z Lz)).
    + intros z Lz. exact (a0_wm _ _ _ _ _ A z (oW z Lz)).
    + intros z Lz. exact (a0_wd _ _ _ _ _ A z (oW z Lz)).
    + intros z Lz. exact (a0_ww _ _ _ _ _ A z (oW z Lz)).
    + intros _ z Lz. exact (a0_R _ _ _ _ _ A Ho0 z (oV z Lz)).
    + intros _ z Lz. exact (a0_T _ _ _ _ _ A Ho0 z (oV z Lz)).
    + intros _ z x Lz. exact (a0_S _ _ _ _ _ A Ho0 z x (oV z Lz)).
    + exact (a0_ex _ _ _ _ _ A).
    + intros _. change (ira e = fv (ira d) /\ masha e = fv (masha d) /\ kM = kM /\ wm_ds e = wm_ds d).
      repeat split; [apply t_ira|apply t_masha|apply t_wmds]; auto.
    + exact (a0_mG _ _ _ _ _ A).
    + exact (a0_gamma _ _ _ _ _ A).
    + exact (a0_ext _ _ _ _ _ A).
Qed.
Lemma add_move de p d' r : add_rel de c d p d' r -> moves (add_rel de c) d'.
Proof.
  intros H.
  destruct H as [I Ma dr dw GIC GMD kW kIA kMB kM vC vD tA tB sA sB wW gIA gMB gAC gBD o1 o0
    vA vB' GIA GMB WAB bv1 bv bg1 bg bw Hex Ho Hoc EI EMa RkW NkW HkW EGIC EGMD EkIA EkMB EkM HkIA HkMB NkAB
    HtA HtB Htd EsA EsB EvC EvD HwW HgIA HgMB HgAC HgBD Ho1 Ho0 Bv1 Bv Bg1 Bg Bw].
  destruct (f_wo HI Hex) as (Li & Lm & Nim & Dm & _ & Hds & RK & HW).
  destruct (f_cnt c d HI Ho) as (Ao & Ag & Av & Hoo). pose proof (co_order c C) as Hco.
  assert (Av' := lbij_av _ _ _ (i_bv _ _ HI) (i_bv _ _ HE) (a0_v _ _ _ _ _ A)).
  assert (Ag' := lbij_av _ _ _ (i_bg _ _ HI) (i_bg _ _ HE) (a0_g _ _ _ _ _ A)).
  assert (Aw' := lbij_av _ _ _ (i_bw _ _ HI) (i_bw _ _ HE) (a0_w _ _ _ _ _ A)).
  rewrite <- EI, <- EMa in *.
  assert (LGIC : live (gB d) GIC) by (subst GIC; eauto with inv).
  assert (LGMD : live (gB d) GMD) by (subst GMD; eauto with inv).
  assert (NGCD : GIC <> GMD). { intros E. apply Nim. apply (f_vg_inj HI I Ma dr); auto. congruence. }
  assert (LvC : live (vB d) vC) by (subst vC; eauto with inv).
  assert (LvD : live (vB d) vD) by (subst vD; eauto with inv).
  assert (P1 : (avail (vB d) < 19)%nat) by lia. assert (P2 : (avail (gB d) < 19)%nat) by lia. assert (P3 : (avail (wB d) < 20)%nat) by lia.
  assert (P1' : (avail (vB e) < 19)%nat) by lia. assert (P2' : (avail (gB e) < 19)%nat) by lia. assert (P3' : (avail (wB e) < 20)%nat) by lia.
  destruct (badd2_ok _ (i_bv _ _ HE) P1') as (vA1 & av1 & vB1 & av & Av1 & Av2).
  destruct (badd2_ok _ (i_bg _ _ HE) P2') as (GI1 & ag1 & GM1 & ag & Ag1 & Ag2).
  destruct (badd_spec _ (i_bw _ _ HE) P3') as (W1 & aw & Aw1 & _).
  destruct (badd2_spec _ _ _ _ _ (i_bv _ _ HI) P1 Bv1 Bv) as (BV & AV & NvAB & NvA & NvB & LV).
  destruct (badd2_spec _ _ _ _ _ (i_bg _ _ HI) P2 Bg1 Bg) as (BG & AG & NgAB & NgA & NgB & LG).
  destruct (badd1_spec _ _ _ (i_bw _ _ HI) P3 Bw) as (BW & AW & NwA & LW).
  destruct (badd2_spec _ _ _ _ _ (i_bv _ _ HE) P1' Av1 Av2) as (BVn & AVn & NvAB1 & NvA1 & NvB1 & LVn).
  destruct (badd2_spec _ _ _ _ _ (i_bg _ _ HE) P2' Ag1 Ag2) as (BGn & AGn & NgAB1 & NgA1 & NgB1 & LGn).
  destruct (badd1_spec _ _ _ (i_bw _ _ HE) P3' Aw1) as (BWn & AWn & NwA1 & LWn).
  assert (RkIA : inrange kIA). { subst kIA. apply ksub_spec; [eauto with inv|]. apply kscale_spec; [destruct dr, dw; cbn; lia|exact RkW]. }
  assert (RkMB : inrange kMB). { subst kMB. apply kadd_spec; [eauto with inv|]. apply kscale_spec; [destruct dr, dw; cbn; lia|exact RkW]. }
  set (fv' := upd (upd fv vA vA1) vB' vB1). set (fg' := upd (upd fg GIA GI1) GMB GM1). set (fw' := upd fw WAB W1).
  assert (BVl := a0_v _ _ _ _ _ A). assert (BGl := a0_g _ _ _ _ _ A). assert (BWl := a0_w _ _ _ _ _ A).
  assert (oV : forall z, live (vB d) z -> fv' z = fv z) by exact (ext2_o _ fv vA vB' vA1 vB1 NvA NvB).
  assert (xV : fv' vA = vA1) by exact (ext2_x fv vA vB' vA1 vB1 NvAB).
  assert (yV : fv' vB' = vB1) by exact (ext2_y fv vA vB' vA1 vB1).
  assert (oG : forall z, live (gB d) z -> fg' z = fg z) by exact (ext2_o _ fg GIA GMB GI1 GM1 NgA NgB).
  assert (xG : fg' GIA = GI1) by exact (ext2_x fg GIA GMB GI1 GM1 NgAB).
  assert (yG : fg' GMB = GM1) by exact (ext2_y fg GIA GMB GI1 GM1).
  assert (oW : forall z, live (wB d) z -> fw' z = fw z) by exact (ext1_o _ fw WAB W1 NwA).
  assert (xW : fw' WAB = W1) by exact (ext1_x fw WAB W1).
  assert (E1 : dir_eqb dr (inv dr) = false) by (destruct dr; auto).
  assert (E2 : dir_eqb (inv dr) dr = false) by (destruct dr; auto).
  assert (E3 : dir_eqb dr dr = true) by (destruct dr; auto).
  assert (E4 : dir_eqb (inv dr) (inv dr) = true) by (destruct dr; auto).
  assert (Hdir : forall x, x = dr \/ x = inv dr) by (intros x; destruct x, dr; auto).
  eexists _, _, _. split.
  - apply (add_i de c e (fv I) (fv Ma) dr dw (fg GIC) (fg GMD) kW kIA kMB kM (fv vC) (fv vD) tA tB sA sB wW gIA gMB gAC gBD o1 o0
      vA1 vB1 GI1 GM1 W1 av1 av ag1 ag aw); auto;
      rewrite ?(t_ira Hex), ?(t_masha Hex), ?(t_wmK Hex), ?(t_wmds Hex), <- ?EI, <- ?EMa; tw Ho; try congruence;
      rewrite ?(a0_ex _ _ _ _ _ A), ?(a0_order _ _ _ _ _ A); try assumption.
    + now rewrite t_wh.
    + now rewrite t_gh.
    + now rewrite t_gh.
    + rewrite t_gextD; eauto with inv.
    + rewrite t_gextD; eauto with inv.
  - exists fv', fg', fw'. constructor; try reflexivity.
    + exact (ext2_lbij _ _ _ _ _ _ _ _ _ BVl NvAB NvAB1 NvA NvB NvA1 NvB1 LV LVn).
    + exact (ext2_lbij _ _ _ _ _ _ _ _ _ BGl NgAB NgAB1 NgA NgB NgA1 NgB1 LG LGn).
    + exact (ext1_lbij _ _ _ _ _ _ _ BWl NwA NwA1 LW LWn).
    + change (order e + 1 = order d + 1). now rewrite (a0_order _ _ _ _ _ A).
    + exact (a0_sfl _ _ _ _ _ A).
    + intros z x Lz.
      change (upd2 (upd2 (upd2 (upd2 (upd2 (upd2 (g_ver e) GI1 (inv dr) (fv I)) GI1 dr vA1) GM1 (inv dr) (fv Ma)) GM1 dr vB1) (fg GIC) (inv dr) vA1) (fg GMD) (inv dr) vB1 (fg' z) x
        = fv' (upd2 (upd2 (upd2 (upd2 (upd2 (upd2 (g_ver d) GIA (inv dr) I) GIA dr vA) GMB (inv dr) Ma) GMB dr vB') GIC (inv dr) vA) GMD (inv dr) vB' z x)).
      assert (M1 : GIC <> GIA /\ GIC <> GMB /\ GMD <> GIA /\ GMD <> GMB) by (repeat split; congruence). destruct M1 as (M1 & M2 & M3 & M4).
      assert (Q1 := t_g _ LGIC). assert (Q2 := t_g _ LGMD).
      assert (O1 : fg GIC <> GI1 /\ fg GIC <> GM1 /\ fg GMD <> GI1 /\ fg GMD <> GM1) by (repeat split; intros Q; rewrite Q in *; auto). destruct O1 as (O1' & O2 & O3 & O4).
      revert z Lz. apply (ext2_cases _ _ bg ag fg GIA GMB GI1 GM1 BGl NgAB1 NgA NgB NgA1 NgB1 LG LGn).
      * rewrite xG, !upd2_eq. destruct (Hdir x) as [-> | ->]; rewrite ?E1, ?E2, ?E3, ?E4; decs. now rewrite oV.
      * rewrite yG, !upd2_eq. destruct (Hdir x) as [-> | ->]; rewrite ?E1, ?E2, ?E3, ?E4; decs. now rewrite oV.
      * intros z Lz Z1 Z2 Z3 Z4. rewrite oG by auto. rewrite !upd2_eq.
        assert (J1 : fg z = fg GIC <-> z = GIC) by (split; [now apply t_inj_g|congruence]).
        assert (J2 : fg z = fg GMD <-> z = GMD) by (split; [now apply t_inj_g|congruence]).
        destruct (Nat.eq_dec (fg z) (fg GMD)) as [K1|K1], (Nat.eq_dec z GMD) as [K2|K2]; try tauto;
        destruct (Nat.eq_dec (fg z) (fg GIC)) as [K3|K3], (Nat.eq_dec z GIC) as [K4|K4]; try tauto;
        destruct (dir_eqb x (inv dr)); decs; first [now rewrite xV | now rewrite yV | rewrite t_gv by auto; rewrite oV by eauto with inv; reflexivity].
    + intros z x Lz.
      change (upd2 (upd2 (w_ver e) W1 dw vA1) W1 (inv dw) vB1 (fw' z) x = fv' (upd2 (upd2 (w_ver d) WAB dw vA) WAB (inv dw) vB' z x)).
      revert z Lz. apply (ext1_cases _ _ bw aw fw WAB W1 BWl NwA NwA1 LW LWn).
      * rewrite xW, !upd2_eq. assert (He : x = dw \/ x = inv dw) by (destruct x, dw; auto).
        destruct He as [-> | ->]; decs; destruct dw; cbn [dir_eqb inv]; auto.
      * intros z Lz Z1 Z2. rewrite oW by auto. rewrite !upd2_eq. decs. rewrite t_wv by auto. rewrite oV by eauto with inv. reflexivity.
    + exact (ext2_upd _ _ _ _ _ _ _ _ _ BGl NgAB NgAB1 NgA NgB NgA1 NgB1 LG LGn (g_K d) (g_K e) _ _ (a0_gK _ _ _ _ _ A)).
    + exact (ext2_upd _ _ _ _ _ _ _ _ _ BGl NgAB NgAB1 NgA NgB NgA1 NgB1 LG LGn (g_meas d) (g_meas e) _ _ (a0_gm _ _ _ _ _ A)).
    + exact (ext2_upd _ _ _ _ _ _ _ _ _ BGl NgAB NgAB1 NgA NgB NgA1 NgB1 LG LGn (g_gg d) (g_gg e) _ _ (a0_gg _ _ _ _ _ A)).
    + exact (ext1_upd _ _ _ _ _ _ _ BWl NwA NwA1 LW LWn (w_K d) (w_K e) _ (a0_wK _ _ _ _ _ A)).
    + exact (ext1_upd _ _ _ _ _ _ _ BWl NwA NwA1 LW LWn (w_meas d) (w_meas e) _ (a0_wm _ _ _ _ _ A)).
    + exact (ext1_upd _ _ _ _ _ _ _ BWl NwA NwA1 LW LWn (w_delta d) (w_delta e) _ (a0_wd _ _ _ _ _ A)).
    + exact (ext1_upd _ _ _ _ _ _ _ BWl NwA NwA1 LW LWn (w_ww d) (w_ww e) _ (a0_ww _ _ _ _ _ A)).
    + intros _. change (forall z, live bv z -> upd (upd (v_R e) vA1 (v_R e (fv vC))) vB1 (v_R e (fv vD)) (fv' z) = upd (upd (v_R d) vA (v_R d vC)) vB' (v_R d vD) z).
      rewrite !t_R by auto.
      exact (ext2_upd _ _ _ _ _ _ _ _ _ BVl NvAB NvAB1 NvA NvB NvA1 NvB1 LV LVn (v_R d) (v_R e) _ _ (a0_R _ _ _ _ _ A Ho)).
    + intros _. exact (ext2_upd _ _ _ _ _ _ _ _ _ BVl NvAB NvAB1 NvA NvB NvA1 NvB1 LV LVn (v_T d) (v_T e) _ _ (a0_T _ _ _ _ _ A Ho)).
    + intros _ z x Lz. refine (f_equal (fun f => f x) _).
      exact (ext2_upd _ _ _ _ _ _ _ _ _ BVl NvAB NvAB1 NvA NvB NvA1 NvB1 LV LVn (v_S d) (v_S e) _ _ (fun z0 => t_S z0 Ho) z Lz).
    + exact (a0_ex _ _ _ _ _ A).
    + intros _. change (ira e = fv' (ira d) /\ masha e = fv' (masha d) /\ kM = kM /\ wm_ds e = wm_ds d).
      rewrite <- EI, <- EMa, !oV by auto. rewrite EI, EMa. repeat split; [apply t_ira|apply t_masha|apply t_wmds]; auto.
    + exact (a0_mG _ _ _ _ _ A).
    + exact (a0_gamma _ _ _ _ _ A).
    + exact (a0_ext _ _ _ _ _ A).
Qed.
Lemma to1_move p d' r : to1_rel c d p d' r -> moves (to1_rel c) d'.
Proof.
  intros H.
  destruct H as [V1 V2 G1 G2 W1 R t1 t2 a b g1 g2 wW o0 o1 Ho Hex Hga HR Ht1 Ht2 EV1 EV2 EG1 EG2 EW1 Hg1 Hg2 HwW E0 E1].
  assert (Aw : avail (wB d) = 1%nat). { pose proof (i_cnt _ _ HI) as Q. unfold Cnt in Q. rewrite Ho in Q. lia. }
  assert (Aw' := lbij_av _ _ _ (i_bw _ _ HI) (i_bw _ _ HE) (a0_w _ _ _ _ _ A)). rewrite Aw in Aw'.
  assert (Hex' : wm_ex e = false) by (now rewrite (a0_ex _ _ _ _ _ A)).
  destruct (two_str c d HI Hex Aw) as (L1 & L2 & N12 & Hv & _). destruct (two_str c e HE Hex' Aw') as (M1 & M2 & M12 & Hv' & _).
  rewrite <- EV1, <- EV2 in *. clear EV1 EV2.
  assert (LG1 : live (gB d) G1) by (subst G1; eauto with inv). assert (LG2 : live (gB d) G2) by (subst G2; eauto with inv).
  assert (LW1 : live (wB d) W1) by (subst W1; eauto with inv).
  assert (EW2 : v_W d V2 = W1).
  { pose proof (i_bw _ _ HI) as BW. destruct (f_vw HI V2 L2) as [X1 X2]. destruct LW1 as [Y1 Y2].
    apply (nm_inj _ _ _ BW X1 Y1). lia. }
  set (K1 := names (vB e) 0) in *. set (K2 := names (vB e) 1) in *.
  assert (T1 := draw_gen c t1 Ht1). assert (T2 := draw_gen c t2 Ht2).
  assert (DD : w_meas d W1 && w_delta d W1 = false) by exact (f_delta HI W1 LW1).
  assert (J : (K1 = fv V1 /\ K2 = fv V2) \/ (K1 = fv V2 /\ K2 = fv V1)).
  { pose proof (Hv' _ (t_v _ L1)) as X. pose proof (Hv' _ (t_v _ L2)) as Y. assert (fv V1 <> fv V2) by (intros Q; apply N12; now apply t_inj_v).
    destruct X as [X|X], Y as [Y|Y]; try congruence; auto. }
  destruct J as [[J1 J2]|[J1 J2]].
  - destruct (GWeight_ok c R R t1 t2 a a (g_meas d G1) false (uext e) C) as (y1 & Y1); auto; try discriminate.
    destruct (GWeight_ok c R R t2 t1 b b (g_meas d G2) false (uext e) C) as (y2 & Y2); auto; try discriminate.
    destruct (WWeightDir_ok c (v_D d V1) R R t1 t2 (mkspin b a) (mkspin a b) false (w_meas d W1) (w_delta d W1) false (uext e) C) as (y3 & Y3); auto; try discriminate.
    eexists _, _, _. split.
    + apply (to1_i c e K1 K2 (fg G1) (fg G2) (fw W1) R t1 t2 a b y1 y2 y3 o0 o1); auto; rewrite ?J1, ?J2, ?t_vG, ?t_vW, ?t_vD, ?(a0_gm _ _ _ _ _ A), ?(a0_wm _ _ _ _ _ A), ?(a0_wd _ _ _ _ _ A) by auto; try congruence.
      * now rewrite (a0_order _ _ _ _ _ A).
      * now rewrite (a0_gamma _ _ _ _ _ A).
    + exists fv, fg, fw. keeps.
      * reflexivity.
      * intros _ z Lz. change (upd (upd (v_R e) K1 R) K2 R (fv z) = upd (upd (v_R d) V1 R) V2 R z). rewrite J1, J2.
        destruct (Hv z Lz) as [->| ->]; rewrite !upd_eq; decs.
      * intros _ z Lz. change (upd (upd (v_T e) K1 t1) K2 t2 (fv z) = upd (upd (v_T d) V1 t1) V2 t2 z). rewrite J1, J2.
        destruct (Hv z Lz) as [->| ->]; rewrite !upd_eq; decs.
      * intros _ z x Lz. change (upd (upd (v_S e) K1 (mkspin b a)) K2 (mkspin a b) (fv z) x = upd (upd (v_S d) V1 (mkspin b a)) V2 (mkspin a b) z x). rewrite J1, J2.
        destruct (Hv z Lz) as [->| ->]; rewrite !upd_eq; decs.
  - destruct (GWeight_ok c R R t2 t1 b b (g_meas d G2) false (uext e) C) as (y1 & Y1); auto; try discriminate.
    destruct (GWeight_ok c R R t1 t2 a a (g_meas d G1) false (uext e) C) as (y2 & Y2); auto; try discriminate.
    destruct (WWeightDir_ok c (v_D d V2) R R t2 t1 (mkspin a b) (mkspin b a) false (w_meas d W1) (w_delta d W1) false (uext e) C) as (y3 & Y3); auto; try discriminate.
    eexists _, _, _. split.
    + apply (to1_i c e K1 K2 (fg G2) (fg G1) (fw W1) R t2 t1 b a y1 y2 y3 o0 o1); auto; rewrite ?J1, ?J2, ?t_vG, ?t_vW, ?t_vD, ?(a0_gm _ _ _ _ _ A), ?(a0_wm _ _ _ _ _ A), ?(a0_wd _ _ _ _ _ A) by auto; try congruence.
      * now rewrite (a0_order _ _ _ _ _ A).
      * now rewrite (a0_gamma _ _ _ _ _ A).
    + exists fv, fg, fw. keeps.
      * reflexivity.
      * intros _ z Lz. change (upd (upd (v_R e) K1 R) K2 R (fv z) = upd (upd (v_R d) V1 R) V2 R z). rewrite J1, J2.
        destruct (Hv z Lz) as [->| ->]; rewrite !upd_eq; decs.
      * intros _ z Lz. change (upd (upd (v_T e) K1 t2) K2 t1 (fv z) = upd (upd (v_T d) V1 t1) V2 t2 z). rewrite J1, J2.
        destruct (Hv z Lz) as [->| ->]; rewrite !upd_eq; decs.
      * intros _ z x Lz. change (upd (upd (v_S e) K1 (mkspin a b)) K2 (mkspin b a) (fv z) x = upd (upd (v_S d) V1 (mkspin b a)) V2 (mkspin a b) z x). rewrite J1, J2.
        destruct (Hv z Lz) as [->| ->]; rewrite !upd_eq; decs.
Qed.
End T.
