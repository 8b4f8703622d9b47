(** Diagrams equal up to slot numbers: what has to be checked, the rest follows from the invariant *)
From Coq Require Import ZArith List Bool Arith Lia ZifyBool Permutation Reals Lra FunctionalExtensionality.
From Coquelicot Require Import Complex.
From Verif Require Import Base Num NumR RNG Momentum Complex Lattice Bundle IndexMap Weights Diagram Markov DiagramIO History
  P_Momentum P_RNG P_Bundle P_Lattice P_IndexMap P_Complex P_WP P_Inv P_Rel P_Sem1 P_Sem2 P_Sem3 P_Pres1 P_Pres2 P_Pres3 P_Pres4
  P_Hop P_Fix P_IO P_History P_IOProm P_Loop P_Weight Target P_MH Alike.
Import ListNotations.
Open Scope Z_scope.

(** [f] maps the live slots of [b] one to one onto those of [b'] *)
Definition lbij (b b' : bundle) (f : nat -> nat) : Prop :=
  (forall x, live b x -> live b' (f x)) /\
  (forall x y, live b x -> live b y -> f x = f y -> x = y) /\
  (forall y, live b' y -> exists x, live b x /\ f x = y).
Lemma lbij_bijection b b' f : lbij b b' f <-> bijection b b' f.
Proof. unfold lbij, bijection. repeat setoid_rewrite live_exist. tauto. Qed.
Lemma lbij_id b b' : (forall x, live b x <-> live b' x) -> lbij b b' (fun x => x).
Proof. intros H. split; [intros x Lx; now apply H|]. split; [auto|]. intros y Ly. exists y. split; auto. now apply H. Qed.
Lemma lbij_refl b : lbij b b (fun x => x).
Proof. apply lbij_id. tauto. Qed.
Lemma lbij_perm b b' f : BInv b -> BInv b' -> lbij b b' f -> Permutation (liveL b') (map f (liveL b)).
Proof.
  intros B B' (H1 & H2 & H3). apply NoDup_Permutation; [now apply liveL_nodup| |].
  - apply NoDup_map_inj; [|now apply liveL_nodup]. intros x y Hx Hy. rewrite liveL_in in Hx, Hy by auto. auto.
  - intros y. rewrite in_map_iff. rewrite liveL_in by auto. split.
    + intros Ly. destruct (H3 y Ly) as (x & Lx & E). exists x. split; auto. now apply liveL_in.
    + intros (x & <- & Hx). rewrite liveL_in in Hx by auto. auto.
Qed.

(** the independent part of [alike] *)
Record alike0 {N : Num} (fv fg fw : nat -> nat) (d d' : diagram) : Prop := {
  a0_v : lbij (vB d) (vB d') fv;
  a0_g : lbij (gB d) (gB d') fg;
  a0_w : lbij (wB d) (wB d') fw;
  a0_order : order d' = order d;
  a0_sfl : sfl d' = sfl d;
  a0_gv : forall g e, live (gB d) g -> g_ver d' (fg g) e = fv (g_ver d g e);
  a0_wv : forall w e, live (wB d) w -> w_ver d' (fw w) e = fv (w_ver d w e);
  a0_gK : forall g, live (gB d) g -> g_K d' (fg g) = g_K d g;
  a0_gm : forall g, live (gB d) g -> g_meas d' (fg g) = g_meas d g;
  a0_gg : forall g, live (gB d) g -> g_gg d' (fg g) = g_gg d g;
  a0_wK : forall w, live (wB d) w -> w_K d' (fw w) = w_K d w;
  a0_wm : forall w, live (wB d) w -> w_meas d' (fw w) = w_meas d w;
  a0_wd : forall w, live (wB d) w -> w_delta d' (fw w) = w_delta d w;
  a0_ww : forall w, live (wB d) w -> w_ww d' (fw w) = w_ww d w;
  a0_R : order d <> 0 -> forall v, live (vB d) v -> v_R d' (fv v) = v_R d v;
  a0_T : order d <> 0 -> forall v, live (vB d) v -> v_T d' (fv v) = v_T d v;
  a0_S : order d <> 0 -> forall v e, live (vB d) v -> v_S d' (fv v) e = v_S d v e;
  a0_ex : wm_ex d' = wm_ex d;
  a0_worm : wm_ex d = true -> ira d' = fv (ira d) /\ masha d' = fv (masha d) /\ wm_K d' = wm_K d /\ wm_ds d' = wm_ds d;
  a0_mG : measG d' = measG d;
  a0_gamma : gamma d' = gamma d;
  a0_ext : gamma d <> 0 -> uext d' = uext d }.

Section A.
Context {N : Num}.
Lemma GWeight_uext T r1 r2 t1 t2 s1 s2 m gg e e' : (gg = true -> e = e') ->
  GWeight T r1 r2 t1 t2 s1 s2 m gg e = GWeight T r1 r2 t1 t2 s1 s2 m gg e'.
Proof. destruct gg; [intros H; now rewrite (H eq_refl)|intros _; apply GWeight_ext]. Qed.
Lemma WWeight_cong T r1 r2 t1 t2 s1 s2 s1' s2' wo m dl ww e e' : (ww = true -> e = e') ->
  (forall x, s1 x = s1' x) -> (forall x, s2 x = s2' x) ->
  WWeight T r1 r2 t1 t2 s1 s2 wo m dl ww e = WWeight T r1 r2 t1 t2 s1' s2' wo m dl ww e'.
Proof.
  intros He H1 H2. assert (X : WWeight T r1 r2 t1 t2 s1 s2 wo m dl ww e = WWeight T r1 r2 t1 t2 s1' s2' wo m dl ww e).
  { assert (E1 : s1 = s1') by now apply functional_extensionality. assert (E2 : s2 = s2') by now apply functional_extensionality.
    now rewrite E1, E2. }
  rewrite X. destruct ww; [now rewrite (He eq_refl)|apply WWeight_ext].
Qed.
Lemma HT_same hi h L f h' L' f' g : HT hi h L f -> HT hi h' L' f' ->
  (forall x, L x -> L' (g x)) -> (forall y, L' y -> exists x, L x /\ g x = y) -> (forall x, L x -> f' (g x) = f x) ->
  forall k, 0 <= k <= hi -> h' k = h k.
Proof.
  intros (_ & H & _) (_ & H' & _) A B E k Hk. apply eq_true_iff_eq. rewrite H, H' by auto. split.
  - intros (y & Ly & Ey). destruct (B y Ly) as (x & Lx & <-). exists x. split; auto. now rewrite <- E.
  - intros (x & Lx & Ex). exists (g x). split; auto. now rewrite E.
Qed.

Section B.
Context (c : cfg) fv fg fw (d d' : diagram) (HI : Inv c d) (HI' : Inv c d') (A : alike0 fv fg fw d d').
Lemma b_vG v e : live (vB d) v -> v_G d' (fv v) e = fg (v_G d v e).
Proof.
  intros Lv. pose proof (f_vg HI v e Lv) as Lg. pose proof (a0_gv _ _ _ _ _ A (v_G d v e) (inv e) Lg) as E.
  rewrite (f_vgv HI v e Lv) in E. rewrite <- E.
  pose proof (f_gvg HI' (fg (v_G d v e)) (inv e) (proj1 (a0_g _ _ _ _ _ A) _ Lg)) as Q. now rewrite inv_inv in Q.
Qed.
Lemma b_vWD v : live (vB d) v -> v_W d' (fv v) = fw (v_W d v) /\ v_D d' (fv v) = v_D d v.
Proof.
  intros Lv. pose proof (f_vw HI v Lv) as Lw. pose proof (a0_wv _ _ _ _ _ A (v_W d v) (v_D d v) Lw) as E.
  rewrite (f_vwv HI v Lv) in E. rewrite <- E. assert (L' : live (wB d') (fw (v_W d v))) by now apply A.
  split; [now apply (f_wvw HI')|now apply (f_wvd HI')].
Qed.
Lemma b_wo w : live (wB d) w -> w_worm d' (fw w) = w_worm d w.
Proof.
  intros Lw. assert (L' : live (wB d') (fw w)) by now apply A. pose proof (a0_ex _ _ _ _ _ A) as EX.
  destruct (wm_ex d) eqn:Ex.
  - destruct (f_wo HI Ex) as (Li & Lm & _ & _ & _ & _ & _ & HW). destruct (f_wo HI' EX) as (_ & _ & _ & _ & _ & _ & _ & HW').
    destruct (a0_worm _ _ _ _ _ A Ex) as (E1 & E2 & _). rewrite E1, E2 in HW'.
    apply eq_true_iff_eq. rewrite HW, HW' by auto. rewrite (proj1 (b_vWD _ Li)), (proj1 (b_vWD _ Lm)).
    destruct (a0_w _ _ _ _ _ A) as (_ & Inj & _).
    split; (intros [Q|Q]; [left|right]); try congruence; apply Inj in Q; auto; eauto with inv.
  - rewrite (f_nworm HI w), (f_nworm HI' (fw w)); auto.
Qed.
Lemma b_ggext g : live (gB d) g -> g_gg d g = true -> uext d' = uext d.
Proof.
  intros Lg Eg. apply (a0_ext _ _ _ _ _ A). intros E. rewrite (f_gg0 HI g) in Eg by auto. discriminate.
Qed.
Lemma b_wwext w : live (wB d) w -> w_ww d w = true -> uext d' = uext d.
Proof.
  intros Lw Ew. apply (a0_ext _ _ _ _ _ A). intros E. rewrite (f_ww0 HI w) in Ew by auto. discriminate.
Qed.
Lemma b_gW g : order d <> 0 -> live (gB d) g -> g_W d' (fg g) = g_W d g.
Proof.
  intros O Lg. assert (L' : live (gB d') (fg g)) by now apply A.
  pose proof (i_sG _ _ HI g Lg) as E. pose proof (i_sG _ _ HI' _ L') as E'.
  rewrite !(a0_gv _ _ _ _ _ A) in E' by auto.
  rewrite !(a0_R _ _ _ _ _ A O), !(a0_T _ _ _ _ _ A O), !(a0_S _ _ _ _ _ A O), (a0_gm _ _ _ _ _ A), (a0_gg _ _ _ _ _ A) in E' by eauto with inv.
  rewrite (GWeight_uext _ _ _ _ _ _ _ _ _ _ (uext d)) in E' by (intros; now apply (b_ggext g)). congruence.
Qed.
Lemma b_wW w : order d <> 0 -> live (wB d) w -> w_W d' (fw w) = w_W d w.
Proof.
  intros O Lw. assert (L' : live (wB d') (fw w)) by now apply A.
  pose proof (i_sW _ _ HI w Lw) as E. pose proof (i_sW _ _ HI' _ L') as E'.
  rewrite !(a0_wv _ _ _ _ _ A) in E' by auto.
  rewrite !(a0_R _ _ _ _ _ A O), !(a0_T _ _ _ _ _ A O), (b_wo w Lw), (a0_wm _ _ _ _ _ A), (a0_wd _ _ _ _ _ A), (a0_ww _ _ _ _ _ A) in E' by eauto with inv.
  rewrite (WWeight_cong _ _ _ _ _ _ _ (v_S d (w_ver d w IN)) (v_S d (w_ver d w OUT)) _ _ _ _ _ (uext d)) in E'.
  - congruence.
  - intros; now apply (b_wwext w).
  - intros x. apply (a0_S _ _ _ _ _ A O). eauto with inv.
  - intros x. apply (a0_S _ _ _ _ _ A O). eauto with inv.
Qed.
Lemma b_meas : if measG d then gmeas d' = fg (gmeas d) else wmeas d' = fw (wmeas d).
Proof.
  pose proof (i_meas _ _ HI) as M. pose proof (i_meas _ _ HI') as M'. rewrite (a0_mG _ _ _ _ _ A) in M'.
  unfold Meas in *. destruct (measG d).
  - destruct M as (L & M & _), M' as (L' & M' & _). symmetry. apply M'; [now apply A|]. rewrite (a0_gm _ _ _ _ _ A) by auto. now apply M.
  - destruct M as (L & M & _), M' as (L' & M' & _). symmetry. apply M'; [now apply A|]. rewrite (a0_wm _ _ _ _ _ A) by auto. now apply M.
Qed.
Lemma b_vin : gamma d <> 0 -> vin d' = rename_slot fg fw (vin d) /\ vout d' = rename_slot fg fw (vout d).
Proof.
  intros G. pose proof (i_gam _ _ HI) as M. pose proof (i_gam _ _ HI') as M'. rewrite (a0_gamma _ _ _ _ _ A) in M'.
  destruct M as [(E & _)|[(E & _ & _ & g & L & _ & E1 & E2 & U & _)|(E & _ & _ & w & L & _ & _ & E1 & E2 & U & _)]]; [congruence| |].
  - destruct M' as [(E' & _)|[(E' & _ & _ & g' & L' & _ & E1' & E2' & U' & _)|(E' & _)]]; try congruence.
    assert (X : fg g = g') by (apply U'; [now apply A|]; rewrite (a0_gg _ _ _ _ _ A) by auto; now apply U).
    rewrite E1, E2, E1', E2', <- X. split; reflexivity.
  - destruct M' as [(E' & _)|[(E' & _)|(E' & _ & _ & w' & L' & _ & _ & E1' & E2' & U' & _)]]; try congruence.
    assert (X : fw w = w') by (apply U'; [now apply A|]; rewrite (a0_ww _ _ _ _ _ A) by auto; now apply U).
    rewrite E1, E2, E1', E2', <- X. split; reflexivity.
Qed.
Lemma b_gh k : 0 <= k <= 2 * MAX_K -> ghash d' k = ghash d k.
Proof.
  apply (HT_same _ _ _ _ _ _ _ fg (i_hG _ _ HI) (i_hG _ _ HI')).
  - intros x. apply A.
  - apply A.
  - intros x Lx. now rewrite (a0_gK _ _ _ _ _ A).
Qed.
Lemma b_wh k : 0 <= k <= MAX_K -> whash d' k = whash d k.
Proof.
  apply (HT_same _ _ _ _ _ _ _ fw (i_hW _ _ HI) (i_hW _ _ HI')).
  - intros x. apply A.
  - apply A.
  - intros x Lx. now rewrite (a0_wK _ _ _ _ _ A).
Qed.
End B.
End A.

Lemma alike_dw (c : @cfg NumR) fv fg fw d d' : Inv c d -> Inv c d' -> alike0 fv fg fw d d' -> dwp c d -> dwp c d' -> dweight d' = dweight d.
Proof.
  intros HI HI' A P P'. apply toC_inj. unfold dwp in *. rewrite P, P', (a0_order _ _ _ _ _ A).
  destruct (Z.eqb_spec (order d) 0) as [E|O]; [reflexivity|].
  unfold sprod, sg. rewrite (a0_order _ _ _ _ _ A), (a0_sfl _ _ _ _ _ A). f_equal. f_equal.
  - rewrite (pr_perm _ _ _ (lbij_perm _ _ _ (i_bg _ _ HI) (i_bg _ _ HI') (a0_g _ _ _ _ _ A))).
    assert (X : forall x, In x (liveL (gB d)) -> g_W d' (fg x) = g_W d x).
    { intros x Hx. apply liveL_in in Hx; [|apply HI]. now apply (b_gW c fv fg fw). }
    revert X. generalize (liveL (gB d)). induction l as [|x l IH]; intros X; [reflexivity|].
    unfold pr in *. cbn [map fold_right]. rewrite IH, X; auto; [now left|]. intros; apply X; now right.
  - rewrite (pr_perm _ _ _ (lbij_perm _ _ _ (i_bw _ _ HI) (i_bw _ _ HI') (a0_w _ _ _ _ _ A))).
    assert (X : forall x, In x (liveL (wB d)) -> w_W d' (fw x) = w_W d x).
    { intros x Hx. apply liveL_in in Hx; [|apply HI]. now apply (b_wW c fv fg fw). }
    revert X. generalize (liveL (wB d)). induction l as [|x l IH]; intros X; [reflexivity|].
    unfold pr in *. cbn [map fold_right]. rewrite IH, X; auto; [now left|]. intros; apply X; now right.
Qed.

Lemma alike_build (c : @cfg NumR) fv fg fw d d' : Inv c d -> Inv c d' -> alike0 fv fg fw d d' ->
  dweight d' = dweight d -> dphase d = phase (dweight d) -> dphase d' = phase (dweight d') -> worm1 d -> worm1 d' -> alike fv fg fw d d'.
Proof.
  intros HI HI' A DW P1 P2 W1 W2. pose proof (a0_ex _ _ _ _ _ A) as EX. constructor.
  1-3: apply lbij_bijection; apply A.
  all: try (setoid_rewrite live_exist).
  - apply A.
  - exact DW.
  - congruence.
  - apply A.
  - apply A.
  - apply A.
  - intros; now apply (b_vG c fv fg fw).
  - intros; now apply (b_vWD c fv fg fw).
  - intros; now apply (b_vWD c fv fg fw).
  - apply A.
  - apply A.
  - apply A.
  - apply A.
  - apply A.
  - apply A.
  - apply A.
  - intros; now apply (b_wo c fv fg fw).
  - intros; now apply (b_gh c fv fg fw).
  - intros; now apply (b_wh c fv fg fw).
  - apply A.
  - apply A.
  - apply A.
  - intros; now apply (b_gW c fv fg fw).
  - intros; now apply (b_wW c fv fg fw).
  - apply A.
  - intros X. destruct (a0_worm _ _ _ _ _ A X) as (E1 & E2 & E3 & E4). repeat (split; [assumption|]). rewrite W1, W2 by congruence. reflexivity.
  - apply A.
  - now apply (b_meas c fv fg fw).
  - apply A.
  - intros G. split; [now apply A|]. now apply (b_vin c fv fg fw).
Qed.
