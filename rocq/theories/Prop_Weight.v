(** * C12, C13: the diagram weight and its phase, in exact arithmetic

    [toC] reads a stored complex number as an element of Coquelicot's field [C]. The
    histories are those that start from a diagram with non-zero line weights; a Monte Carlo
    step never accepts a vanishing weight, so no later hypothesis is needed. *)
From Coq Require Import ZArith List Bool Arith Lia Reals Lra Permutation.
From Coquelicot Require Import Complex.
From Verif Require Import Base Num NumR RNG Momentum Complex Lattice Bundle IndexMap Weights Diagram Markov DiagramIO History
  P_Bundle P_Complex P_Inv P_Sem1 P_Hop P_Fix P_IO P_History P_IOProm P_Loop P_Weight Prop_Markov.
Import ListNotations.
Open Scope Z_scope.

(** the existing slots of a bundle, and the product of the weights stored there *)
Definition existing (b : bundle) : list nat := filter (bexist b) (seq 0 20).
Definition product (f : nat -> cR) (l : list nat) : C := fold_right (fun x a => Cmult (toC (f x)) a) (RtoC 1) l.

Lemma existing_perm b : BInv b -> Permutation (liveL b) (existing b).
Proof.
  intros B. apply NoDup_Permutation; [now apply liveL_nodup|apply NoDup_filter, seq_NoDup|].
  intros x. rewrite liveL_in by auto. unfold existing. rewrite filter_In, in_seq, live_exist. split; [|tauto].
  intros L. split; auto. split; [lia|]. apply L.
Qed.
Lemma weight_product (E : Type) (next : E -> Z * E) (c : @cfg NumR) (s : mstate) :
  cfg_ok c -> new_ok (c_lat c) -> regular_history next c s ->
  let d := md s in
  (order d <> 0 -> toC (dweight d) =
     Cmult (RtoC (IZR ((-1) ^ order d) * sfl d)) (Cmult (product (g_W d) (existing (gB d))) (product (w_W d) (existing (wB d))))) /\
  (order d = 0 -> toC (dweight d) = RtoC (normF (c_tab c))) /\
  (forall g, bexist (gB d) g = true -> toC (g_W d g) <> RtoC 0) /\
  (forall w, bexist (wB d) w = true -> toC (w_W d w) <> RtoC 0).
Proof.
  intros C LK H d. destruct (regular_w next c s C LK H) as [Hh [H1 H2 H3 H4 H5]]. pose proof (history_inv next c s C LK Hh) as HI.
  fold d in H1, H2, H3, HI. split; [|split; [|split; intros x Lx; apply live_exist in Lx; auto]].
  - intros O. rewrite H3. apply Z.eqb_neq in O. rewrite O. unfold sprod.
    change (@product) with (@pr). rewrite <- (pr_perm _ _ _ (existing_perm _ (i_bg _ _ HI))), <- (pr_perm _ _ _ (existing_perm _ (i_bw _ _ HI))).
    f_equal. f_equal. unfold sg, sgo. pose proof (f_order HI C) as Ho.
    destruct (Z.even (order d)) eqn:Ev.
    + apply Z.even_spec in Ev as [k Ek]. rewrite Ek. rewrite Z.pow_mul_r by lia. change ((-1)^2) with 1. rewrite Z.pow_1_l by lia. ring.
    + assert (Od : Z.odd (order d) = true) by (rewrite <- Z.negb_even, Ev; reflexivity). apply Z.odd_spec in Od as [k Ek]. rewrite Ek.
      rewrite Z.pow_add_r, Z.pow_mul_r by lia. change ((-1)^2) with 1. rewrite Z.pow_1_l by lia. change (1 * (-1)^1) with (-1). ring.
  - intros O. rewrite H3, O. reflexivity.
Qed.
Lemma weight_phase (E : Type) (next : E -> Z * E) (c : @cfg NumR) (s : mstate) :
  cfg_ok c -> new_ok (c_lat c) -> regular_history next c s ->
  let d := md s in
  toC (dweight d) <> RtoC 0 /\ toC (dphase d) = Cdiv (toC (dweight d)) (RtoC (Cmod (toC (dweight d)))) /\ Cmod (toC (dphase d)) = 1%R.
Proof.
  intros C LK H d. destruct (regular_w next c s C LK H) as [Hh HW]. pose proof (history_inv next c s C LK Hh) as HI.
  pose proof (history_sign next c s sign_lawR C LK Hh) as LS. pose proof (dw_nz c (md s) HI LS HW) as NZ. fold d in NZ.
  assert (EP : toC (dphase d) = Cdiv (toC (dweight d)) (RtoC (Cmod (toC (dweight d))))) by (unfold d in *; rewrite (wi_ph _ _ HW); now apply phase_nz).
  split; auto. split; auto. rewrite EP.
  assert (NM : Cmod (toC (dweight d)) <> 0%R) by (intros E'; apply NZ; now apply Cmod_eq_0).
  rewrite Cmod_div by now apply RtoC_nz. rewrite Cmod_R, Rabs_pos_eq by apply Cmod_ge_0. now field.
Qed.

Theorem C12_weight_product :
  forall (E : Type) (next : E -> Z * E) (c : @cfg NumR) (s : mstate),
  cfg_ok c -> new_ok (c_lat c) -> regular_history next c s ->
  let d := md s in
  (order d <> 0 -> toC (dweight d) =
     Cmult (RtoC (IZR ((-1) ^ order d) * sfl d)) (Cmult (product (g_W d) (existing (gB d))) (product (w_W d) (existing (wB d))))) /\
  (order d = 0 -> toC (dweight d) = RtoC (normF (c_tab c))) /\
  (forall g, bexist (gB d) g = true -> toC (g_W d g) <> RtoC 0) /\
  (forall w, bexist (wB d) w = true -> toC (w_W d w) <> RtoC 0).
Proof. exact @weight_product. Qed.
Print Assumptions C12_weight_product.

Theorem C13_phase :
  forall (E : Type) (next : E -> Z * E) (c : @cfg NumR) (s : mstate),
  cfg_ok c -> new_ok (c_lat c) -> regular_history next c s ->
  let d := md s in
  toC (dweight d) <> RtoC 0 /\ toC (dphase d) = Cdiv (toC (dweight d)) (RtoC (Cmod (toC (dweight d)))) /\ Cmod (toC (dphase d)) = 1%R.
Proof. exact @weight_phase. Qed.
Print Assumptions C13_phase.

(** the example configuration: no table entry vanishes, so 1000 steps from its fresh diagram qualify *)
Lemma ex_G_nz ri ro ti to si so me e z : GWeight ex_tab ri ro ti to si so me false e = Ok z -> nonzero z.
Proof.
  unfold GWeight. destruct (GetIndexSmooth _ _ _ _ _ _ _) as [i| |]; cbn [obind]; try discriminate.
  destruct me; intros Q; injection Q as <-; intros [A B]; cbn in A, B; unfold TauSym in *; cbn in A, B.
  - lra.
  - revert B. destruct (Rltb _ _); cbn; lra.
Qed.
Lemma ex_W_nz ri ro ti to si so wo me de e z : WWeight ex_tab ri ro ti to si so wo me de false e = Ok z -> nonzero z.
Proof.
  unfold WWeight. destruct de.
  - destruct (GetIndexDelta _ _ _ _ _) as [i| |]; cbn [obind]; try discriminate. intros Q; injection Q as <-; intros [A B]; cbn in A, B; lra.
  - destruct (GetIndexSmooth _ _ _ _ _ _ _) as [i| |]; cbn [obind]; try discriminate.
    destruct me; intros Q; injection Q as <-; intros [A B]; cbn in A, B; lra.
Qed.
Example C12_C13_case : exists s, cfg_ok ex_cfg /\ new_ok (c_lat ex_cfg) /\ regular_history ex_next ex_cfg s /\ mcount s = 1000.
Proof.
  destruct (BuildNew_inv ex_cfg (@diagram_new NumR) ex_cfg_ok (proj1 ex_new_ok) (proj2 ex_new_ok)) as (co & d1 & d & _ & B & _ & _ & HI & Ga & _).
  { repeat split. }
  set (s0 := mkS d 7 0 (fun _ _ => 0%R) (fun _ _ => 0%R)).
  destruct (Hop_ok ex_next ex_cfg 1000 s0 ex_cfg_ok HI) as (s & H & _ & _ & Hc).
  exists s. split; [exact ex_cfg_ok|]. split; [exact ex_new_ok|]. split; [|exact Hc].
  apply (rh_hop ex_next ex_cfg s0 s ex_cfg 1000); [|repeat split; cbn; lia|exact H].
  apply (rh_new ex_next ex_cfg s0 diagram_new); [repeat split|exact B| |]; intros x Lx; apply live_exist in Lx.
  - pose proof (i_sG _ _ HI x Lx) as Q. rewrite (f_gg0 HI x Lx Ga) in Q. exact (ex_G_nz _ _ _ _ _ _ _ _ _ Q).
  - pose proof (i_sW _ _ HI x Lx) as Q. rewrite (f_ww0 HI x Lx Ga) in Q. exact (ex_W_nz _ _ _ _ _ _ _ _ _ _ _ Q).
Qed.
