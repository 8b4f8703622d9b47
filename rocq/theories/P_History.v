(** Every state of a history satisfies the invariant *)
From Coq Require Import ZArith List Bool Arith Lia Reals Lra.
From Verif Require Import Base Num NumR RNG Momentum Complex Lattice Bundle IndexMap Weights Diagram Markov DiagramIO History
  P_Momentum P_RNG P_Bundle P_Lattice P_IndexMap P_WP P_Inv P_Rel P_Sem1 P_Hop P_Fix P_IO.
Import ListNotations.
Open Scope Z_scope.

Section Hist.
Context {N : Num} {E : Type} (next : E -> Z * E).
Notation mst := (@mstate N E).

Lemma retuned_ok c c' : cfg_ok c -> retuned c c' -> cfg_ok c'.
Proof.
  intros C (E1 & E2 & E3 & E4 & E5 & E6).
  assert (T : forall t, tau_gen c' t -> tau_gen c t) by (unfold tau_gen; now rewrite E3).
  constructor; rewrite ?E1, ?E2, ?E4, ?E5; try apply C; auto.
  - intros t t' H H'. apply C; auto.
  - intros t t' H H'. apply C; auto.
Qed.
Lemma retuned_Inv c c' d : retuned c c' -> Inv c d <-> Inv c' d.
Proof.
  intros (E1 & E2 & E3 & E4 & E5 & E6).
  assert (T : forall t, tau_gen c' t <-> tau_gen c t) by (unfold tau_gen; rewrite E3; tauto).
  split; intros [H1 H2 H3 H4 H5 H6 H7 H8 H9 H10 H11 H12 H13 H14 H15 H16 H17 H18 H19 H20 H21];
    (constructor; [exact H1|exact H2|exact H3| |exact H5|exact H6|exact H7|exact H8|exact H9|exact H10|exact H11|exact H12|exact H13|exact H14| |exact H16|exact H17| | | |]).
  all: try (rewrite ?E4, ?E5, ?E1; assumption); try (rewrite <- ?E4, <- ?E5, <- ?E1; assumption).
  - intros v L. rewrite E2. auto.
  - intros v L. apply T. auto.
  - intros v L. rewrite <- E2. auto.
  - intros v L. apply T. auto.
Qed.

(** What BuildNew additionally needs of the lattice: two or three dimensions, first extent at least 2 *)
Definition new_ok (L : lattice) : Prop :=
  1 < nth 0 (Size L) 0 /\ (length (Size L) = 2 \/ length (Size L) = 3)%nat.

Theorem history_inv c (s : mst) : cfg_ok c -> new_ok (c_lat c) -> history next c s -> Inv c (md s).
Proof.
  intros C [L1 L2] H. induction H as [s d0 K B|s s1 d0 F H IH T K L|s s' c' n H IH R HH].
  - destruct (BuildNew_inv c d0 C L1 L2 K) as (co & d1 & d' & _ & B' & _ & _ & HI & _). rewrite B in B'. injection B' as ->. exact HI.
  - pose proof (Inv_Pre c _ IH) as P. rewrite (ToDict_spec c _ P) in T. injection T as <-.
    destruct (load_inv c (md s1) d0 C P K) as (d1 & d' & B' & _ & _ & HI & _). rewrite L in B'. injection B' as ->. exact HI.
  - apply (retuned_Inv c c' _ R) in IH. destruct (Hop_ok next c' n s (retuned_ok c c' C R) IH) as (s2 & B & _ & HI & _).
    rewrite HH in B. injection B as ->. now apply (retuned_Inv c c' _ R).
Qed.
End Hist.

(** ** The requirements in exact arithmetic *)
Lemma older_R (b b' : @real NumR) : @older NumR b b' -> b = b' \/ (0 <= (b : R) <= b')%R.
Proof.
  induction 1 as [b|b b1 b2 H IH _ Z1 L]; [auto|]. apply Rleb_spec in Z1. apply Rleb_spec in L. right.
  assert (Z2 : (0 <= (b1 : R))%R) by (refine (Rle_trans _ _ _ _ Z1); apply Rlt_le, Rdiv_lt_0_compat; apply IZR_lt; lia).
  destruct IH as [->|IH]; [|destruct IH]; split; try assumption. eapply Rle_trans; eassumption.
Qed.
Lemma tau_R (c : @cfg NumR) t : (0 < (c_beta c : R))%R -> tau_gen c t -> (0 <= (t : R) < c_beta c)%R.
Proof.
  intros HB [-> |(b & x & Hb & Hx & ->)].
  - cbn. split; [apply Rle_refl|exact HB].
  - pose proof (urn_R_range x) as [A B]. change (@rmul NumR (urn_of x) b) with (@urn_of NumR x * b)%R.
    apply older_R in Hb. set (u := @urn_of NumR x : R) in *. set (b' := c_beta c : R) in *.
    destruct Hb as [->|[H1 H2]]; [split; [apply Rmult_le_pos; lra|]; nra|]. split; [apply Rmult_le_pos; lra|]. nra.
Qed.
Lemma setup_exact (c : @cfg NumR) :
  1 <= c_order c <= 9 -> (Z.to_nat (c_order c) < length (c_orw c))%nat ->
  Size (c_lat c) <> [] -> Forall (fun z => 0 < z < 2^31) (Size (c_lat c)) -> 0 < SublatVol (c_lat c) < 2^31 ->
  im_lat (gmap (c_tab c)) = c_lat c -> im_lat (wmap (c_tab c)) = c_lat c ->
  im_nsp (gmap (c_tab c)) = 2 -> im_nsp (wmap (c_tab c)) = 4 ->
  0 < im_maxtau (gmap (c_tab c)) -> 0 < im_maxtau (wmap (c_tab c)) ->
  tabsize (gmap (c_tab c)) < 2^32 -> tabsize (wmap (c_tab c)) < 2^32 ->
  (0 < (c_beta c : R))%R -> im_beta (gmap (c_tab c)) = c_beta c -> im_beta (wmap (c_tab c)) = c_beta c ->
  (c_gamma3 c = true -> t_gammaG (c_tab c) <> None /\ t_gammaW (c_tab c) <> None) ->
  cfg_ok c.
Proof.
  intros H1 H2 H3 H4 H5 H6 H7 H8 H9 H10 H11 H12 H13 H14 H15 H16 H17.
  assert (F : Forall (fun s => 0 < s) (Size (c_lat c))) by (eapply Forall_impl; [|exact H4]; cbv beta; intros; lia).
  constructor; auto.
  - repeat split; auto; apply H5.
  - constructor; rewrite ?H6, ?H8; auto; try lia; apply H5.
  - constructor; rewrite ?H7, ?H9; auto; try lia; apply H5.
  - intros t t' T T'. apply TauIndex1_range; rewrite ?H15; auto.
    apply tau_R in T, T'; auto. change (@rsub NumR t' t) with (Rminus t' t). change (@real NumR) with R in *.
    set (b := c_beta c : R) in *. lra.
  - intros t t' T T'. apply TauIndex1_range; rewrite ?H16; auto.
    apply tau_R in T, T'; auto. change (@rsub NumR t' t) with (Rminus t' t). change (@real NumR) with R in *.
    set (b := c_beta c : R) in *. lra.
Qed.
