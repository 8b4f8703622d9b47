(** * IEEE double arithmetic: the uniform generator and the time bins (C31, C51) *)
From Coq Require Import ZArith Lia Reals Lra List Bool Floats.SpecFloat.
From Flocq Require Import Core BinarySingleNaN.
From Verif Require Import Base Num NumR NumF RNG P_RNG P_Float P_FloatTau Lattice IndexMap Weights Diagram Markov DiagramIO History P_WP P_Inv P_History Prop_IO.
Import ListNotations.
Open Scope Z_scope.

Lemma urn_double (x : Z) : 0 <= x < 2 ^ 32 -> exists (b : binary_float 53 1024) (j : Z),
  @urn_of NumF x = B2SF b /\ is_finite b = true /\ 0 <= j < 2 ^ 32 /\ B2R b = (IZR j / 2 ^ 32)%R /\ (0 <= B2R b < 1)%R /\
  @urn_of NumR x = B2R b.
Proof.
  intros Hx. destruct (urn_F x) as (b & E1 & E2 & E3). exists b, (s32 x + 2 ^ 31). pose proof (s32_range x).
  split; auto. split; auto. split; [lia|]. rewrite E3. split; [|split; [apply urn_R_range|reflexivity]].
  rewrite urn_R. now rewrite <- pow2_32.
Qed.
(** C31 for hardware doubles: urn() returns a finite double whose value is exactly the j-th of the
    2^32 equally spaced numbers in [0,1), the same as in exact arithmetic. *)
Theorem C31_urn_double : forall x : Z, 0 <= x < 2 ^ 32 -> exists (b : binary_float 53 1024) (j : Z),
  @urn_of NumF x = B2SF b /\ is_finite b = true /\ 0 <= j < 2 ^ 32 /\ B2R b = (IZR j / 2 ^ 32)%R /\ (0 <= B2R b < 1)%R /\
  @urn_of NumR x = B2R b.
Proof. exact urn_double. Qed.
Print Assumptions C31_urn_double.
Example C31_double_case : @urn_of NumF (2 ^ 31) = S754_zero false /\ @urn_of NumF 1 = S754_finite false 4503599629467648 (-53) .
Proof. split; vm_compute; reflexivity. Qed.

Lemma TauIndex_double (beta : binary_float 53 1024) (m : @imap NumF) (x x' : Z) :
  is_finite beta = true -> (bpow radix2 (-500) <= B2R beta <= bpow radix2 500)%R ->
  im_beta m = B2SF beta -> 1 <= im_maxtau m < 2 ^ 31 -> 0 <= x < 2 ^ 32 -> 0 <= x' < 2 ^ 32 ->
  0 <= TauIndex m (rmul (urn_of x) (B2SF beta : @real NumF)) (rmul (urn_of x') (B2SF beta : @real NumF)) < im_maxtau m.
Proof.
  intros Fb Hb Eb Hm Hx Hx'.
  set (c := mkCfg tabF latF (B2SF beta : @real NumF) 1 false [] (fz 1) (fz 1) (fz 1) (fz 1)).
  apply (TauIndex_F c m (B2R beta)); auto.
  - exists beta. auto.
  - apply draw_gen. exists x. auto.
  - apply draw_gen. exists x'. auto.
Qed.
(** C51. In double arithmetic, for every beta between 2^-500 and 2^500 and every positive number of
    time slices that fits an int, the bin index of the difference of two times RandomPickTau can
    return is a valid index. *)
Theorem C51_time_bin_double :
  forall (beta : binary_float 53 1024) (m : @imap NumF) (x x' : Z),
  is_finite beta = true -> (bpow radix2 (-500) <= B2R beta <= bpow radix2 500)%R ->
  im_beta m = B2SF beta -> 1 <= im_maxtau m < 2 ^ 31 -> 0 <= x < 2 ^ 32 -> 0 <= x' < 2 ^ 32 ->
  0 <= TauIndex m (rmul (urn_of x) (B2SF beta : @real NumF)) (rmul (urn_of x') (B2SF beta : @real NumF)) < im_maxtau m.
Proof. exact TauIndex_double. Qed.
Print Assumptions C51_time_bin_double.
Example C51_case : exists beta : binary_float 53 1024, is_finite beta = true /\ B2R beta = 10%R /\
  (bpow radix2 (-500) <= B2R beta <= bpow radix2 500)%R.
Proof.
  destruct (Fin_Zx 10 ltac:(lia)) as (b & _ & H1 & H2). exists b. split; auto. split; auto. rewrite H2. split.
  - apply Rle_trans with (bpow radix2 0); [apply bpow_le; lia|cbn; lra].
  - apply Rle_trans with (bpow radix2 4); [cbn; lra|apply bpow_le; lia].
Qed.

(** ** The history theorems hold of the double-precision program: the setup of Prop_IO.v meets
    their hypothesis, and so does every setup within [setup_ieee]. *)
Lemma one_moderate : moderate 1.
Proof. split; [apply Rle_trans with (bpow radix2 0); [apply bpow_le; lia|apply Rle_refl]|apply Rle_trans with (bpow radix2 0); [apply Rle_refl|apply bpow_le; lia]]. Qed.
Lemma cfgF_ok : cfg_ok cfgF.
Proof.
  apply (setup_ieee cfgF 1); cbn [c_order c_orw c_lat c_tab c_beta c_gamma3 cfgF gmap wmap tabF im_lat im_nsp im_maxtau im_beta latF Size SublatVol];
    try lia; try discriminate; try reflexivity.
  - cbn. lia.
  - repeat constructor.
  - apply (Fin_Zx 1). lia.
  - exact one_moderate.
Qed.
Lemma newF_ok : new_ok (c_lat cfgF).
Proof. split; cbn; auto. lia. Qed.
