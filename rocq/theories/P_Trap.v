(** What an infinite or undefined WormSpaceReweight does to the walk (IEEE doubles) *)
From Coq Require Import ZArith List Bool Lia Reals Lra Floats.SpecFloat.
From Flocq Require Import Core BinarySingleNaN.
From Verif Require Import Base Num NumF RNG Complex Weights Diagram Markov DiagramIO History P_WP P_Inv P_Rel P_Hop P_Fix P_IO P_History P_RNG P_Float P_FloatTau.
Import ListNotations.
Open Scope Z_scope.

Section Worm.
Context {N : Num}.
Definition worm_w (d : diagram) : Prop := wm_ex d = true -> wm_W d = WormWeight.
Lemma worm_prop c d op p d' r : prop_rel c d op p d' r ->
  (wm_ex d' = wm_ex d \/ op = CREATE_WORM /\ create_rel c d p d' r /\ wm_ex d = false \/ op = DELETE_WORM /\ delete_rel c d p d' r /\ wm_ex d = true) /\ wm_ex r = wm_ex d /\
  (worm_w d -> worm_w d' /\ worm_w r).
Proof.
  intros H. destruct H as [? ? ? H|? ? ? H|? ? ? H|? ? ? H|? ? ? H|? ? ? H|? ? ? H|? ? ? H|? ? ? H|? ? ? H|? ? ? H|? ? ? H|? ? ? H|? ? ? H|? ? ? H|? ? ? H|? ? ? H|? ? ? G3 H|? ? ? G3 H|? ? ? G3 H|? ? ? G3 H].
  1: { split; [right; left|]; destruct H; (split; [reflexivity|]) ; [split; [econstructor; eassumption|assumption]|]. intros W. split; [intros _; reflexivity|exact W]. }
  1: { split; [right; right|]; destruct H; (split; [reflexivity|]) ; [split; [econstructor; eassumption|assumption]|]. intros W. split; [intros X; discriminate X|exact W]. }
  all: destruct H; (split; [left; reflexivity|]); (split; [reflexivity|]); intros W; split; (exact W || (intros _; reflexivity)).
Qed.
Lemma worm_w_history {E} (next : E -> Z * E) (c : cfg) s : cfg_ok c -> new_ok (c_lat c) -> history next c s -> worm_w (md s).
Proof.
  intros C LK H. induction H as [s d0 K B|s s1 d0 F H IH T K L|s s' c' n H IH R HH].
  - destruct (BuildNew_inv c d0 C (proj1 LK) (proj2 LK) K) as (co & d1 & d' & _ & B' & Y & F & HI & _). rewrite B in B'. injection B' as E'.
    destruct F as (_ & _ & _ & _ & _ & _ & _ & _ & _ & _ & _ & _ & _ & _ & _ & F1 & _ & _ & _ & _ & _ & _ & _ & _ & F2 & _).
    intros X. rewrite E', F1 in X. rewrite E', F2, X. reflexivity.
  - pose proof (history_inv next c s1 C LK H) as HI. pose proof (Inv_Pre c _ HI) as P. rewrite (ToDict_spec c _ P) in T. injection T as <-.
    destruct (load_inv c (md s1) d0 C P K) as (d1 & d' & B' & Y & F & HI' & Ga'). rewrite L in B'. injection B' as E'.
    destruct F as (_ & _ & _ & _ & _ & _ & _ & _ & _ & _ & _ & _ & _ & _ & _ & F1 & _ & _ & _ & _ & _ & _ & _ & _ & F2 & _).
    intros X. rewrite E', F1 in X. rewrite E', F2, X. reflexivity.
  - pose proof (history_inv next c s C LK H) as HI.
    apply (retuned_Inv c c' _ R) in HI. pose proof (retuned_ok c c' C R) as C'.
    destruct (Hop_ok next c' n s C' HI) as (s2 & B & S & _). rewrite HH in B. injection B as <-.
    clear - S IH. induction S as [|n0 d d1 d2 H Hs IHs]; auto. apply IHs. destruct H as [|op p d' r H _|op p d' r H A];
      [exact IH|apply (worm_prop c' _ _ _ _ _ H)|apply (worm_prop c' _ _ _ _ _ H)]; exact IH.
Qed.
End Worm.

Notation cfgF64 := (@cfg NumF).
Lemma mul_nan_r (x : F64) : SFmul 53 1024 x S754_nan = S754_nan.
Proof. destruct x; reflexivity. Qed.
Lemma nan_rejected : ~ @accepts NumF S754_nan.
Proof.
  intros [H|(x & _ & H)]; [discriminate H|]. change (SFltb (@urn_of NumF x) S754_nan = true) in H. unfold SFltb, SFcompare in H. destruct (@urn_of NumF x); discriminate H.
Qed.
Lemma nan_create (c : cfgF64) d p d' r : c_wsr c = S754_nan -> create_rel c d p d' r -> ~ accepts p.
Proof.
  intros W H. destruct H. rewrite W. cbn [rmul NumF].
  rewrite !mul_nan_r. change (@real NumF) with F64 in *. match goal with |- ~ accepts ?x => replace x with (S754_nan : F64); [exact nan_rejected|] end. reflexivity.
Qed.
Lemma zero_rejected s : ~ @accepts NumF (S754_zero s).
Proof.
  intros [H|(x & _ & H)]; [discriminate H|]. destruct (urn_F x) as (b & E1 & E2 & E3). change (SFltb (@urn_of NumF x) (S754_zero s) = true) in H. rewrite E1 in H.
  assert (P : (0 <= B2R b)%R) by (rewrite E3; apply P_RNG.urn_R_range). destruct b as [| | |sb m e Hb]; try discriminate E2; cbn in H; try discriminate H.
  destruct sb; [|discriminate H]. cbn in P. assert (F2R (beta:=radix2) (Float radix2 (Z.neg m) e) < 0)%R by (apply F2R_lt_0; reflexivity). lra.
Qed.
Lemma inf_mul (x y : F64) : (exists m e, x = S754_finite false m e) -> y = S754_infinity false -> SFmul 53 1024 x y = S754_infinity false /\ SFmul 53 1024 y x = S754_infinity false.
Proof. intros (m & e & ->) ->. split; reflexivity. Qed.
Lemma Pc_pos (c : cfgF64) op : 0 <= op < 19 -> exists m e, @Pc NumF c op = S754_finite false m e.
Proof.
  intros H. unfold Pc, nupd, MCUpdates, NUpdates. destruct (c_gamma3 c); (destruct (Z.ltb_spec op 23) || idtac); (destruct (Z.ltb_spec op 19) || idtac); try lia; do 2 eexists; vm_compute; reflexivity.
Qed.
Lemma order_pos n : 1 <= n <= 9 -> exists m e, @rofZ NumF n = S754_finite false m e.
Proof. intros H. assert (D : n = 1 \/ n = 2 \/ n = 3 \/ n = 4 \/ n = 5 \/ n = 6 \/ n = 7 \/ n = 8 \/ n = 9) by lia. repeat destruct D as [->|D]; [..|subst n]; do 2 eexists; vm_compute; reflexivity. Qed.
Lemma inf_delete (c : cfgF64) d p d' r : cfg_ok c -> Inv c d -> worm_w d -> c_wsr c = S754_infinity false -> delete_rel c d p d' r -> ~ accepts p.
Proof.
  intros C HI WW W H. destruct H as [w k wW O EX _ _ _ _ _ _]. rewrite W, (WW EX). pose proof (i_cnt _ _ HI) as Q. unfold Cnt in Q. pose proof (co_order c C) as CO.
  assert (O9 : 1 <= order d <= 9) by lia. clear Q CO C HI WW W EX O.
  destruct (Pc_pos c CREATE_WORM) as (m1 & e1 & ->); [cbv; split; [discriminate|reflexivity]|]. destruct (Pc_pos c DELETE_WORM) as (m2 & e2 & ->); [cbv; split; [discriminate|reflexivity]|]. destruct (order_pos _ O9) as (m3 & e3 & ->).
  assert (X : exists s, @accepts NumF (rmul (cmod (cdiv wW (w_W d w))) (rdiv (S754_finite false m1 e1 : @real NumF)
     (rmul (rmul (rmul (rmul (S754_finite false m2 e2 : @real NumF) (S754_infinity false)) WormWeight) (S754_finite false m3 e3)) r2))) -> @accepts NumF s /\ (s = S754_nan \/ exists b, s = S754_zero b)).
  { eexists. intros A. split; [exact A|]. change (@rmul NumF (@rmul NumF (@rmul NumF (@rmul NumF (S754_finite false m2 e2) (S754_infinity false)) WormWeight) (S754_finite false m3 e3)) r2) with (S754_infinity false : F64).
    change (@rdiv NumF (S754_finite false m1 e1) (S754_infinity false)) with (S754_zero false : F64). destruct (cmod (cdiv wW (w_W d w))) as [b|b| |b m e]; cbn; eauto. }
  destruct X as (s & X). intros A. apply X in A as [A [->|(b & ->)]]; [exact (nan_rejected A)|exact (zero_rejected b A)].
Qed.

Lemma trapped {E} (next : E -> Z * E) (c c' : cfgF64) s s' n : cfg_ok c -> new_ok (c_lat c) -> history next c s -> retuned c c' -> Hop next c' n s = Ok (tt, s') ->
  (c_wsr c' = S754_nan -> wm_ex (md s) = false -> wm_ex (md s') = false) /\ (c_wsr c' = S754_infinity false -> wm_ex (md s) = true -> wm_ex (md s') = true).
Proof.
  intros C LK Hh RT HH. pose proof (history_inv next c s C LK Hh) as HI. apply (retuned_Inv c c' _ RT) in HI. pose proof (retuned_ok c c' C RT) as C'. pose proof (worm_w_history next c s C LK Hh) as WW.
  destruct (Hop_ok next c' n s C' HI) as (s2 & B & S & _). rewrite HH in B. injection B as <-. clear - S HI C' WW. induction S as [|n0 d d1 d2 H Hs IH]; [auto|].
  pose proof (hstep_pres c' d d1 C' HI H) as HI1.
  assert (ST : worm_w d1 /\ (c_wsr c' = S754_nan -> wm_ex d = false -> wm_ex d1 = false) /\ (c_wsr c' = S754_infinity false -> wm_ex d = true -> wm_ex d1 = true)).
  { destruct H as [|op p d' r H _|op p d' r H A]; [auto|destruct (worm_prop c' _ _ _ _ _ H) as (_ & K2 & K3); split; [apply K3; exact WW|rewrite K2; auto]|].
    destruct (worm_prop c' _ _ _ _ _ H) as (K1 & _ & K3). split; [apply K3; exact WW|]. destruct K1 as [->|[(-> & R & X)|(-> & R & X)]]; [auto| |]; split; intros W Y.
    - destruct (nan_create c' d p d' r W R A).
    - congruence.
    - congruence.
    - destruct (inf_delete c' d p d' r C' HI WW W R A). }
  destruct ST as (S1 & S2 & S3). destruct (IH HI1 S1) as [I1 I2]. split; intros W Y; auto.
Qed.
