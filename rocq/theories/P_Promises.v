(** The invariant spelled out *)
From Coq Require Import ZArith List Bool Arith Lia ZifyBool.
From Verif Require Import Base Num RNG Momentum Complex Lattice Bundle IndexMap Weights Diagram Markov
  P_Momentum P_RNG P_Bundle P_Lattice P_IndexMap P_WP P_Inv P_Rel P_Sem1.
Import ListNotations.
Open Scope Z_scope.

Section Prom.
Context {N : Num}.
Variables (c : @cfg N) (d : diagram).
Hypothesis HI : Inv c d.

Ltac ex := repeat setoid_rewrite live_exist.

Lemma promise_C01 :
  (forall g e, bexist (gB d) g = true -> bexist (vB d) (g_ver d g e) = true /\ v_G d (g_ver d g e) (inv e) = g) /\
  (forall w e, bexist (wB d) w = true ->
     bexist (vB d) (w_ver d w e) = true /\ v_W d (w_ver d w e) = w /\ v_D d (w_ver d w e) = e) /\
  (forall v e, bexist (vB d) v = true ->
     bexist (gB d) (v_G d v e) = true /\ (forall g, bexist (gB d) g = true -> (g_ver d g (inv e) = v <-> g = v_G d v e))) /\
  (forall v, bexist (vB d) v = true ->
     bexist (wB d) (v_W d v) = true /\
     (forall w e, bexist (wB d) w = true -> (w_ver d w e = v <-> w = v_W d v /\ e = v_D d v))).
Proof.
  ex. destruct (i_tG _ _ HI) as [A B], (i_tW _ _ HI) as [C D]. split; [exact A|]. split; [exact C|]. split.
  - intros v e Lv. destruct (B v e Lv) as [L E]. split; [exact L|]. intros g Lg. split; [|intros ->; exact E].
    intros X. destruct (A g (inv e) Lg) as [_ Y]. rewrite X in Y. rewrite <- Y. now destruct e.
  - intros v Lv. destruct (D v Lv) as [L E]. split; [exact L|]. intros w e Lw. split; [|intros [-> ->]; exact E].
    intros X. destruct (C w e Lw) as (_ & Y & Z0). rewrite X in Y, Z0. auto.
Qed.

Lemma promise_C02 : forall v, bexist (vB d) v = true ->
    (g_K d (v_G d v IN) - g_K d (v_G d v OUT)
     - (match v_D d v with IN => w_K d (v_W d v) | OUT => - w_K d (v_W d v) end)
     + (if wm_ex d then (if Nat.eqb v (ira d) then - wm_K d else if Nat.eqb v (masha d) then wm_K d else 0) else 0)) mod 20001 = 0.
Proof.
  ex. intros v Lv. destruct (i_K _ _ HI v Lv) as [q K]. unfold wterm in K. unfold MODK, MAX_K in K.
  match type of K with ?x - 0 = _ => assert (E : x = q * 20001) by lia end. clear K.
  match goal with |- ?y mod _ = 0 => assert (Ey : y = q * 20001) end.
  { rewrite <- E. clear E. destruct (v_D d v); unfold SIGN; lia. }
  rewrite Ey. apply Z.mod_mul. discriminate.
Qed.

Lemma promise_C03 :
  (forall g, bexist (gB d) g = true -> -10000 <= g_K d g <= 10000) /\
  (forall w, bexist (wB d) w = true -> -10000 <= w_K d w <= 10000 /\ w_K d w <> 0) /\
  (forall k, -10000 <= k <= 10000 -> (ghash d (k + 10000) = true <-> exists g, bexist (gB d) g = true /\ g_K d g = k)) /\
  (forall k, 0 <= k <= 10000 -> (whash d k = true <-> exists w, bexist (wB d) w = true /\ Z.abs (w_K d w) = k)) /\
  (forall g g', bexist (gB d) g = true -> bexist (gB d) g' = true -> g_K d g = g_K d g' -> g = g') /\
  (forall w w', bexist (wB d) w = true -> bexist (wB d) w' = true -> Z.abs (w_K d w) = Z.abs (w_K d w') -> w = w').
Proof.
  ex. destruct (i_hG _ _ HI) as (A1 & A2 & A3), (i_hW _ _ HI) as (B1 & B2 & B3).
  unfold kindex, kabs, MAX_K in *. split; [|split; [|split; [|split; [|split]]]].
  - intros g L. specialize (A1 g L). cbv beta in A1. clear - A1. lia.
  - intros w L. specialize (B1 w L). cbv beta in B1. split; [clear - B1; lia|exact (i_hW0 _ _ HI w L)].
  - intros k Hk. rewrite A2 by (clear - Hk; lia). split; intros (g & L & E); exists g; (split; [exact L|]); clear - E Hk; lia.
  - intros k Hk. rewrite B2 by (clear - Hk; lia). split; intros (g & L & E); exists g; (split; [exact L|]); clear - E Hk; lia.
  - intros g g' L L' E. apply A3; auto. now rewrite E.
  - intros g g' L L' E. apply B3; auto.
Qed.

Lemma promise_C05 : cfg_ok c ->
  0 <= order d <= c_order c /\
  (order d <> 0 -> Z.of_nat (avail (wB d)) = order d /\ Z.of_nat (avail (gB d)) = 2 * order d /\ Z.of_nat (avail (vB d)) = 2 * order d) /\
  (order d = 0 -> avail (wB d) = 1%nat /\ avail (gB d) = 2%nat /\ avail (vB d) = 2%nat) /\
  (forall b, (b = gB d \/ b = wB d \/ b = vB d) ->
     (avail b <= 18)%nat /\ exists l, NoDup l /\ length l = avail b /\ forall x, In x l <-> bexist b x = true).
Proof.
  intros C. pose proof (co_order c C) as Ho. destruct (i_cnt _ _ HI) as (H1 & H2 & H3 & H4 & H5).
  split; [clear - H1 H5 H4; lia|]. split; [clear - H1 H2 H3; lia|]. split; [clear - H1 H2 H3 H4; lia|].
  assert (B : forall b, BInv b -> exists l, NoDup l /\ length l = avail b /\ forall x, In x l <-> bexist b x = true).
  { intros b Bb. exists (liveL b). split; [now apply liveL_nodup|]. split; [apply liveL_length|].
    intros x. rewrite live_exist. now apply liveL_in. }
  intros b [-> |[-> | ->]].
  - split; [clear - H2 H5 Ho; lia|apply B, HI].
  - split; [clear - H5 Ho; lia|apply B, HI].
  - split; [clear - H3 H5 Ho; lia|apply B, HI].
Qed.

Lemma promise_C06 : forall g, bexist (gB d) g = true -> v_S d (g_ver d g IN) OUT = v_S d (g_ver d g OUT) IN.
Proof. ex. exact (i_spin _ _ HI). Qed.

Lemma promise_C07 :
  if measG d
  then bexist (gB d) (gmeas d) = true /\ (forall g, bexist (gB d) g = true -> (g_meas d g = true <-> g = gmeas d)) /\
       (forall w, bexist (wB d) w = true -> w_meas d w = false)
  else bexist (wB d) (wmeas d) = true /\ (forall w, bexist (wB d) w = true -> (w_meas d w = true <-> w = wmeas d)) /\
       (forall g, bexist (gB d) g = true -> g_meas d g = false).
Proof. pose proof (i_meas _ _ HI) as M. unfold Meas in M. destruct (measG d); ex; exact M. Qed.

Lemma promise_C08 :
  (wm_ex d = true ->
     order d <> 0 /\ bexist (vB d) (ira d) = true /\ bexist (vB d) (masha d) = true /\ ira d <> masha d /\
     w_ver d (v_W d (masha d)) OUT = masha d /\ (wm_ds d = 1 \/ wm_ds d = -1) /\
     forall w, bexist (wB d) w = true ->
       (w_worm d w = true <-> exists e, w_ver d w e = ira d \/ w_ver d w e = masha d)) /\
  (wm_ex d = false -> forall w, bexist (wB d) w = true -> w_worm d w = false).
Proof.
  ex. pose proof (i_worm _ _ HI) as W. unfold Worm in W. split; intros Ex; rewrite Ex in W; [|exact W].
  destruct W as (Li & Lm & Nim & Dm & Ho & Hd & _ & Hw). rewrite ?live_exist. split; [auto|]. split; [auto|]. split; [auto|]. split; [auto|].
  split. { destruct (proj2 (i_tW _ _ HI) _ Lm) as [_ X]. now rewrite Dm in X. }
  split; [auto|]. intros w L. rewrite (Hw w L). split.
  - intros [<- | <-].
    + exists (v_D d (ira d)). left. now apply (i_tW _ _ HI).
    + exists (v_D d (masha d)). right. now apply (i_tW _ _ HI).
  - intros (e & [<- | <-]); [left|right]; now apply (i_tW _ _ HI).
Qed.

Lemma promise_C09 :
  (gamma d = 0 \/ gamma d = 1 \/ gamma d = 2) /\
  (gamma d <> 0 -> order d <> 0 /\ c_gamma3 c = true) /\
  (gamma d = 1 -> exists g, bexist (gB d) g = true /\ g_meas d g = false /\ vin d = VG g IN /\ vout d = VG g OUT /\
      forall g', bexist (gB d) g' = true -> (g_gg d g' = true <-> g' = g)) /\
  (gamma d = 2 -> exists w, bexist (wB d) w = true /\ w_meas d w = false /\ w_delta d w = false /\
      vin d = VW w IN /\ vout d = VW w OUT /\
      forall w', bexist (wB d) w' = true -> (w_ww d w' = true <-> w' = w)) /\
  (gamma d <> 1 -> forall g, bexist (gB d) g = true -> g_gg d g = false) /\
  (gamma d <> 2 -> forall w, bexist (wB d) w = true -> w_ww d w = false).
Proof.
  ex. destruct (i_gam _ _ HI) as [(G & A & B)|[(G & A & B & g & L & M & V1 & V2 & X & Y)|(G & A & B & w & L & M & D & V1 & V2 & X & Y)]];
    rewrite G; (split; [clear; lia|]); (split; [intros Z0; try (exfalso; clear - Z0; lia); auto|]);
    (split; [intros Z0; try (exfalso; clear - Z0; lia)|]); [|exists g; now rewrite ?live_exist| |].
  - split; [intros Z0; exfalso; clear - Z0; lia|]. auto.
  - split; [intros Z0; exfalso; clear - Z0; lia|]. split; [intros Z0; exfalso; clear - Z0; lia|auto].
  - split; [intros _; exists w; now rewrite ?live_exist|]. split; [auto|intros Z0; exfalso; clear - Z0; lia].
Qed.

Lemma promise_C11 :
  (forall g, bexist (gB d) g = true ->
     GWeight (c_tab c) (v_R d (g_ver d g IN)) (v_R d (g_ver d g OUT)) (v_T d (g_ver d g IN)) (v_T d (g_ver d g OUT))
       (v_S d (g_ver d g IN) OUT) (v_S d (g_ver d g OUT) IN) (g_meas d g) (g_gg d g) (uext d) = Ok (g_W d g)) /\
  (forall w, bexist (wB d) w = true ->
     WWeight (c_tab c) (v_R d (w_ver d w IN)) (v_R d (w_ver d w OUT)) (v_T d (w_ver d w IN)) (v_T d (w_ver d w OUT))
       (v_S d (w_ver d w IN)) (v_S d (w_ver d w OUT)) (w_worm d w) (w_meas d w) (w_delta d w) (w_ww d w) (uext d) = Ok (w_W d w)).
Proof. ex. split; [exact (i_sG _ _ HI)|exact (i_sW _ _ HI)]. Qed.

Lemma promise_C17 :
  (forall g, bexist (gB d) g = true -> v_R d (g_ver d g IN) = v_R d (g_ver d g OUT)) /\
  (forall v k, bexist (vB d) v = true ->
     v_R d (Nat.iter k (fun x => g_ver d (v_G d x OUT) OUT) v) = v_R d v) /\
  (forall v, bexist (vB d) v = true ->
     0 <= sub (v_R d v) < SublatVol (c_lat c) /\ Forall2 (fun z x => 0 <= x < z) (Size (c_lat c)) (coord (v_R d v))).
Proof.
  ex. split; [exact (i_loc _ _ HI)|]. split; [|exact (i_site _ _ HI)]. intros v k Lv.
  assert (X : live (vB d) (Nat.iter k (fun x => g_ver d (v_G d x OUT) OUT) v) /\
    v_R d (Nat.iter k (fun x => g_ver d (v_G d x OUT) OUT) v) = v_R d v); [|apply X].
  set (f := fun x => g_ver d (v_G d x OUT) OUT).
  induction k as [|k [IH1 IH2]]; [split; [exact Lv|reflexivity]|].
  change (Nat.iter (S k) f v) with (f (Nat.iter k f v)). set (u := Nat.iter k f v) in *. unfold f. pose proof (f_vg HI u OUT IH1) as Lg. split; [now apply (f_gv HI)|].
  rewrite <- (i_loc _ _ HI _ Lg), <- IH2. f_equal. exact (f_vgv HI u OUT IH1).
Qed.

Lemma promise_C18 :
  (forall g, bexist (gB d) g = true -> g_ver d g IN = g_ver d g OUT ->
     wm_ex d = true /\ (g_ver d g IN = ira d \/ g_ver d g IN = masha d)) /\
  (order d <= 1 -> wm_ex d = false -> exists v1 v2 g1 g2 w,
     v1 <> v2 /\ g1 <> g2 /\
     (forall v, bexist (vB d) v = true <-> v = v1 \/ v = v2) /\
     (forall g, bexist (gB d) g = true <-> g = g1 \/ g = g2) /\
     (forall x, bexist (wB d) x = true <-> x = w) /\
     g_ver d g1 IN = v1 /\ g_ver d g1 OUT = v2 /\ g_ver d g2 IN = v2 /\ g_ver d g2 OUT = v1 /\
     w_ver d w IN = v1 /\ w_ver d w OUT = v2).
Proof.
  ex. split.
  - intros g L E. pose proof (f_gv HI g IN L) as Lv. pose proof (f_gvg HI g IN L) as A. pose proof (f_gvg HI g OUT L) as B.
    rewrite <- E in B. cbn [inv] in A, B.
    destruct (wm_ex d) eqn:Ex.
    + destruct (Nat.eq_dec (g_ver d g IN) (ira d)); [auto|]. destruct (Nat.eq_dec (g_ver d g IN) (masha d)); [auto|].
      exfalso. apply (f_notad HI _ Lv); auto. congruence.
    + exfalso. apply (f_notad HI _ Lv); congruence.
  - intros Ho Ex. destruct (i_cnt _ _ HI) as (H1 & H2 & H3 & H4 & H5).
    assert (A1 : avail (wB d) = 1%nat) by (clear - H1 H4 Ho; lia). clear H1 H2 H3 H4 H5 Ho.
    set (w := names (wB d) 0). pose proof (i_bw _ _ HI) as Bw. destruct (bi_names _ Bw 0) as [Lw Nw]; [lia|]. fold w in Lw, Nw.
    assert (LW : live (wB d) w) by (split; [exact Lw|lia]).
    assert (UW : forall x, live (wB d) x -> x = w).
    { intros x [Lx Nx]. apply (nm_inj (wB d)); auto. lia. }
    set (v1 := w_ver d w IN). set (v2 := w_ver d w OUT).
    assert (L1 : live (vB d) v1) by now apply (f_wv HI). assert (L2 : live (vB d) v2) by now apply (f_wv HI).
    assert (N12 : v1 <> v2) by now apply (f_wends HI).
    assert (UV : forall v, live (vB d) v -> v = v1 \/ v = v2).
    { intros v Lv. pose proof (f_vwv HI v Lv) as X. rewrite (UW _ (f_vw HI v Lv)) in X. unfold v1, v2. destruct (v_D d v); auto. }
    assert (NT : forall v, live (vB d) v -> g_ver d (v_G d v OUT) OUT <> v).
    { intros v Lv X. pose proof (f_gvg HI _ OUT (f_vg HI v OUT Lv)) as Y. rewrite X in Y. cbn [inv] in Y.
      apply (f_notad HI v Lv); congruence. }
    pose proof (f_vgv HI v1 OUT L1) as T1. pose proof (f_vgv HI v2 OUT L2) as T2. cbn [inv] in T1, T2.
    pose proof (NT v1 L1) as Q1. pose proof (NT v2 L2) as Q2.
    destruct (UV _ (f_gv HI _ OUT (f_vg HI v1 OUT L1))) as [X1|X1]; [contradiction|].
    destruct (UV _ (f_gv HI _ OUT (f_vg HI v2 OUT L2))) as [X2|X2]; [|contradiction].
    exists v1, v2, (v_G d v1 OUT), (v_G d v2 OUT), w. split; [exact N12|]. split; [congruence|].
    split; [|split; [|split; [|split; [exact T1|split; [exact X1|split; [exact T2|split; [exact X2|split; reflexivity]]]]]]].
    + intros v. rewrite ?live_exist. split; [apply UV|intros [-> | ->]; auto].
    + intros g. rewrite ?live_exist. split; [|intros [-> | ->]; now apply (f_vg HI)]. intros Lg.
      pose proof (f_gvg HI g IN Lg) as Y. cbn [inv] in Y. destruct (UV _ (f_gv HI g IN Lg)) as [Z0|Z0]; rewrite Z0 in Y; auto.
    + intros x. rewrite ?live_exist. split; [apply UW|intros ->; auto].
Qed.

Lemma promise_C50 : forall w, bexist (wB d) w = true ->
    let out v := spinZ (v_S d v OUT) in let into v := spinZ (v_S d v IN) in
    let a := w_ver d w IN in let b := w_ver d w OUT in
    (out a - into a) + (out b - into b) =
      (if wm_ex d then (if Nat.eqb (masha d) a || Nat.eqb (masha d) b then wm_ds d else 0)
                     - (if Nat.eqb (ira d) a || Nat.eqb (ira d) b then wm_ds d else 0) else 0).
Proof.
  ex. intros w L. cbv zeta. pose proof (i_cur _ _ HI w L) as X. unfold cur in X. match type of X with _ = ?r => transitivity r; [exact X|] end. clear X.
  pose proof (i_worm _ _ HI) as W. unfold Worm in W. destruct (wm_ex d); [|reflexivity].
  destruct W as (Li & Lm & _).
  assert (Q : forall v, live (vB d) v -> Nat.eqb (v_W d v) w = Nat.eqb v (w_ver d w IN) || Nat.eqb v (w_ver d w OUT)).
  { intros v Lv. apply eq_true_iff_eq. rewrite orb_true_iff, !Nat.eqb_eq. split.
    - intros <-. pose proof (f_vwv HI v Lv) as X. destruct (v_D d v); auto.
    - intros [-> | ->]; now apply (f_wvw HI). }
  rewrite !Q by auto. unfold b2z. destruct (_ || _), (_ || _); lia.
Qed.

(** All structural promises of one diagram, as stated in the theorems of Prop_Markov.v *)
Record structural : Prop := {
  st_C01 : (forall g e, bexist (gB d) g = true -> bexist (vB d) (g_ver d g e) = true /\ v_G d (g_ver d g e) (inv e) = g) /\
  (forall w e, bexist (wB d) w = true ->
     bexist (vB d) (w_ver d w e) = true /\ v_W d (w_ver d w e) = w /\ v_D d (w_ver d w e) = e) /\
  (forall v e, bexist (vB d) v = true ->
     bexist (gB d) (v_G d v e) = true /\ (forall g, bexist (gB d) g = true -> (g_ver d g (inv e) = v <-> g = v_G d v e))) /\
  (forall v, bexist (vB d) v = true ->
     bexist (wB d) (v_W d v) = true /\
     (forall w e, bexist (wB d) w = true -> (w_ver d w e = v <-> w = v_W d v /\ e = v_D d v)));
  st_C02 : forall v, bexist (vB d) v = true ->
    (g_K d (v_G d v IN) - g_K d (v_G d v OUT)
     - (match v_D d v with IN => w_K d (v_W d v) | OUT => - w_K d (v_W d v) end)
     + (if wm_ex d then (if Nat.eqb v (ira d) then - wm_K d else if Nat.eqb v (masha d) then wm_K d else 0) else 0)) mod 20001 = 0;
  st_C03 : (forall g, bexist (gB d) g = true -> -10000 <= g_K d g <= 10000) /\
  (forall w, bexist (wB d) w = true -> -10000 <= w_K d w <= 10000 /\ w_K d w <> 0) /\
  (forall k, -10000 <= k <= 10000 -> (ghash d (k + 10000) = true <-> exists g, bexist (gB d) g = true /\ g_K d g = k)) /\
  (forall k, 0 <= k <= 10000 -> (whash d k = true <-> exists w, bexist (wB d) w = true /\ Z.abs (w_K d w) = k)) /\
  (forall g g', bexist (gB d) g = true -> bexist (gB d) g' = true -> g_K d g = g_K d g' -> g = g') /\
  (forall w w', bexist (wB d) w = true -> bexist (wB d) w' = true -> Z.abs (w_K d w) = Z.abs (w_K d w') -> w = w');
  st_C05 : 0 <= order d <= c_order c /\
  (order d <> 0 -> Z.of_nat (avail (wB d)) = order d /\ Z.of_nat (avail (gB d)) = 2 * order d /\ Z.of_nat (avail (vB d)) = 2 * order d) /\
  (order d = 0 -> avail (wB d) = 1%nat /\ avail (gB d) = 2%nat /\ avail (vB d) = 2%nat) /\
  (forall b, (b = gB d \/ b = wB d \/ b = vB d) ->
     (avail b <= 18)%nat /\ exists l, NoDup l /\ length l = avail b /\ forall x, In x l <-> bexist b x = true);
  st_C06 : forall g, bexist (gB d) g = true -> v_S d (g_ver d g IN) OUT = v_S d (g_ver d g OUT) IN;
  st_C07 : if measG d
  then bexist (gB d) (gmeas d) = true /\ (forall g, bexist (gB d) g = true -> (g_meas d g = true <-> g = gmeas d)) /\
       (forall w, bexist (wB d) w = true -> w_meas d w = false)
  else bexist (wB d) (wmeas d) = true /\ (forall w, bexist (wB d) w = true -> (w_meas d w = true <-> w = wmeas d)) /\
       (forall g, bexist (gB d) g = true -> g_meas d g = false);
  st_C08 : (wm_ex d = true ->
     order d <> 0 /\ bexist (vB d) (ira d) = true /\ bexist (vB d) (masha d) = true /\ ira d <> masha d /\
     w_ver d (v_W d (masha d)) OUT = masha d /\ (wm_ds d = 1 \/ wm_ds d = -1) /\
     forall w, bexist (wB d) w = true ->
       (w_worm d w = true <-> exists e, w_ver d w e = ira d \/ w_ver d w e = masha d)) /\
  (wm_ex d = false -> forall w, bexist (wB d) w = true -> w_worm d w = false);
  st_C09 : (gamma d = 0 \/ gamma d = 1 \/ gamma d = 2) /\
  (gamma d <> 0 -> order d <> 0 /\ c_gamma3 c = true) /\
  (gamma d = 1 -> exists g, bexist (gB d) g = true /\ g_meas d g = false /\ vin d = VG g IN /\ vout d = VG g OUT /\
      forall g', bexist (gB d) g' = true -> (g_gg d g' = true <-> g' = g)) /\
  (gamma d = 2 -> exists w, bexist (wB d) w = true /\ w_meas d w = false /\ w_delta d w = false /\
      vin d = VW w IN /\ vout d = VW w OUT /\
      forall w', bexist (wB d) w' = true -> (w_ww d w' = true <-> w' = w)) /\
  (gamma d <> 1 -> forall g, bexist (gB d) g = true -> g_gg d g = false) /\
  (gamma d <> 2 -> forall w, bexist (wB d) w = true -> w_ww d w = false);
  st_C11 : (forall g, bexist (gB d) g = true ->
     GWeight (c_tab c) (v_R d (g_ver d g IN)) (v_R d (g_ver d g OUT)) (v_T d (g_ver d g IN)) (v_T d (g_ver d g OUT))
       (v_S d (g_ver d g IN) OUT) (v_S d (g_ver d g OUT) IN) (g_meas d g) (g_gg d g) (uext d) = Ok (g_W d g)) /\
  (forall w, bexist (wB d) w = true ->
     WWeight (c_tab c) (v_R d (w_ver d w IN)) (v_R d (w_ver d w OUT)) (v_T d (w_ver d w IN)) (v_T d (w_ver d w OUT))
       (v_S d (w_ver d w IN)) (v_S d (w_ver d w OUT)) (w_worm d w) (w_meas d w) (w_delta d w) (w_ww d w) (uext d) = Ok (w_W d w));
  st_C17 : (forall g, bexist (gB d) g = true -> v_R d (g_ver d g IN) = v_R d (g_ver d g OUT)) /\
  (forall v k, bexist (vB d) v = true ->
     v_R d (Nat.iter k (fun x => g_ver d (v_G d x OUT) OUT) v) = v_R d v) /\
  (forall v, bexist (vB d) v = true ->
     0 <= sub (v_R d v) < SublatVol (c_lat c) /\ Forall2 (fun z x => 0 <= x < z) (Size (c_lat c)) (coord (v_R d v)));
  st_C18 : (forall g, bexist (gB d) g = true -> g_ver d g IN = g_ver d g OUT ->
     wm_ex d = true /\ (g_ver d g IN = ira d \/ g_ver d g IN = masha d)) /\
  (order d <= 1 -> wm_ex d = false -> exists v1 v2 g1 g2 w,
     v1 <> v2 /\ g1 <> g2 /\
     (forall v, bexist (vB d) v = true <-> v = v1 \/ v = v2) /\
     (forall g, bexist (gB d) g = true <-> g = g1 \/ g = g2) /\
     (forall x, bexist (wB d) x = true <-> x = w) /\
     g_ver d g1 IN = v1 /\ g_ver d g1 OUT = v2 /\ g_ver d g2 IN = v2 /\ g_ver d g2 OUT = v1 /\
     w_ver d w IN = v1 /\ w_ver d w OUT = v2);
  st_C50 : forall w, bexist (wB d) w = true ->
    let out v := spinZ (v_S d v OUT) in let into v := spinZ (v_S d v IN) in
    let a := w_ver d w IN in let b := w_ver d w OUT in
    (out a - into a) + (out b - into b) =
      (if wm_ex d then (if Nat.eqb (masha d) a || Nat.eqb (masha d) b then wm_ds d else 0)
                     - (if Nat.eqb (ira d) a || Nat.eqb (ira d) b then wm_ds d else 0) else 0) }.
Lemma structural_ok : cfg_ok c -> structural.
Proof.
  intros C. constructor.
  - exact (promise_C01).
  - exact (promise_C02).
  - exact (promise_C03).
  - exact (promise_C05 C).
  - exact (promise_C06).
  - exact (promise_C07).
  - exact (promise_C08).
  - exact (promise_C09).
  - exact (promise_C11).
  - exact (promise_C17).
  - exact (promise_C18).
  - exact (promise_C50).
Qed.
End Prom.
