(** Saving, loading and resetting: the specification of "same diagram" and its proof *)
From Coq Require Import ZArith List Bool Arith Lia ZifyBool.
From Verif Require Import Base Num RNG Momentum Complex Lattice Bundle IndexMap Weights Diagram Markov DiagramIO History
  P_Momentum P_RNG P_Bundle P_Lattice P_IndexMap P_WP P_Inv P_Rel P_Sem1 P_Hop P_Fix P_IO P_History.
Import ListNotations.
Open Scope Z_scope.

(** [f] maps the existing slots of [b] one to one onto those of [b'] *)
Definition bijection (b b' : bundle) (f : nat -> nat) : Prop :=
  (forall x, bexist b x = true -> bexist b' (f x) = true) /\
  (forall x y, bexist b x = true -> bexist b y = true -> f x = f y -> x = y) /\
  (forall y, bexist b' y = true -> exists x, bexist b x = true /\ f x = y).

(** [d'] is [d] up to a renaming of slots, for everything except the order, the vertex
    correction, and values computed from the rest (weights, phase). *)
Record same_diagram {N : Num} (fv fg fw : nat -> nat) (d d' : diagram) : Prop := {
  sd_v : bijection (vB d) (vB d') fv;
  sd_g : bijection (gB d) (gB d') fg;
  sd_w : bijection (wB d) (wB d') fw;
  sd_vR : forall v, bexist (vB d) v = true -> v_R d' (fv v) = v_R d v;
  sd_vT : forall v, bexist (vB d) v = true -> v_T d' (fv v) = v_T d v;
  sd_vS : forall v e, bexist (vB d) v = true -> v_S d' (fv v) e = v_S d v e;
  sd_vD : forall v, bexist (vB d) v = true -> v_D d' (fv v) = v_D d v;
  sd_vW : forall v, bexist (vB d) v = true -> v_W d' (fv v) = fw (v_W d v);
  sd_vG : forall v e, bexist (vB d) v = true -> v_G d' (fv v) e = fg (v_G d v e);
  sd_gv : forall g e, bexist (gB d) g = true -> g_ver d' (fg g) e = fv (g_ver d g e);
  sd_gK : forall g, bexist (gB d) g = true -> g_K d' (fg g) = g_K d g;
  sd_gm : forall g, bexist (gB d) g = true -> g_meas d' (fg g) = g_meas d g;
  sd_wv : forall w e, bexist (wB d) w = true -> w_ver d' (fw w) e = fv (w_ver d w e);
  sd_wK : forall w, bexist (wB d) w = true -> w_K d' (fw w) = w_K d w;
  sd_wm : forall w, bexist (wB d) w = true -> w_meas d' (fw w) = w_meas d w;
  sd_wd : forall w, bexist (wB d) w = true -> w_delta d' (fw w) = w_delta d w;
  sd_ww : forall w, bexist (wB d) w = true -> w_worm d' (fw w) = w_worm d w;
  sd_ex : wm_ex d' = wm_ex d;
  sd_worm : wm_ex d = true -> ira d' = fv (ira d) /\ masha d' = fv (masha d) /\ wm_ds d' = wm_ds d /\ wm_K d' = wm_K d;
  sd_sfl : sfl d' = sfl d;
  sd_mG : measG d' = measG d;
  sd_meas : if measG d then gmeas d' = fg (gmeas d) else wmeas d' = fw (wmeas d) }.

Section IOProm.
Context {N : Num}.

Lemma bij_cp b b' : BInv b -> BInv b' -> avail b' = avail b -> bijection b b' (cp b b').
Proof.
  intros B B' A. unfold bijection. repeat setoid_rewrite live_exist. split; [intros; now apply cp_live|]. split.
  - intros x y Lx Ly. now apply cp_inj.
  - intros y Ly. now apply (cp_onto b b').
Qed.

Lemma GWeight_ext T r1 r2 t1 t2 s1 s2 m e e' :
  GWeight T r1 r2 t1 t2 s1 s2 m false e = GWeight T r1 r2 t1 t2 s1 s2 m false e'.
Proof. unfold GWeight. destruct (GetIndexSmooth _ _ _ _ _ _ _); reflexivity. Qed.
Lemma WWeight_ext T r1 r2 t1 t2 s1 s2 a m dl e e' :
  WWeight T r1 r2 t1 t2 s1 s2 a m dl false e = WWeight T r1 r2 t1 t2 s1 s2 a m dl false e'.
Proof. unfold WWeight. destruct dl; [reflexivity|]. destruct (GetIndexSmooth _ _ _ _ _ _ _); reflexivity. Qed.
Lemma WWeight_spin T r1 r2 t1 t2 s1 s2 s1' s2' a m dl w e :
  (forall x, s1 x = s1' x) -> (forall x, s2 x = s2' x) ->
  WWeight T r1 r2 t1 t2 s1 s2 a m dl false e = WWeight T r1 r2 t1 t2 s1' s2' a m dl w e \/ w = true.
Proof.
  intros H1 H2. destruct w; [now right|left]. unfold WWeight. destruct a; [reflexivity|]. unfold spin4. rewrite !H1, !H2.
  reflexivity.
Qed.

Lemma copy_same2 c c' d d1 d' : Inv c d -> copy d d1 -> fixed d1 d' -> Inv c' d' ->
  let fv := cp (vB d) (vB d1) in let fg := cp (gB d) (gB d1) in let fw := cp (wB d) (wB d1) in
  same_diagram fv fg fw d d' /\ order d' = Z.max 1 (order d) /\
  (c_tab c' = c_tab c -> gamma d = 0 -> gamma d' = 0 -> (forall g, bexist (gB d) g = true -> g_W d' (fg g) = g_W d g) /\
                  (forall w, bexist (wB d) w = true -> w_W d' (fw w) = w_W d w)).
Proof.
  intros HI Y F HI'.
  destruct F as (F1 & F2 & F3 & F4 & F5 & F6 & F7 & F8 & F9 & F10 & F11 & F12 & F13 & F14 & F15 & F16 & F17 & F18 & F19 & F20 & F21 & F22 & F23 & F24 & F25 & _).
  assert (Bv : bijection (vB d) (vB d') (cp (vB d) (vB d1))).
  { rewrite F5. apply bij_cp; [apply HI|apply Y|apply Y]. }
  assert (Bg : bijection (gB d) (gB d') (cp (gB d) (gB d1))).
  { rewrite F3. apply bij_cp; [apply HI|apply Y|apply Y]. }
  assert (Bw : bijection (wB d) (wB d') (cp (wB d) (wB d1))).
  { rewrite F4. apply bij_cp; [apply HI|apply Y|apply Y]. }
  intros fv fg fw. fold fv in Bv. fold fg in Bg. fold fw in Bw.
  pose proof (y_v _ _ Y) as Yv. pose proof (y_g _ _ Y) as Yg. pose proof (y_w _ _ Y) as Yw.
  cbv zeta in Yv, Yg, Yw. fold fv fg fw in Yv, Yg, Yw. rewrite <- F13, <- F14, <- F15 in Yv. rewrite <- F6, <- F7, <- F8 in Yg.
  rewrite <- F9, <- F10, <- F11, <- F12 in Yw.
  assert (Lv : forall v, live (vB d) v -> live (vB d') (fv v)).
  { intros v. rewrite <- !live_exist. apply Bv. }
  assert (Lg : forall v, live (gB d) v -> live (gB d') (fg v)).
  { intros v. rewrite <- !live_exist. apply Bg. }
  assert (Lw : forall v, live (wB d) v -> live (wB d') (fw v)).
  { intros v. rewrite <- !live_exist. apply Bw. }
  assert (VG : forall v e, live (vB d) v -> v_G d' (fv v) e = fg (v_G d v e)).
  { intros v e L. pose proof (f_vg HI v e L) as L2. destruct (Yg _ L2) as (E & _).
    pose proof (f_gvg HI' (fg (v_G d v e)) (inv e) (Lg _ L2)) as X. rewrite E, (f_vgv HI v e L) in X.
    now replace (inv (inv e)) with e in X by now destruct e. }
  assert (VW : forall v, live (vB d) v -> v_W d' (fv v) = fw (v_W d v) /\ v_D d' (fv v) = v_D d v).
  { intros v L. pose proof (f_vw HI v L) as L2. destruct (Yw _ L2) as (E & _).
    destruct (proj1 (i_tW _ _ HI') (fw (v_W d v)) (v_D d v) (Lw _ L2)) as (_ & X1 & X2).
    rewrite E, (f_vwv HI v L) in X1, X2. auto. }
  assert (Wm : forall w, live (wB d) w -> w_worm d' (fw w) = w_worm d w).
  { intros w L. pose proof (i_worm _ _ HI) as W. pose proof (i_worm _ _ HI') as W'. unfold Worm in W, W'.
    rewrite F16, (y_ex _ _ Y) in W'. destruct (wm_ex d) eqn:Ex.
    - destruct W as (Li & Lm & _ & _ & _ & _ & _ & W). destruct W' as (_ & _ & _ & _ & _ & _ & _ & W').
      destruct (y_worm _ _ Y Ex) as (E1 & E2 & _). fold fv in E1, E2. rewrite F17, F18, E1, E2 in W'.
      specialize (W w L). specialize (W' _ (Lw _ L)).
      rewrite (proj1 (VW _ Li)), (proj1 (VW _ Lm)) in W'.
      assert (Q : forall x, live (vB d) x -> (fw (v_W d x) = fw w <-> v_W d x = w)).
      { intros x Lx. split; [|now intros ->]. destruct Bw as (_ & I & _). apply I; apply live_exist; auto. now apply (f_vw HI). }
      rewrite (Q _ Li), (Q _ Lm) in W'. apply eq_true_iff_eq. now rewrite W, W'.
    - now rewrite W, W' by auto. }
  split; [|split].
  - split; auto; repeat setoid_rewrite live_exist; auto.
    + intros v L. apply Yv, L.
    + intros v L. apply Yv, L.
    + intros v e L. apply Yv, L.
    + intros v L. apply VW, L.
    + intros v L. apply VW, L.
    + intros g e L. apply Yg, L.
    + intros g L. apply Yg, L.
    + intros g L. apply Yg, L.
    + intros w e L. apply Yw, L.
    + intros w L. apply Yw, L.
    + intros w L. apply Yw, L.
    + intros w L. apply Yw, L.
    + rewrite F16. apply Y.
    + intros Ex. rewrite F17, F18, F19, F20. apply Y, Ex.
    + rewrite F2. apply Y.
    + rewrite F21. apply Y.
    + pose proof (y_meas _ _ Y) as M. rewrite F22, F23. exact M.
  - rewrite F1, (y_aw _ _ Y). destruct (i_cnt _ _ HI) as (H1 & _ & _ & H4 & _). clear - H1 H4. lia.
  - intros TT G0 G0'.
    assert (NG : forall g, live (gB d) g -> g_gg d g = false) by (intros; apply (f_gg0 HI); auto).
    assert (NG' : forall g, live (gB d') g -> g_gg d' g = false) by (intros; apply (f_gg0 HI'); auto).
    assert (NW : forall g, live (wB d) g -> w_ww d g = false).
    { destruct (i_gam _ _ HI) as [(_ & _ & Q)|[(Q & _)|(Q & _)]]; [exact Q|exfalso; clear - Q G0; lia|exfalso; clear - Q G0; lia]. }
    assert (NW' : forall g, live (wB d') g -> w_ww d' g = false).
    { destruct (i_gam _ _ HI') as [(_ & _ & Q)|[(Q & _)|(Q & _)]]; [exact Q|exfalso; clear - Q G0'; lia|exfalso; clear - Q G0'; lia]. }
    repeat setoid_rewrite live_exist. split.
    + intros g L. pose proof (i_sG _ _ HI g L) as S1. pose proof (i_sG _ _ HI' _ (Lg g L)) as S2. rewrite TT in S2.
      rewrite (NG g L) in S1. rewrite (NG' _ (Lg g L)) in S2.
      destruct (Yg g L) as (E & _ & M & _). rewrite !E, M in S2.
      destruct (Yv _ (f_gv HI g IN L)) as (R1 & T1 & P1). destruct (Yv _ (f_gv HI g OUT L)) as (R2 & T2 & P2).
      rewrite R1, R2, T1, T2, P1, P2 in S2. rewrite (GWeight_ext _ _ _ _ _ _ _ _ _ (uext d)) in S2. congruence.
    + intros w L. pose proof (i_sW _ _ HI w L) as S1. pose proof (i_sW _ _ HI' _ (Lw w L)) as S2. rewrite TT in S2.
      rewrite (NW w L) in S1. rewrite (NW' _ (Lw w L)), (Wm w L) in S2.
      destruct (Yw w L) as (E & _ & D & M & _). rewrite !E, M, D in S2.
      destruct (Yv _ (f_wv HI w IN L)) as (R1 & T1 & P1). destruct (Yv _ (f_wv HI w OUT L)) as (R2 & T2 & P2).
      rewrite R1, R2, T1, T2 in S2. rewrite (WWeight_ext _ _ _ _ _ _ _ _ _ _ _ (uext d)) in S2.
      destruct (WWeight_spin (c_tab c) (v_R d (w_ver d w IN)) (v_R d (w_ver d w OUT)) (v_T d (w_ver d w IN)) (v_T d (w_ver d w OUT))
        _ _ _ _ (w_worm d w) (w_meas d w) (w_delta d w) false (uext d) P1 P2) as [Q|Q]; [|discriminate Q].
      rewrite Q in S2. congruence.
Qed.
Lemma copy_same c d d1 d' : Inv c d -> copy d d1 -> fixed d1 d' -> Inv c d' ->
  let fv := cp (vB d) (vB d1) in let fg := cp (gB d) (gB d1) in let fw := cp (wB d) (wB d1) in
  same_diagram fv fg fw d d' /\ order d' = Z.max 1 (order d) /\
  (gamma d = 0 -> gamma d' = 0 -> (forall g, bexist (gB d) g = true -> g_W d' (fg g) = g_W d g) /\
                  (forall w, bexist (wB d) w = true -> w_W d' (fw w) = w_W d w)).
Proof. intros HI Y F HI' fv fg fw. destruct (copy_same2 c c d d1 d' HI Y F HI') as (A & B & D). auto. Qed.

Lemma save_load c d d0 : cfg_ok c -> Inv c d -> constructed d0 ->
  exists F d' fv fg fw, ToDict d = Ok F /\ FromDict4 (c_tab c) F d0 = Ok d' /\
    same_diagram fv fg fw d d' /\ gamma d' = 0 /\ order d' = Z.max 1 (order d) /\
    (gamma d = 0 -> (forall g, bexist (gB d) g = true -> g_W d' (fg g) = g_W d g) /\
                    (forall w, bexist (wB d) w = true -> w_W d' (fw w) = w_W d w)).
Proof.
  intros C HI C0. pose proof (Inv_Pre c d HI) as P.
  destruct (load_inv c d d0 C P C0) as (d1 & d' & L & Y & F & HI' & G & _).
  destruct (copy_same c d d1 d' HI Y F HI') as (A & B & D).
  exists (tconf d), d', (cp (vB d) (vB d1)), (cp (gB d) (gB d1)), (cp (wB d) (wB d1)).
  split; [now apply (ToDict_spec c)|]. split; [exact L|]. split; [exact A|]. split; [exact G|]. split; [exact B|].
  intros G0. now apply D.
Qed.
End IOProm.

From Verif Require Import P_Promises.
Section Hist.
Context {N : Num} {E : Type}.

Lemma fixed_same c c' d d' : Inv c d -> fixed d d' -> Inv c' d' ->
  same_diagram (fun v => v) (fun g => g) (fun w => w) d d' /\ order d' = Z.max 1 (order d).
Proof.
  intros HI F HI'. pose proof F as F0.
  destruct F as (F1 & F2 & F3 & F4 & F5 & F6 & F7 & F8 & F9 & F10 & F11 & F12 & F13 & F14 & F15 & F16 & F17 & F18 & F19 & F20 & F21 & F22 & F23 & F24 & F25 & _).
  assert (B : forall b, bijection b b (fun v => v)).
  { intros b. split; [auto|]. split; [auto|]. intros y Ly. exists y. auto. }
  assert (VG : forall v e, live (vB d) v -> v_G d' v e = v_G d v e).
  { intros v e L. assert (L2 : live (gB d') (v_G d v e)) by (rewrite F3; now apply (f_vg HI)).
    pose proof (f_gvg HI' (v_G d v e) (inv e) L2) as X. rewrite F7, (f_vgv HI v e L) in X.
    now replace (inv (inv e)) with e in X by now destruct e. }
  assert (VW : forall v, live (vB d) v -> v_W d' v = v_W d v /\ v_D d' v = v_D d v).
  { intros v L. assert (L2 : live (wB d') (v_W d v)) by (rewrite F4; now apply (f_vw HI)).
    destruct (proj1 (i_tW _ _ HI') (v_W d v) (v_D d v) L2) as (_ & X1 & X2).
    rewrite F11, (f_vwv HI v L) in X1, X2. auto. }
  split.
  - split; rewrite ?F2, ?F3, ?F4, ?F5, ?F6, ?F7, ?F8, ?F9, ?F10, ?F11, ?F12, ?F13, ?F14, ?F15, ?F16, ?F17, ?F18, ?F19, ?F20, ?F21, ?F22, ?F23; auto;
      repeat setoid_rewrite live_exist; auto.
    + intros v L. apply VW, L.
    + intros v L. apply VW, L.
    + intros w L. pose proof (i_worm _ _ HI) as W. pose proof (i_worm _ _ HI') as W'. unfold Worm in W, W'.
      rewrite F16, F4, F5, F17, F18 in W'. destruct (wm_ex d).
      * destruct W as (Li & Lm & _ & _ & _ & _ & _ & W). destruct W' as (_ & _ & _ & _ & _ & _ & _ & W').
        specialize (W w L). specialize (W' w L). rewrite (proj1 (VW _ Li)), (proj1 (VW _ Lm)) in W'.
        apply eq_true_iff_eq. now rewrite W, W'.
      * now rewrite W, W' by auto.
    + destruct (measG d); reflexivity.
  - rewrite F1. destruct (i_cnt _ _ HI) as (H1 & _ & _ & H4 & _). clear - H1 H4. lia.
Qed.

Theorem fresh_structural (c : @cfg N) (d0 : diagram) : cfg_ok c -> new_ok (c_lat c) -> constructed d0 ->
  exists d, BuildNew (c_tab c) (c_lat c) d0 = Ok d /\ structural c d /\
    order d = 1 /\ wm_ex d = false /\ gamma d = 0 /\ measG d = true.
Proof.
  intros C [L1 L2] K. destruct (BuildNew_inv c d0 C L1 L2 K) as (co & d1 & d & _ & B & Y & F & HI & G & Sw).
  exists d. split; [exact B|]. split; [now apply structural_ok|].
  destruct F as (F1 & _ & _ & _ & _ & _ & _ & _ & _ & _ & _ & _ & _ & _ & _ & F16 & _ & _ & _ & _ & F21 & _).
  rewrite F1, F16, F21, (y_aw _ _ Y), (y_ex _ _ Y), (y_mg _ _ Y). cbn. auto.
Qed.

Theorem history_save_load (next : E -> Z * E) (c : @cfg N) (s : mstate) (d0 : diagram) :
  cfg_ok c -> new_ok (c_lat c) -> history next c s -> constructed d0 ->
  let d := md s in
  exists F d' fv fg fw, ToDict d = Ok F /\ FromDict4 (c_tab c) F d0 = Ok d' /\
    same_diagram fv fg fw d d' /\ structural c d' /\ gamma d' = 0 /\
    (order d <> 0 -> order d' = order d) /\ (order d = 0 -> order d' = 1) /\
    (gamma d = 0 -> (forall g, bexist (gB d) g = true -> g_W d' (fg g) = g_W d g) /\
                    (forall w, bexist (wB d) w = true -> w_W d' (fw w) = w_W d w)).
Proof.
  intros C L H K. pose proof (history_inv next c s C L H) as HI. cbv zeta.
  destruct (save_load c (md s) d0 C HI K) as (F & d' & fv & fg & fw & T & R & S & G & O & W).
  exists F, d', fv, fg, fw. split; [exact T|]. split; [exact R|]. split; [exact S|]. split.
  - apply structural_ok; [|exact C]. destruct (load_inv c (md s) d0 C (Inv_Pre c _ HI) K) as (d1 & d2 & R' & _ & _ & HI' & _).
    rewrite (ToDict_spec c _ (Inv_Pre c _ HI)) in T. injection T as <-. rewrite R in R'. injection R' as ->. exact HI'.
  - split; [exact G|]. destruct (i_cnt _ _ HI) as (H1 & _ & _ & H4 & _). split; [intros Q; rewrite O; clear - Q H1 H4; lia|].
    split; [intros Q; rewrite O, Q; reflexivity|exact W].
Qed.

Theorem history_reset (next : E -> Z * E) (c : @cfg N) (s : mstate) :
  cfg_ok c -> new_ok (c_lat c) -> history next c s ->
  let d := md s in
  gamma d = 0 ->
  (wm_ex d = false -> bexist (vB d) (ira d) = false /\ bexist (vB d) (masha d) = false) ->
  exists d', DReset (c_tab c) d = Ok d' /\ structural c d' /\
    same_diagram (fun v => v) (fun g => g) (fun w => w) d d' /\ order d' = Z.max 1 (order d).
Proof.
  intros C L H d G S. pose proof (history_inv next c s C L H) as HI. fold d in HI.
  destruct (Reset_inv c d C HI G) as (d' & R & F & HI').
  { intros Ex. destruct (S Ex) as [A B]. rewrite <- !live_exist, A, B. split; discriminate. }
  exists d'. split; [exact R|]. split; [now apply structural_ok|]. exact (fixed_same c c d d' HI F HI').
Qed.

Lemma fresh_reset_case (next : E -> Z * E) (c : @cfg N) (e : E) : cfg_ok c -> new_ok (c_lat c) ->
  exists s : @mstate N E, cfg_ok c /\ new_ok (c_lat c) /\ history next c s /\
  gamma (md s) = 0 /\ (wm_ex (md s) = false -> bexist (vB (md s)) (ira (md s)) = false /\ bexist (vB (md s)) (masha (md s)) = false).
Proof.
  intros C L. assert (K : constructed (@diagram_new N)) by repeat split.
  destruct (BuildNew_inv c diagram_new C (proj1 L) (proj2 L) K) as (co & d1 & d & _ & B & Y & F & HI & G & Sw).
  exists (mkS d e 0 (fun _ _ => rofZ 0) (fun _ _ => rofZ 0)). split; [exact C|]. split; [exact L|]. split.
  { apply (hi_new next c _ diagram_new K). exact B. }
  split; [exact G|].
  intros Ex. cbn [md] in *. destruct (Sw Ex) as [-> ->]. split; reflexivity.
Qed.
End Hist.
