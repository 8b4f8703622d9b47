(** The updates as transition relations between diagrams *)
From Coq Require Import ZArith List Bool Arith Lia ZifyBool.
From Verif Require Import Base Num RNG Momentum Complex Lattice Bundle IndexMap Weights Diagram Markov
  P_Momentum P_RNG P_Bundle P_Lattice P_IndexMap P_WP P_Inv.
Import ListNotations.
Open Scope Z_scope.

Ltac dred := cbv beta iota zeta delta [order dphase dweight sfl gB wB vB g_meas g_gg g_ver g_K g_W w_worm w_delta w_meas w_ww w_ver w_K w_W v_G v_W v_R v_S v_T v_D ghash whash wm_ex ira masha wm_K wm_ds wm_W measG gmeas wmeas gamma uext vin vout
   s_order s_dphase s_dweight s_sfl s_gB s_wB s_vB s_g_meas s_g_gg s_g_ver s_g_K s_g_W s_w_worm s_w_delta s_w_meas s_w_ww s_w_ver s_w_K s_w_W s_v_G s_v_W s_v_R s_v_S s_v_T s_v_D s_ghash s_whash s_wm_ex s_ira s_masha s_wm_K s_wm_ds s_wm_W s_measG s_gmeas s_wmeas s_gamma s_uext s_vin s_vout mulW SetVertex SetGLine SetWLine set_spin obind].
Ltac dred_in H := cbv beta iota zeta delta [order dphase dweight sfl gB wB vB g_meas g_gg g_ver g_K g_W w_worm w_delta w_meas w_ww w_ver w_K w_W v_G v_W v_R v_S v_T v_D ghash whash wm_ex ira masha wm_K wm_ds wm_W measG gmeas wmeas gamma uext vin vout
   s_order s_dphase s_dweight s_sfl s_gB s_wB s_vB s_g_meas s_g_gg s_g_ver s_g_K s_g_W s_w_worm s_w_delta s_w_meas s_w_ww s_w_ver s_w_K s_w_W s_v_G s_v_W s_v_R s_v_S s_v_T s_v_D s_ghash s_whash s_wm_ex s_ira s_masha s_wm_K s_wm_ds s_wm_W s_measG s_gmeas s_wmeas s_gamma s_uext s_vin s_vout mulW SetVertex SetGLine SetWLine set_spin obind] in H.

Section Rel.
Context {N : Num}.

Lemma gidx_true k : inrange k -> gidx_ok (kindex k) = true.
Proof. intros H. apply kindex_range in H. unfold gidx_ok. lia. Qed.
Lemma widx_true k : inrange k -> widx_ok (kabs k) = true.
Proof. unfold inrange, widx_ok, kabs. lia. Qed.
Lemma GHashCheck_ok d k : inrange k -> GHashCheck d k = Ok (ghash d (kindex k)).
Proof. intros H. unfold GHashCheck. now rewrite gidx_true. Qed.
Lemma WHashCheck_ok d k : inrange k -> WHashCheck d k = Ok (if k =? 0 then true else whash d (kabs k)).
Proof. intros H. unfold WHashCheck. rewrite widx_true by auto. now destruct (k =? 0). Qed.
Lemma AddGHash_ok k d : inrange k -> ghash d (kindex k) = false ->
  AddGHash k d = Ok (s_ghash d (updZ (ghash d) (kindex k) true)).
Proof. intros H E. unfold AddGHash. now rewrite gidx_true, E. Qed.
Lemma RemoveGHash_ok k d : inrange k -> ghash d (kindex k) = true ->
  RemoveGHash k d = Ok (s_ghash d (updZ (ghash d) (kindex k) false)).
Proof. intros H E. unfold RemoveGHash. now rewrite gidx_true, E. Qed.
Lemma AddWHash_ok k d : inrange k -> whash d (kabs k) = false ->
  AddWHash k d = Ok (s_whash d (updZ (whash d) (kabs k) true)).
Proof. intros H E. unfold AddWHash. now rewrite widx_true, E. Qed.
Lemma RemoveWHash_ok k d : inrange k -> whash d (kabs k) = true ->
  RemoveWHash k d = Ok (s_whash d (updZ (whash d) (kabs k) false)).
Proof. intros H E. unfold RemoveWHash. now rewrite widx_true, E. Qed.
Lemma updZ_false h k j : h j = false -> updZ h k false j = false.
Proof. unfold updZ. destruct (j =? k); auto. Qed.
Lemma ReplaceGHash_ok k0 k d : inrange k0 -> inrange k -> ghash d (kindex k0) = true -> ghash d (kindex k) = false ->
  ReplaceGHash k0 k d = Ok (s_ghash d (updZ (updZ (ghash d) (kindex k0) false) (kindex k) true)).
Proof.
  intros H0 H E0 E. unfold ReplaceGHash. rewrite RemoveGHash_ok by auto. cbn [obind].
  rewrite AddGHash_ok; auto. cbn. now apply updZ_false.
Qed.
Lemma ReplaceWHash_ok k0 k d : inrange k0 -> inrange k -> whash d (kabs k0) = true -> whash d (kabs k) = false ->
  ReplaceWHash k0 k d = Ok (s_whash d (updZ (updZ (whash d) (kabs k0) false) (kabs k) true)).
Proof.
  intros H0 H E0 E. unfold ReplaceWHash. rewrite RemoveWHash_ok by auto. cbn [obind].
  rewrite AddWHash_ok; auto. cbn. now apply updZ_false.
Qed.

Notation D := diagram.
Notation RR := (real -> diagram -> diagram -> Prop).
(** the two writes every update makes to Phase and Weight *)
Definition mulR (wr : cplx) (d : D) : D := mulW wr (phase wr) d.

(** *** CreateWorm *)
Definition create_post (w vi vo : nat) (ds kM kW : Z) (wW : cplx) (d : D) : D :=
  mulR (cdiv wW (w_W d w))
  (s_wm_ex (s_ira (s_masha (s_wm_ds (s_wm_K (s_wm_W
  (s_whash (s_w_K (s_w_worm (s_w_W d
    (upd (w_W d) w wW))
    (upd (w_worm d) w true))
    (upd (w_K d) w kW))
    (updZ (updZ (whash d) (kabs (w_K d w)) false) (kabs kW) true))
    WormWeight) kM) ds) vo) vi) true).
Inductive create_rel (c : cfg) (d : D) : RR :=
| create_i w vi vo kM kW ds wW :
    order d <> 0 -> wm_ex d = false -> live (wB d) w -> vi = w_ver d w IN -> vo = w_ver d w OUT ->
    inrange kM -> kW = ksub (w_K d w) kM -> kW <> 0 -> whash d (kabs kW) = false -> (ds = 1 \/ ds = -1) ->
    CanNotMoveV ds (v_S d vi IN) (v_S d vi OUT) && CanNotMoveV (- ds) (v_S d vo IN) (v_S d vo OUT) = false ->
    WWeight (c_tab c) (v_R d vi) (v_R d vo) (v_T d vi) (v_T d vo)
       (v_S d vi) (v_S d vo) true (w_meas d w) (w_delta d w) (w_ww d w) (uext d) = Ok wW ->
    create_rel c d
      (rmul (cmod (cdiv wW (w_W d w)))
        (rmul (rmul (rmul (rmul (rdiv (Pc c DELETE_WORM) (Pc c CREATE_WORM)) (c_wsr c)) WormWeight)
               (rofZ (order d))) r2))
      (create_post w vi vo ds kM kW wW d) d.

(** *** DeleteWorm *)
Definition delete_post (w : nat) (k : Z) (wW : cplx) (d : D) : D :=
  mulR (cdiv wW (w_W d w))
  (s_wm_ex (s_whash (s_w_K (s_w_worm (s_w_W d
    (upd (w_W d) w wW))
    (upd (w_worm d) w false))
    (upd (w_K d) w k))
    (updZ (updZ (whash d) (kabs (w_K d w)) false) (kabs k) true)) false).
Inductive delete_rel (c : cfg) (d : D) : RR :=
| delete_i w k wW :
    order d <> 0 -> wm_ex d = true -> w = v_W d (ira d) -> w = v_W d (masha d) ->
    k = kadd (w_K d w) (kscale (SIGN (v_D d (ira d))) (wm_K d)) -> k <> 0 -> whash d (kabs k) = false ->
    WWeightDir (c_tab c) (v_D d (ira d)) (v_R d (ira d)) (v_R d (masha d)) (v_T d (ira d)) (v_T d (masha d))
       (v_S d (ira d)) (v_S d (masha d)) false (w_meas d w) (w_delta d w) (w_ww d w) (uext d) = Ok wW ->
    delete_rel c d
      (rmul (cmod (cdiv wW (w_W d w)))
        (rdiv (Pc c CREATE_WORM)
          (rmul (rmul (rmul (rmul (Pc c DELETE_WORM) (c_wsr c)) (wm_W d)) (rofZ (order d))) r2)))
      (delete_post w k wW d) d.

(** *** MoveWormOnG *)
Definition moveG_post (v1 v2 g w1 w2 : nat) (k : Z) (iw1 : bool) (s1 s2 : dir -> spin)
  (gW w1W w2W : cplx) (d : D) : D :=
  mulR (cdiv (cmul (cmul w1W w2W) gW) (cmul (cmul (g_W d g) (w_W d w1)) (w_W d w2)))
  (s_g_W (s_ghash (s_g_K (s_w_W (s_w_worm (s_v_S (s_ira (s_wm_W d
    WormWeight) v2)
    (upd (upd (v_S d) v1 s1) v2 s2))
    (upd (upd (w_worm d) w1 iw1) w2 true))
    (upd (upd (w_W d) w1 w1W) w2 w2W))
    (upd (g_K d) g k))
    (updZ (updZ (ghash d) (kindex (g_K d g)) false) (kindex k) true))
    (upd (g_W d) g gW)).
Inductive moveG_rel (c : cfg) (d : D) : RR :=
| moveG_i dr g v1 v2 k w1 vW1 w2 vW2 iw1 s1 s2 w1W w2W gW :
    order d <> 0 -> wm_ex d = true -> v1 = ira d -> g = v_G d v1 dr -> v2 = g_ver d g dr ->
    v2 <> v1 -> v2 <> masha d ->
    CanNotMoveG (wm_ds d) (v_S d (g_ver d g IN) OUT) dr = false ->
    k = ksub (g_K d g) (kscale (SIGN dr) (wm_K d)) -> ghash d (kindex k) = false ->
    w1 = v_W d v1 -> vW1 = w_ver d w1 (inv (v_D d v1)) -> w2 = v_W d v2 -> vW2 = w_ver d w2 (inv (v_D d v2)) ->
    iw1 = (if Nat.eqb vW1 v2 then true else IsWorm d vW1) ->
    s1 = flip_at (v_S d v1) dr -> s2 = flip_at (v_S d v2) (inv dr) ->
    WWeightDir (c_tab c) (v_D d v1) (v_R d v1) (v_R d vW1) (v_T d v1) (v_T d vW1)
       s1 (v_S d vW1) iw1 (w_meas d w1) (w_delta d w1) (w_ww d w1) (uext d) = Ok w1W ->
    WWeightDir (c_tab c) (v_D d v2) (v_R d v2) (v_R d vW2) (v_T d v2) (v_T d vW2)
       s2 (v_S d vW2) true (w_meas d w2) (w_delta d w2) (w_ww d w2) (uext d) = Ok w2W ->
    GWeightDir (c_tab c) (inv dr) (v_R d v1) (v_R d v2) (v_T d v1) (v_T d v2)
       (s1 dr) (s2 (inv dr)) (g_meas d g) (g_gg d g) (uext d) = Ok gW ->
    moveG_rel c d
      (rmul (cmod (cdiv (cmul (cmul w1W w2W) gW) (cmul (cmul (g_W d g) (w_W d w1)) (w_W d w2))))
         (rdiv WormWeight (wm_W d)))
      (moveG_post v1 v2 g w1 w2 k iw1 s1 s2 gW w1W w2W d) d.

(** *** MoveWormOnW *)
Definition moveW_post (w v2 : nat) (k : Z) (wW : cplx) (d : D) : D :=
  mulR (cdiv wW (w_W d w))
  (s_ira (s_wm_W (s_whash (s_w_K (s_w_W d
    (upd (w_W d) w wW))
    (upd (w_K d) w k))
    (updZ (updZ (whash d) (kabs (w_K d w)) false) (kabs k) true)) WormWeight) v2).
Inductive moveW_rel (c : cfg) (d : D) : RR :=
| moveW_i v1 w v2 k wW :
    order d <> 0 -> wm_ex d = true -> v1 = ira d -> w = v_W d v1 -> v2 = w_ver d w (inv (v_D d v1)) ->
    v2 <> v1 -> v2 <> masha d ->
    k = kadd (w_K d w) (kscale (SIGN (v_D d v1)) (wm_K d)) -> k <> 0 -> whash d (kabs k) = false ->
    WWeightDir (c_tab c) (v_D d v1) (v_R d v1) (v_R d v2) (v_T d v1) (v_T d v2)
       (v_S d v1) (v_S d v2) (w_worm d w) (w_meas d w) (w_delta d w) (w_ww d w) (uext d) = Ok wW ->
    moveW_rel c d
      (rmul (cmod (cdiv wW (w_W d w))) (rdiv WormWeight (wm_W d)))
      (moveW_post w v2 k wW d) d.

(** *** Reconnect *)
Definition reconnect_post (I Ma : nat) (dr : dir) (GIA GMB : nat) (k : Z) (gi gm : cplx) (d : D) : D :=
  mulR (cdiv (cmul (rmul_c (rofZ (-1)) gi) gm) (cmul (g_W d GIA) (g_W d GMB)))
  (s_sfl (s_wm_K (s_g_W (s_v_G (s_g_ver d
    (upd2 (upd2 (g_ver d) GIA (inv dr) Ma) GMB (inv dr) I))
    (upd2 (upd2 (v_G d) Ma dr GIA) I dr GMB))
    (upd (upd (g_W d) GIA gi) GMB gm))
    k) (rmul (sfl d) (rofZ (-1)))).
Inductive reconnect_rel (c : cfg) (d : D) : RR :=
| reconnect_i I Ma dr GIA GMB k vA vB' gi gm :
    order d <> 0 -> wm_ex d = true -> I = ira d -> Ma = masha d -> v_R d I = v_R d Ma ->
    GIA = v_G d I dr -> GMB = v_G d Ma dr -> v_S d (g_ver d GIA IN) OUT = v_S d (g_ver d GMB IN) OUT ->
    k = kadd (wm_K d) (kscale (SIGN dr) (ksub (g_K d GMB) (g_K d GIA))) ->
    vA = g_ver d GIA dr -> vB' = g_ver d GMB dr ->
    GWeightDir (c_tab c) (inv dr) (v_R d Ma) (v_R d vA) (v_T d Ma) (v_T d vA)
       (v_S d Ma dr) (v_S d vA (inv dr)) (g_meas d GIA) (g_gg d GIA) (uext d) = Ok gi ->
    GWeightDir (c_tab c) (inv dr) (v_R d I) (v_R d vB') (v_T d I) (v_T d vB')
       (v_S d I dr) (v_S d vB' (inv dr)) (g_meas d GMB) (g_gg d GMB) (uext d) = Ok gm ->
    reconnect_rel c d
      (cmod (cdiv (cmul (rmul_c (rofZ (-1)) gi) gm) (cmul (g_W d GIA) (g_W d GMB))))
      (reconnect_post I Ma dr GIA GMB k gi gm d) d.

(** *** AddInteraction, AddDeltaInteraction *)
Definition add_post (de : bool) (I Ma : nat) (dr dw : dir) (GIC GMD : nat) (kW kIA kMB kM : Z)
  (RA RB : site) (tA tB : real) (sA sB : dir -> spin) (wW gIA gMB gAC gBD : cplx)
  (vA vB' GIA GMB WAB : nat) (bv bg bw : bundle) (d : D) : D :=
  mulR (cdiv (cmul (cmul (cmul (cmul (rmul_c (rofZ (-1)) gIA) gMB) wW) gAC) gBD) (cmul (g_W d GIC) (g_W d GMD)))
  (s_order (s_vB (s_gB (s_wB (s_wm_K
  (s_v_G (s_v_W (s_v_R (s_v_T (s_v_S (s_v_D
  (s_g_ver (s_g_K (s_g_W (s_g_meas (s_g_gg
  (s_w_ver (s_w_K (s_w_W (s_w_worm (s_w_meas (s_w_delta (s_w_ww
  (s_ghash (s_whash d
    (updZ (whash d) (kabs kW) true))
    (updZ (updZ (ghash d) (kindex kIA) true) (kindex kMB) true))
    (upd (w_ww d) WAB false))
    (upd (w_delta d) WAB de))
    (upd (w_meas d) WAB false))
    (upd (w_worm d) WAB false))
    (upd (w_W d) WAB wW))
    (upd (w_K d) WAB kW))
    (upd2 (upd2 (w_ver d) WAB dw vA) WAB (inv dw) vB'))
    (upd (upd (g_gg d) GIA false) GMB false))
    (upd (upd (g_meas d) GIA false) GMB false))
    (upd (upd (upd (upd (g_W d) GIA gIA) GMB gMB) GIC gAC) GMD gBD))
    (upd (upd (g_K d) GIA kIA) GMB kMB))
    (upd2 (upd2 (upd2 (upd2 (upd2 (upd2 (g_ver d) GIA (inv dr) I) GIA dr vA) GMB (inv dr) Ma) GMB dr vB')
       GIC (inv dr) vA) GMD (inv dr) vB'))
    (upd (upd (v_D d) vA dw) vB' (inv dw)))
    (upd (upd (v_S d) vA sA) vB' sB))
    (upd (upd (v_T d) vA tA) vB' tB))
    (upd (upd (v_R d) vA RA) vB' RB))
    (upd (upd (v_W d) vA WAB) vB' WAB))
    (upd2 (upd2 (upd2 (upd2 (upd2 (upd2 (v_G d) vA dr GIC) vA (inv dr) GIA) vB' dr GMD) vB' (inv dr) GMB)
       I dr GIA) Ma dr GMB))
    kM) bw) bg) bv) (order d + 1)).
Inductive add_rel (de : bool) (c : cfg) (d : D) : RR :=
| add_i I Ma dr dw GIC GMD kW kIA kMB kM vC vD tA tB sA sB wW gIA gMB gAC gBD o1 o0
    vA vB' GIA GMB WAB bv1 bv bg1 bg bw :
    wm_ex d = true -> order d <> 0 -> order d < c_order c -> I = ira d -> Ma = masha d ->
    inrange kW -> kW <> 0 -> whash d (kabs kW) = false ->
    GIC = v_G d I dr -> GMD = v_G d Ma dr ->
    kIA = ksub (g_K d GIC) (kscale (SIGN dr * SIGN dw) kW) ->
    kMB = kadd (g_K d GMD) (kscale (SIGN dr * SIGN dw) kW) ->
    kM = ksub (wm_K d) (kscale (SIGN dw) kW) ->
    ghash d (kindex kIA) = false -> ghash d (kindex kMB) = false -> kIA <> kMB ->
    tau_draw c tA -> tau_draw c tB -> (de = true -> tB = tA) ->
    sA = v_S d (g_ver d GIC IN) OUT -> sB = v_S d (g_ver d GMD IN) OUT ->
    vC = g_ver d GIC dr -> vD = g_ver d GMD dr ->
    WWeightDir (c_tab c) dw (v_R d vC) (v_R d vD) tA tB (mkspin sA sA) (mkspin sB sB)
       false false de false (uext d) = Ok wW ->
    GWeightDir (c_tab c) (inv dr) (v_R d I) (v_R d vC) (v_T d I) tA
       (v_S d I dr) sA false false (uext d) = Ok gIA ->
    GWeightDir (c_tab c) (inv dr) (v_R d Ma) (v_R d vD) (v_T d Ma) tB
       (v_S d Ma dr) sB false false (uext d) = Ok gMB ->
    GWeightDir (c_tab c) (inv dr) (v_R d vC) (v_R d vC) tA (v_T d vC)
       sA (v_S d vC (inv dr)) (g_meas d GIC) (g_gg d GIC) (uext d) = Ok gAC ->
    GWeightDir (c_tab c) (inv dr) (v_R d vD) (v_R d vD) tB (v_T d vD)
       sB (v_S d vD (inv dr)) (g_meas d GMD) (g_gg d GMD) (uext d) = Ok gBD ->
    nth_error (c_orw c) (Z.to_nat (order d + 1)) = Some o1 ->
    nth_error (c_orw c) (Z.to_nat (order d)) = Some o0 ->
    badd (vB d) = Ok (vA, bv1) -> badd bv1 = Ok (vB', bv) ->
    badd (gB d) = Ok (GIA, bg1) -> badd bg1 = Ok (GMB, bg) ->
    badd (wB d) = Ok (WAB, bw) ->
    add_rel de c d
      (rmul (cmod (cdiv (cmul (cmul (cmul (cmul (rmul_c (rofZ (-1)) gIA) gMB) wW) gAC) gBD) (cmul (g_W d GIC) (g_W d GMD))))
        (if de then
           rdiv (rmul o1 (Pc c DEL_DELTA_INTERACTION))
                (rmul (rmul (Pc c ADD_DELTA_INTERACTION) o0) (ProbTau c))
         else
           rdiv (rmul o1 (Pc c DEL_INTERACTION))
                (rmul (rmul (rmul (Pc c ADD_INTERACTION) o0) (ProbTau c)) (ProbTau c))))
      (add_post de I Ma dr dw GIC GMD kW kIA kMB kM (v_R d vC) (v_R d vD) tA tB (mkspin sA sA) (mkspin sB sB)
         wW gIA gMB gAC gBD vA vB' GIA GMB WAB bv bg bw d) d.

(** *** DeleteInteraction, DeleteDeltaInteraction *)
Definition del_post (I Ma : nat) (dr : dir) (GIA GMB wAB GAC GBD : nat) (kM : Z) (gIC gMD : cplx)
  (bv bg bw : bundle) (d : D) : D :=
  mulR (cdiv (cmul (rmul_c (rofZ (-1)) gIC) gMD)
             (cmul (cmul (cmul (cmul (g_W d GIA) (g_W d GMB)) (g_W d GAC)) (g_W d GBD)) (w_W d wAB)))
  (s_order (s_vB (s_gB (s_wB (s_wm_K
  (s_ghash (s_whash (s_v_G (s_g_ver (s_g_W d
    (upd (upd (g_W d) GAC gIC) GBD gMD))
    (upd2 (upd2 (g_ver d) GAC (inv dr) I) GBD (inv dr) Ma))
    (upd2 (upd2 (v_G d) I dr GAC) Ma dr GBD))
    (updZ (whash d) (kabs (w_K d wAB)) false))
    (updZ (updZ (ghash d) (kindex (g_K d GIA)) false) (kindex (g_K d GMB)) false))
    kM) bw) bg) bv) (order d - 1)).
Inductive del_rel (de : bool) (c : cfg) (d : D) : RR :=
| del_i I Ma dr GIA GMB vA vB' wAB GAC GBD vC vD kM gIC gMD om o0 bv1 bv bg1 bg bw :
    wm_ex d = true -> 1 < order d -> I = ira d -> Ma = masha d ->
    GIA = v_G d I dr -> GMB = v_G d Ma dr ->
    g_meas d GIA = false -> g_gg d GIA = false -> g_meas d GMB = false -> g_gg d GMB = false ->
    vA = g_ver d GIA dr -> vB' = g_ver d GMB dr ->
    v_S d vA IN = v_S d vA OUT -> v_S d vB' IN = v_S d vB' OUT ->
    wAB = v_W d vA -> wAB = v_W d vB' ->
    w_meas d wAB = false -> w_worm d wAB = false -> w_delta d wAB = de -> w_ww d wAB = false ->
    GAC = v_G d vA dr -> GBD = v_G d vB' dr -> vC = g_ver d GAC dr -> vD = g_ver d GBD dr ->
    kM = kadd (wm_K d) (kscale (SIGN (v_D d vA)) (w_K d wAB)) ->
    GWeightDir (c_tab c) (inv dr) (v_R d I) (v_R d vC) (v_T d I) (v_T d vC)
       (v_S d I dr) (v_S d vC (inv dr)) (g_meas d GAC) (g_gg d GAC) (uext d) = Ok gIC ->
    GWeightDir (c_tab c) (inv dr) (v_R d Ma) (v_R d vD) (v_T d Ma) (v_T d vD)
       (v_S d Ma dr) (v_S d vD (inv dr)) (g_meas d GBD) (g_gg d GBD) (uext d) = Ok gMD ->
    nth_error (c_orw c) (Z.to_nat (order d - 1)) = Some om ->
    nth_error (c_orw c) (Z.to_nat (order d)) = Some o0 ->
    bremove (vB d) vA = Ok bv1 -> bremove bv1 vB' = Ok bv ->
    bremove (gB d) GIA = Ok bg1 -> bremove bg1 GMB = Ok bg ->
    bremove (wB d) wAB = Ok bw ->
    del_rel de c d
      (rmul (cmod (cdiv (cmul (rmul_c (rofZ (-1)) gIC) gMD)
             (cmul (cmul (cmul (cmul (g_W d GIA) (g_W d GMB)) (g_W d GAC)) (g_W d GBD)) (w_W d wAB))))
       (if de then
          rdiv (rmul (rmul om (Pc c ADD_DELTA_INTERACTION)) (ProbTau c))
               (rmul (Pc c DEL_DELTA_INTERACTION) o0)
        else
          rdiv (rmul (rmul (rmul om (Pc c ADD_INTERACTION)) (ProbTau c)) (ProbTau c))
               (rmul (Pc c DEL_INTERACTION) o0)))
      (del_post I Ma dr GIA GMB wAB GAC GBD kM gIC gMD bv bg bw d) d.

(** *** ChangeTauOnVertex: the two G lines of a vertex differ (no tadpoles) *)
Definition tau_post (v gi go w : nat) (t : real) (giW goW wW : cplx) (d : D) : D :=
  mulR (cdiv (cmul (cmul giW goW) wW) (cmul (cmul (g_W d gi) (g_W d go)) (w_W d w)))
  (s_v_T (s_g_W (s_w_W d
    (upd (w_W d) w wW))
    (upd (upd (g_W d) gi giW) go goW))
    (upd (v_T d) v t)).
Inductive tau_rel (c : cfg) (d : D) : RR :=
| tau_i v w gi go vi vo vW t giW goW wW :
    order d <> 0 -> wm_ex d = false -> live (vB d) v -> w = v_W d v -> w_delta d w = false -> tau_draw c t ->
    gi = v_G d v IN -> go = v_G d v OUT -> gi <> go -> vi = g_ver d gi IN -> vo = g_ver d go OUT ->
    vW = w_ver d w (inv (v_D d v)) ->
    GWeight (c_tab c) (v_R d vi) (v_R d v) (v_T d vi) t (v_S d vi OUT) (v_S d v IN)
       (g_meas d gi) (g_gg d gi) (uext d) = Ok giW ->
    GWeight (c_tab c) (v_R d v) (v_R d vo) t (v_T d vo) (v_S d v OUT) (v_S d vo IN)
       (g_meas d go) (g_gg d go) (uext d) = Ok goW ->
    WWeightDir (c_tab c) (v_D d v) (v_R d v) (v_R d vW) t (v_T d vW) (v_S d v) (v_S d vW)
       (w_worm d w) (w_meas d w) (w_delta d w) (w_ww d w) (uext d) = Ok wW ->
    tau_rel c d
      (rmul (cmod (cdiv (cmul (cmul giW goW) wW) (cmul (cmul (g_W d gi) (g_W d go)) (w_W d w))))
         (rdiv (ProbTau c) (ProbTau c)))
      (tau_post v gi go w t giW goW wW d) d.

(** *** ChangeMeasureFromGToW, ChangeMeasureFromWToG *)
Definition g2w_post (g w : nat) (gW wW : cplx) (d : D) : D :=
  mulR (cdiv (cmul gW wW) (cmul (g_W d g) (w_W d w)))
  (s_measG (s_gmeas (s_wmeas (s_g_meas (s_w_meas (s_g_W (s_w_W d
    (upd (w_W d) w wW)) (upd (g_W d) g gW)) (upd (w_meas d) w true)) (upd (g_meas d) g false)) w) NULLP) false).
Inductive g2w_rel (c : cfg) (d : D) : RR :=
| g2w_i g w gW wW :
    order d <> 0 -> wm_ex d = false -> measG d = true -> gamma d = 0 -> live (wB d) w -> w_delta d w = false ->
    g = gmeas d ->
    GWeight (c_tab c) (v_R d (g_ver d g IN)) (v_R d (g_ver d g OUT)) (v_T d (g_ver d g IN)) (v_T d (g_ver d g OUT))
       (v_S d (g_ver d g IN) OUT) (v_S d (g_ver d g IN) OUT) false false (uext d) = Ok gW ->
    WWeight (c_tab c) (v_R d (w_ver d w IN)) (v_R d (w_ver d w OUT)) (v_T d (w_ver d w IN)) (v_T d (w_ver d w OUT))
       (v_S d (w_ver d w IN)) (v_S d (w_ver d w OUT)) (w_worm d w) true (w_delta d w) false (uext d) = Ok wW ->
    g2w_rel c d
      (rmul (cmod (cdiv (cmul gW wW) (cmul (g_W d g) (w_W d w))))
        (rdiv (rmul (rmul rhalf (c_pr c)) (Pc c CHANGE_MEASURE_W2G)) (Pc c CHANGE_MEASURE_G2W)))
      (g2w_post g w gW wW d) d.
Definition w2g_post (g w : nat) (gW wW : cplx) (d : D) : D :=
  mulR (cdiv (cmul gW wW) (cmul (g_W d g) (w_W d w)))
  (s_measG (s_gmeas (s_wmeas (s_g_meas (s_w_meas (s_g_W (s_w_W d
    (upd (w_W d) w wW)) (upd (g_W d) g gW)) (upd (w_meas d) w false)) (upd (g_meas d) g true)) NULLP) g) true).
Inductive w2g_rel (c : cfg) (d : D) : RR :=
| w2g_i g w gW wW :
    order d <> 0 -> wm_ex d = false -> measG d = false -> gamma d = 0 -> live (gB d) g -> w_delta d w = false ->
    w = wmeas d ->
    GWeight (c_tab c) (v_R d (g_ver d g IN)) (v_R d (g_ver d g OUT)) (v_T d (g_ver d g IN)) (v_T d (g_ver d g OUT))
       (v_S d (g_ver d g IN) OUT) (v_S d (g_ver d g IN) OUT) true false (uext d) = Ok gW ->
    WWeight (c_tab c) (v_R d (w_ver d w IN)) (v_R d (w_ver d w OUT)) (v_T d (w_ver d w IN)) (v_T d (w_ver d w OUT))
       (v_S d (w_ver d w IN)) (v_S d (w_ver d w OUT)) (w_worm d w) false (w_delta d w) false (uext d) = Ok wW ->
    w2g_rel c d
      (rmul (cmod (cdiv (cmul gW wW) (cmul (g_W d g) (w_W d w))))
        (rdiv (Pc c CHANGE_MEASURE_G2W) (rmul (rmul rhalf (c_pr c)) (Pc c CHANGE_MEASURE_W2G))))
      (w2g_post g w gW wW d) d.

(** *** ChangeDeltaToContinuous, ChangeContinuousToDelta *)
Definition delta_post (td : bool) (vo w G1 G2 : nat) (t : real) (wW W1 W2 : cplx) (d : D) : D :=
  mulR (cdiv (cmul (cmul W1 W2) wW) (cmul (cmul (g_W d G1) (g_W d G2)) (w_W d w)))
  (s_v_T (s_w_delta (s_w_W (s_g_W d
    (upd (upd (g_W d) G1 W1) G2 W2))
    (upd (w_W d) w wW)) (upd (w_delta d) w td)) (upd (v_T d) vo t)).
Inductive delta_rel (td : bool) (c : cfg) (d : D) : RR :=
| delta_i w vi vo G1 G2 v1 v2 t wW W1 W2 :
    2 <= order d -> wm_ex d = false -> live (wB d) w -> w_delta d w = negb td -> w_meas d w = false ->
    w_ww d w = false ->
    vi = w_ver d w IN -> vo = w_ver d w OUT -> G1 = v_G d vo IN -> G2 = v_G d vo OUT -> G1 <> G2 ->
    v1 = g_ver d G1 IN -> v2 = g_ver d G2 OUT ->
    (td = false -> tau_draw c t) -> (td = true -> t = v_T d vi) ->
    WWeight (c_tab c) (v_R d vi) (v_R d vo) (v_T d vi) t (v_S d vi) (v_S d vo)
       (w_worm d w) (w_meas d w) td (w_ww d w) (uext d) = Ok wW ->
    GWeight (c_tab c) (v_R d v1) (v_R d vo) (v_T d v1) t (v_S d v1 OUT) (v_S d vo IN)
       (g_meas d G1) (g_gg d G1) (uext d) = Ok W1 ->
    GWeightDir (c_tab c) OUT (v_R d v2) (v_R d vo) (v_T d v2) t (v_S d v2 IN) (v_S d vo OUT)
       (g_meas d G2) (g_gg d G2) (uext d) = Ok W2 ->
    delta_rel td c d
      (rmul (cmod (cdiv (cmul (cmul W1 W2) wW) (cmul (cmul (g_W d G1) (g_W d G2)) (w_W d w))))
       (if td then
          rdiv (rmul (Pc c CHANGE_DELTA2CONTINUS) (ProbTau c)) (Pc c CHANGE_CONTINUS2DELTA)
        else
          rdiv (Pc c CHANGE_CONTINUS2DELTA) (rmul (Pc c CHANGE_DELTA2CONTINUS) (ProbTau c))))
      (delta_post td vo w G1 G2 t wW W1 W2 d) d.

(** *** JumpToOrder0, JumpBackToOrder1 *)
Definition to0_post (c : cfg) (d : D) : D :=
  s_order (s_dphase (s_dweight d (cofr (normF (c_tab c))))
    (cmul (dphase d) (phase (cdiv (cofr (normF (c_tab c))) (dweight d))))) 0.
Inductive to0_rel (c : cfg) (d : D) : RR :=
| to0_i o0 o1 :
    order d = 1 -> wm_ex d = false -> gamma d = 0 ->
    nth_error (c_orw c) 0 = Some o0 -> nth_error (c_orw c) 1 = Some o1 ->
    to0_rel c d
      (rmul (cmod (cdiv (cofr (normF (c_tab c))) (dweight d)))
       (rdiv (rmul (rmul (rmul (rmul (rmul (rmul (Pc c JUMP_BACK_TO_ORDER1) (ProbSite c)) (ProbTau c))
                      (ProbTau c)) rhalf) rhalf) o0)
             (rmul (Pc c JUMP_TO_ORDER0) o1)))
      (to0_post c d) d.
Definition to1_post (V1 V2 G1 G2 W1 : nat) (R : site) (t1 t2 : real) (sp1 sp2 : dir -> spin)
  (g1 g2 wW : cplx) (d : D) : D :=
  mulR (cdiv (cmul (cmul (rmul_c (rofZ (-1)) g1) g2) wW) (dweight d))
  (s_order (s_v_R (s_v_T (s_v_S (s_g_W (s_w_W d
    (upd (w_W d) W1 wW))
    (upd (upd (g_W d) G1 g1) G2 g2))
    (upd (upd (v_S d) V1 sp1) V2 sp2))
    (upd (upd (v_T d) V1 t1) V2 t2))
    (upd (upd (v_R d) V1 R) V2 R)) 1).
Inductive to1_rel (c : cfg) (d : D) : RR :=
| to1_i V1 V2 G1 G2 W1 R t1 t2 a b g1 g2 wW o0 o1 :
    order d = 0 -> wm_ex d = false -> gamma d = 0 ->
    site_ok (c_lat c) R -> tau_draw c t1 -> tau_draw c t2 ->
    V1 = names (vB d) 0 -> V2 = names (vB d) 1 -> G1 = v_G d V1 OUT -> G2 = v_G d V2 OUT -> W1 = v_W d V1 ->
    GWeight (c_tab c) R R t1 t2 a a (g_meas d G1) false (uext d) = Ok g1 ->
    GWeight (c_tab c) R R t2 t1 b b (g_meas d G2) false (uext d) = Ok g2 ->
    WWeightDir (c_tab c) (v_D d V1) R R t1 t2 (mkspin b a) (mkspin a b)
       false (w_meas d W1) (w_delta d W1) false (uext d) = Ok wW ->
    nth_error (c_orw c) 0 = Some o0 -> nth_error (c_orw c) 1 = Some o1 ->
    to1_rel c d
      (rmul (cmod (cdiv (cmul (cmul (rmul_c (rofZ (-1)) g1) g2) wW) (dweight d)))
       (rdiv (rmul (Pc c JUMP_TO_ORDER0) o1)
             (rmul (rmul (rmul (rmul (rmul (rmul (Pc c JUMP_BACK_TO_ORDER1) o0) (ProbSite c))
                      (ProbTau c)) (ProbTau c)) rhalf) rhalf)))
      (to1_post V1 V2 G1 G2 W1 R t1 t2 (mkspin b a) (mkspin a b) g1 g2 wW d) d.

(** *** Gamma updates; a rejected entry leaves the external point changed *)
Definition toGG_post (g : nat) (ext : extpt) (wt : cplx) (d : D) : D :=
  mulR (cdiv wt (g_W d g))
  (s_uext (s_gamma (s_vin (s_vout (s_g_gg (s_g_W d
    (upd (g_W d) g wt)) (upd (g_gg d) g true)) (VG g OUT)) (VG g IN)) 1) ext).
Inductive toGG_rel (c : cfg) (d : D) : RR :=
| toGG_i g t ext wt :
    order d <> 0 -> wm_ex d = false -> gamma d = 0 -> c_gamma3 c = true -> live (gB d) g -> g_meas d g = false ->
    tau_draw c t -> ext = mkExt (v_R d (g_ver d g IN)) t UP ->
    GWeight (c_tab c) (v_R d (g_ver d g IN)) (v_R d (g_ver d g OUT)) (v_T d (g_ver d g IN)) (v_T d (g_ver d g OUT))
       (v_S d (g_ver d g IN) OUT) (v_S d (g_ver d g IN) OUT) false true ext = Ok wt ->
    toGG_rel c d
      (rmul (rmul (cmod (cdiv wt (g_W d g)))
        (rdiv (rmul (rmul (Pc c JUMP_FROM_GGGAMMAG_TO_G) r2) (rofZ (order d)))
              (rmul (Pc c JUMP_TO_GGGAMMAG) (ProbTau c)))) (gamma_rw c d))
      (toGG_post g ext wt d) (s_uext d ext).
Definition fromGG_post (g : nat) (wt : cplx) (d : D) : D :=
  mulR (cdiv wt (g_W d g))
  (s_gamma (s_g_gg (s_g_W d (upd (g_W d) g wt)) (upd (g_gg d) g false)) 0).
Inductive fromGG_rel (c : cfg) (d : D) : RR :=
| fromGG_i g wt :
    order d <> 0 -> wm_ex d = false -> gamma d = 1 -> live (gB d) g -> g_meas d g = false -> g_gg d g = true ->
    ex_S (uext d) = UP -> v_R d (g_ver d g IN) = ex_R (uext d) ->
    GWeight (c_tab c) (v_R d (g_ver d g IN)) (v_R d (g_ver d g OUT)) (v_T d (g_ver d g IN)) (v_T d (g_ver d g OUT))
       (v_S d (g_ver d g IN) OUT) (v_S d (g_ver d g IN) OUT) false false (uext d) = Ok wt ->
    fromGG_rel c d
      (rdiv (rmul (cmod (cdiv wt (g_W d g)))
        (rdiv (rmul (Pc c JUMP_TO_GGGAMMAG) (ProbTau c))
              (rmul (rmul (Pc c JUMP_FROM_GGGAMMAG_TO_G) r2) (rofZ (order d))))) (gamma_rw c d))
      (fromGG_post g wt d) d.
Definition toWW_post (w : nat) (ext : extpt) (wt : cplx) (d : D) : D :=
  mulR (cdiv wt (w_W d w))
  (s_uext (s_gamma (s_vin (s_vout (s_w_ww (s_w_W d
    (upd (w_W d) w wt)) (upd (w_ww d) w true)) (VW w OUT)) (VW w IN)) 2) ext).
Inductive toWW_rel (c : cfg) (d : D) : RR :=
| toWW_i w t r ext wt :
    order d <> 0 -> wm_ex d = false -> gamma d = 0 -> c_gamma3 c = true -> live (wB d) w -> w_meas d w = false ->
    w_delta d w = false -> tau_draw c t -> site_ok (c_lat c) r -> ext = mkExt r t UP ->
    WWeight (c_tab c) (v_R d (w_ver d w IN)) (v_R d (w_ver d w OUT)) (v_T d (w_ver d w IN)) (v_T d (w_ver d w OUT))
       (v_S d (w_ver d w IN)) (v_S d (w_ver d w OUT)) false false false true ext = Ok wt ->
    toWW_rel c d
      (rmul (rmul (cmod (cdiv wt (w_W d w)))
        (rdiv (rmul (Pc c JUMP_FROM_WWGAMMAW_TO_W) (rofZ (order d)))
              (rmul (rmul (Pc c JUMP_TO_WWGAMMAW) (ProbTau c)) (ProbSite c)))) (gamma_rw c d))
      (toWW_post w ext wt d) (s_uext d ext).
Definition fromWW_post (w : nat) (wt : cplx) (d : D) : D :=
  mulR (cdiv wt (w_W d w))
  (s_gamma (s_w_ww (s_w_W d (upd (w_W d) w wt)) (upd (w_ww d) w false)) 0).
Inductive fromWW_rel (c : cfg) (d : D) : RR :=
| fromWW_i w wt :
    order d <> 0 -> wm_ex d = false -> gamma d = 2 -> live (wB d) w -> w_meas d w = false -> w_delta d w = false ->
    w_ww d w = true -> ex_S (uext d) = UP ->
    WWeight (c_tab c) (v_R d (w_ver d w IN)) (v_R d (w_ver d w OUT)) (v_T d (w_ver d w IN)) (v_T d (w_ver d w OUT))
       (v_S d (w_ver d w IN)) (v_S d (w_ver d w OUT)) false false false false (uext d) = Ok wt ->
    fromWW_rel c d
      (rdiv (rmul (cmod (cdiv wt (w_W d w)))
        (rdiv (rmul (rmul (Pc c JUMP_TO_WWGAMMAW) (ProbTau c)) (ProbSite c))
              (rmul (Pc c JUMP_FROM_WWGAMMAW_TO_W) (rofZ (order d))))) (gamma_rw c d))
      (fromWW_post w wt d) d.
End Rel.
