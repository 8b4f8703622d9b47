(** The invariant of the Markov chain and generic lemmas to re-establish its parts *)
From Coq Require Import ZArith List Bool Arith Lia ZifyBool.
From Verif Require Import Base Num RNG Momentum Complex Lattice Bundle IndexMap Weights Diagram Markov
  P_Momentum P_RNG P_Bundle P_Lattice P_IndexMap P_WP.
Import ListNotations.
Open Scope Z_scope.

Lemma upd2_eq {A} (f : nat -> dir -> A) k e x j e' :
  upd2 f k e x j e' = if Nat.eq_dec j k then (if dir_eqb e' e then x else f j e') else f j e'.
Proof.
  unfold upd2. destruct (Nat.eq_dec j k) as [->|H].
  - rewrite Nat.eqb_refl. reflexivity.
  - apply Nat.eqb_neq in H. rewrite H. reflexivity.
Qed.
Lemma dir_eqb_true a b : dir_eqb a b = true -> a = b.
Proof. destruct a, b; simpl; congruence. Qed.
Lemma inv_inv e : inv (inv e) = e.
Proof. destruct e; reflexivity. Qed.
Lemma spin_eqb_true a b : spin_eqb a b = true <-> a = b.
Proof. destruct a, b; simpl; split; congruence. Qed.

(** ** Hash tables: [h] marks exactly the values [f x] of the elements of [L] *)
Definition HT (hi : Z) (h : Z -> bool) (L : nat -> Prop) (f : nat -> Z) : Prop :=
  (forall x, L x -> 0 <= f x <= hi) /\
  (forall k, 0 <= k <= hi -> (h k = true <-> exists x, L x /\ f x = k)) /\
  (forall x y, L x -> L y -> f x = f y -> x = y).

Lemma HT_free hi h L f k : HT hi h L f -> 0 <= k <= hi -> h k = false -> forall x, L x -> f x <> k.
Proof. intros (H1 & H2 & H3) Hk E x Lx Ex. rewrite (proj2 (H2 k Hk)) in E; [discriminate|eauto]. Qed.
Lemma HT_taken hi h L f x : HT hi h L f -> L x -> h (f x) = true.
Proof. intros (H1 & H2 & H3) Lx. apply H2; eauto. Qed.

Lemma HT_add hi h L f k a L' f' : HT hi h L f -> h k = false -> 0 <= k <= hi -> ~ L a ->
  (forall x, L' x <-> L x \/ x = a) -> f' a = k -> (forall x, L x -> f' x = f x) ->
  HT hi (updZ h k true) L' f'.
Proof.
  intros HT0 Hf Hk Na HL Ea Eo. pose proof (HT_free _ _ _ _ _ HT0 Hk Hf) as Free.
  destruct HT0 as (H1 & H2 & H3). split; [|split].
  - intros x Lx. apply HL in Lx as [Lx| ->]; [rewrite Eo by auto; auto|lia].
  - intros j Hj. unfold updZ. destruct (Z.eqb_spec j k) as [->|Hn].
    + split; auto. intros _. exists a. rewrite HL. auto.
    + rewrite H2 by auto. split; intros [x [Lx Ex]].
      * exists x. rewrite HL, Eo by auto. auto.
      * apply HL in Lx as [Lx| ->]; [exists x; rewrite Eo in Ex by auto; auto|congruence].
  - intros x y Lx Ly E. apply HL in Lx as [Lx| ->], Ly as [Ly| ->]; auto.
    + rewrite !Eo in E by auto. auto.
    + rewrite Eo, Ea in E by auto. exfalso. apply (Free x); auto.
    + rewrite Ea, Eo in E by auto. exfalso. apply (Free y); auto.
Qed.
Lemma HT_del hi h L f a L' f' : HT hi h L f -> L a ->
  (forall x, L' x <-> L x /\ x <> a) -> (forall x, L x -> x <> a -> f' x = f x) ->
  HT hi (updZ h (f a) false) L' f'.
Proof.
  intros (H1 & H2 & H3) La HL Eo. split; [|split].
  - intros x Lx. apply HL in Lx as [Lx Hx]. rewrite Eo by auto. auto.
  - intros j Hj. unfold updZ. destruct (Z.eqb_spec j (f a)) as [->|Hn].
    + split; [discriminate|]. intros [x [Lx Ex]]. apply HL in Lx as [Lx Hx]. rewrite Eo in Ex by auto.
      exfalso. auto.
    + rewrite H2 by auto. split; intros [x [Lx Ex]].
      * assert (x <> a) by congruence. exists x. rewrite HL, Eo by auto. auto.
      * apply HL in Lx as [Lx Hx]. rewrite Eo in Ex by auto. eauto.
  - intros x y Lx Ly E. apply HL in Lx as [Lx Hx], Ly as [Ly Hy]. rewrite !Eo in E by auto. auto.
Qed.
Lemma HT_replace hi h L f k a f' : HT hi h L f -> L a -> h k = false -> 0 <= k <= hi ->
  f' a = k -> (forall x, L x -> x <> a -> f' x = f x) ->
  HT hi (updZ (updZ h (f a) false) k true) L f'.
Proof.
  intros HT0 La Hf Hk Ea Eo.
  assert (HD : HT hi (updZ h (f a) false) (fun x => L x /\ x <> a) f).
  { eapply HT_del; eauto. tauto. }
  assert (Hfree : updZ h (f a) false k = false).
  { unfold updZ. destruct (Z.eqb k (f a)); auto. }
  eapply HT_add; [exact HD|exact Hfree|exact Hk| | |exact Ea|]; cbv beta.
  - tauto.
  - intros x. split; [|intros [H| ->]; tauto]. intros Lx. destruct (Nat.eq_dec x a); auto.
  - intros x [Lx Hx]. auto.
Qed.

Section Inv.
Context {N : Num}.

Definition TopoG (bg bv : bundle) (gv vg : nat -> dir -> nat) : Prop :=
  (forall g e, live bg g -> live bv (gv g e) /\ vg (gv g e) (inv e) = g) /\
  (forall v e, live bv v -> live bg (vg v e) /\ gv (vg v e) (inv e) = v).
Definition TopoW (bw bv : bundle) (wv : nat -> dir -> nat) (vw : nat -> nat) (vd : nat -> dir) : Prop :=
  (forall w e, live bw w -> live bv (wv w e) /\ vw (wv w e) = w /\ vd (wv w e) = e) /\
  (forall v, live bv v -> live bw (vw v) /\ wv (vw v) (vd v) = v).
Definition Cnt (mo o : Z) (ag aw av : nat) : Prop :=
  (o = Z.of_nat aw \/ o = 0 /\ aw = 1%nat) /\ ag = (2 * aw)%nat /\ av = (2 * aw)%nat
  /\ (1 <= aw)%nat /\ Z.of_nat aw <= mo.
(** momentum flowing into the worm ends *)
Definition wterm (ex : bool) (i m : nat) (k : Z) (v : nat) : Z :=
  if ex then (if Nat.eqb v i then - k else if Nat.eqb v m then k else 0) else 0.
Definition KCons (bv : bundle) (vg : nat -> dir -> nat) (vw : nat -> nat) (vd : nat -> dir)
  (gk wk : nat -> Z) (ex : bool) (i m : nat) (k : Z) : Prop :=
  forall v, live bv v ->
    eqm (gk (vg v IN) - gk (vg v OUT) - SIGN (vd v) * wk (vw v) + wterm ex i m k v) 0.
Definition SpinG (bg : bundle) (gv : nat -> dir -> nat) (vs : nat -> dir -> spin) : Prop :=
  forall g, live bg g -> vs (gv g IN) OUT = vs (gv g OUT) IN.
Definition b2z (b : bool) : Z := if b then 1 else 0.
Definition cur (s : dir -> spin) : Z := spinZ (s OUT) - spinZ (s IN).
Definition SpinW (bw : bundle) (wv : nat -> dir -> nat) (vs : nat -> dir -> spin) (vw : nat -> nat)
  (ex : bool) (i m : nat) (ds : Z) : Prop :=
  forall w, live bw w ->
    cur (vs (wv w IN)) + cur (vs (wv w OUT)) =
    (if ex then ds * (b2z (Nat.eqb (vw m) w) - b2z (Nat.eqb (vw i) w)) else 0).
Definition Meas (isG : bool) (gm wm : nat) (bg : bundle) (fg : nat -> bool) (bw : bundle) (fw : nat -> bool) : Prop :=
  if isG then live bg gm /\ (forall g, live bg g -> (fg g = true <-> g = gm)) /\ (forall w, live bw w -> fw w = false)
  else live bw wm /\ (forall w, live bw w -> (fw w = true <-> w = wm)) /\ (forall g, live bg g -> fg g = false).
Definition Worm (ex : bool) (i m : nat) (k ds o : Z) (bv : bundle) (vw : nat -> nat) (vd : nat -> dir)
  (bw : bundle) (ww : nat -> bool) : Prop :=
  if ex then live bv i /\ live bv m /\ i <> m /\ vd m = OUT /\ o <> 0 /\ (ds = 1 \/ ds = -1) /\ inrange k /\
             (forall w, live bw w -> (ww w = true <-> vw i = w \/ vw m = w))
  else forall w, live bw w -> ww w = false.
Definition Gam (ga o : Z) (g3 : bool) (bg : bundle) (gm gg : nat -> bool) (bw : bundle) (wm wd ww : nat -> bool)
  (vi vo : vslot) : Prop :=
  ga = 0 /\ (forall g, live bg g -> gg g = false) /\ (forall w, live bw w -> ww w = false) \/
  ga = 1 /\ o <> 0 /\ g3 = true /\
    (exists g, live bg g /\ gm g = false /\ vi = VG g IN /\ vo = VG g OUT /\
       (forall g', live bg g' -> (gg g' = true <-> g' = g)) /\ (forall w, live bw w -> ww w = false)) \/
  ga = 2 /\ o <> 0 /\ g3 = true /\
    (exists w, live bw w /\ wm w = false /\ wd w = false /\ vi = VW w IN /\ vo = VW w OUT /\
       (forall w', live bw w' -> (ww w' = true <-> w' = w)) /\ (forall g, live bg g -> gg g = false)).
Definition Delta (bw : bundle) (wd wm : nat -> bool) : Prop :=
  forall w, live bw w -> wm w && wd w = false.
Definition Loc (bg : bundle) (gv : nat -> dir -> nat) (vr : nat -> site) : Prop :=
  forall g, live bg g -> vr (gv g IN) = vr (gv g OUT).
Definition StoreG (T : tables) (bg : bundle) (gv : nat -> dir -> nat) (vr : nat -> site) (vt : nat -> real)
  (vs : nat -> dir -> spin) (gm gg : nat -> bool) (ext : extpt) (gw : nat -> cplx) : Prop :=
  forall g, live bg g ->
    GWeight T (vr (gv g IN)) (vr (gv g OUT)) (vt (gv g IN)) (vt (gv g OUT)) (vs (gv g IN) OUT) (vs (gv g OUT) IN)
      (gm g) (gg g) ext = Ok (gw g).
Definition StoreW (T : tables) (bw : bundle) (wv : nat -> dir -> nat) (vr : nat -> site) (vt : nat -> real)
  (vs : nat -> dir -> spin) (wo wm wd ww : nat -> bool) (ext : extpt) (wt : nat -> cplx) : Prop :=
  forall w, live bw w ->
    WWeight T (vr (wv w IN)) (vr (wv w OUT)) (vt (wv w IN)) (vt (wv w OUT)) (vs (wv w IN)) (vs (wv w OUT))
      (wo w) (wm w) (wd w) (ww w) ext = Ok (wt w).

(** What the surrounding program must provide. *)
Record cfg_ok (c : cfg) : Prop := {
  co_order : 1 <= c_order c <= 9;
  co_orw : (Z.to_nat (c_order c) < length (c_orw c))%nat;
  co_lat : lat_ok (c_lat c);
  co_gmap : imap_ok (gmap (c_tab c));
  co_wmap : imap_ok (wmap (c_tab c));
  co_glat : im_lat (gmap (c_tab c)) = c_lat c;
  co_wlat : im_lat (wmap (c_tab c)) = c_lat c;
  co_gnsp : im_nsp (gmap (c_tab c)) = 2;
  co_wnsp : im_nsp (wmap (c_tab c)) = 4;
  co_gtau : forall t t', tau_gen c t -> tau_gen c t' ->
    0 <= TauIndex (gmap (c_tab c)) t t' < im_maxtau (gmap (c_tab c));
  co_wtau : forall t t', tau_gen c t -> tau_gen c t' ->
    0 <= TauIndex (wmap (c_tab c)) t t' < im_maxtau (wmap (c_tab c));
  co_g3 : c_gamma3 c = true -> t_gammaG (c_tab c) <> None /\ t_gammaW (c_tab c) <> None }.

Record Inv (c : cfg) (d : diagram) : Prop := {
  i_bg : BInv (gB d); i_bw : BInv (wB d); i_bv : BInv (vB d);
  i_cnt : Cnt (c_order c) (order d) (avail (gB d)) (avail (wB d)) (avail (vB d));
  i_tG : TopoG (gB d) (vB d) (g_ver d) (v_G d);
  i_tW : TopoW (wB d) (vB d) (w_ver d) (v_W d) (v_D d);
  i_hG : HT (2 * MAX_K) (ghash d) (live (gB d)) (fun g => kindex (g_K d g));
  i_hW : HT MAX_K (whash d) (live (wB d)) (fun w => kabs (w_K d w));
  i_hW0 : forall w, live (wB d) w -> w_K d w <> 0;
  i_K : KCons (vB d) (v_G d) (v_W d) (v_D d) (g_K d) (w_K d) (wm_ex d) (ira d) (masha d) (wm_K d);
  i_spin : SpinG (gB d) (g_ver d) (v_S d);
  i_cur : SpinW (wB d) (w_ver d) (v_S d) (v_W d) (wm_ex d) (ira d) (masha d) (wm_ds d);
  i_meas : Meas (measG d) (gmeas d) (wmeas d) (gB d) (g_meas d) (wB d) (w_meas d);
  i_worm : Worm (wm_ex d) (ira d) (masha d) (wm_K d) (wm_ds d) (order d) (vB d) (v_W d) (v_D d) (wB d) (w_worm d);
  i_gam : Gam (gamma d) (order d) (c_gamma3 c) (gB d) (g_meas d) (g_gg d) (wB d) (w_meas d) (w_delta d) (w_ww d)
            (vin d) (vout d);
  i_delta : Delta (wB d) (w_delta d) (w_meas d);
  i_loc : Loc (gB d) (g_ver d) (v_R d);
  i_site : forall v, live (vB d) v -> site_ok (c_lat c) (v_R d v);
  i_tau : forall v, live (vB d) v -> tau_gen c (v_T d v);
  i_sG : StoreG (c_tab c) (gB d) (g_ver d) (v_R d) (v_T d) (v_S d) (g_meas d) (g_gg d) (uext d) (g_W d);
  i_sW : StoreW (c_tab c) (wB d) (w_ver d) (v_R d) (v_T d) (v_S d) (w_worm d) (w_meas d) (w_delta d) (w_ww d)
           (uext d) (w_W d) }.

(** ** Weights are defined *)
Lemma GWeight_ok c ri ro ti to si so me gg ext : cfg_ok c ->
  site_ok (c_lat c) ri -> site_ok (c_lat c) ro -> tau_gen c ti -> tau_gen c to ->
  (gg = true -> c_gamma3 c = true) ->
  exists w, GWeight (c_tab c) ri ro ti to si so me gg ext = Ok w.
Proof.
  intros C H1 H2 H3 H4 H5. unfold GWeight.
  destruct (index_injective _ (co_gmap c C)) as [HI _].
  destruct (HI (spinZ si) (spinZ so) ri ro ti to) as [i [Ei _]].
  - unfold args_ok. rewrite (co_gnsp c C), (co_glat c C). destruct si, so; simpl; repeat split; auto; try lia; try apply H1; apply H2.
  - apply C; auto.
  - rewrite Ei. cbn [obind]. destruct me; [eauto|]. destruct gg; [|eauto].
    destruct (co_g3 c C (H5 eq_refl)) as [HG _]. destruct (t_gammaG (c_tab c)); [eauto|congruence].
Qed.
Lemma spin4_range s : 0 <= spin4 s < 4.
Proof. unfold spin4. destruct (s IN), (s OUT); simpl; lia. Qed.
Lemma WWeight_ok c ri ro ti to si so wo me de ww ext : cfg_ok c ->
  site_ok (c_lat c) ri -> site_ok (c_lat c) ro -> tau_gen c ti -> tau_gen c to ->
  (ww = true -> c_gamma3 c = true) ->
  exists w, WWeight (c_tab c) ri ro ti to si so wo me de ww ext = Ok w.
Proof.
  intros C H1 H2 H3 H4 H5. unfold WWeight.
  set (s1 := if wo then upup else si). set (s2 := if wo then upup else so).
  assert (A : args_ok (wmap (c_tab c)) (spin4 s1) (spin4 s2) ri ro).
  { unfold args_ok. rewrite (co_wnsp c C), (co_wlat c C). pose proof (spin4_range s1). pose proof (spin4_range s2). auto. }
  destruct (index_injective _ (co_wmap c C)) as [HI HD].
  destruct de.
  - destruct (HD _ _ _ _ A) as [i [Ei _]]. rewrite Ei. cbn. eauto.
  - destruct (HI (spin4 s1) (spin4 s2) ri ro ti to A) as [i [Ei _]]; [apply C; auto|].
    rewrite Ei. cbn [obind]. destruct me; [eauto|]. destruct ww; [|eauto].
    destruct (co_g3 c C (H5 eq_refl)) as [_ HW]. destruct (t_gammaW (c_tab c)); [eauto|congruence].
Qed.
Lemma GWeightDir_ok c e ri ro ti to si so me gg ext : cfg_ok c ->
  site_ok (c_lat c) ri -> site_ok (c_lat c) ro -> tau_gen c ti -> tau_gen c to ->
  (gg = true -> c_gamma3 c = true) ->
  exists w, GWeightDir (c_tab c) e ri ro ti to si so me gg ext = Ok w.
Proof. intros. rewrite GWeightDir_eq. destruct e; apply GWeight_ok; auto. Qed.
Lemma WWeightDir_ok c e ri ro ti to si so wo me de ww ext : cfg_ok c -> me && de = false ->
  site_ok (c_lat c) ri -> site_ok (c_lat c) ro -> tau_gen c ti -> tau_gen c to ->
  (ww = true -> c_gamma3 c = true) ->
  exists w, WWeightDir (c_tab c) e ri ro ti to si so wo me de ww ext = Ok w.
Proof. intros. rewrite WWeightDir_eq by auto. destruct e; apply WWeight_ok; auto. Qed.
Lemma GWeight_ext T ri ro ti to si so me e1 e2 :
  GWeight T ri ro ti to si so me false e1 = GWeight T ri ro ti to si so me false e2.
Proof. reflexivity. Qed.
Lemma WWeight_ext T ri ro ti to si so wo me de e1 e2 :
  WWeight T ri ro ti to si so wo me de false e1 = WWeight T ri ro ti to si so wo me de false e2.
Proof. reflexivity. Qed.
End Inv.
