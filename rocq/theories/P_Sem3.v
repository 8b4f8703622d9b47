(** Semantics of ChangeRLoop *)
From Coq Require Import ZArith List Bool Arith Lia ZifyBool.
From Verif Require Import Base Num RNG Momentum Complex Lattice Bundle IndexMap Weights Diagram Markov
  P_Momentum P_RNG P_Bundle P_Lattice P_IndexMap P_WP P_Inv P_Rel P_Sem1 P_Sem2.
Import ListNotations.
Open Scope Z_scope.

Definition mem (x : nat) (l : list nat) : bool := existsb (Nat.eqb x) l.
Lemma mem_In x l : mem x l = true <-> In x l.
Proof.
  unfold mem. rewrite existsb_exists. split.
  - intros [y [Hy E]]. apply Nat.eqb_eq in E. now subst.
  - intros H. exists x. split; auto. apply Nat.eqb_refl.
Qed.
Lemma mem_cons x y l : mem x (y :: l) = Nat.eqb x y || mem x l.
Proof. reflexivity. Qed.
Lemma mem_app x l l' : mem x (l ++ l') = mem x l || mem x l'.
Proof. unfold mem. now rewrite existsb_app. Qed.
Lemma mem_rev x l : mem x (rev l) = mem x l.
Proof. apply eq_true_iff_eq. rewrite !mem_In. symmetry. apply in_rev. Qed.

Lemma site_eqb_refl s : site_eqb s s = true.
Proof.
  unfold site_eqb. rewrite Z.eqb_refl. cbn [andb]. destruct s as [x l]. cbn [coord]. unfold vec_eqb. induction l as [|y l IH]; auto.
  rewrite Z.eqb_refl. exact IH.
Qed.

Section Loop.
Context {N : Num}.
Record entry := mkE { e_v : nat; e_g : nat; e_gw : cplx; e_w : nat; e_ww : cplx; e_cnt : bool }.
Definition tup (e : entry) : nat * nat * cplx * nat * cplx := (e_v e, e_g e, e_gw e, e_w e, e_ww e).

Fixpoint loop_new (a : cplx) (L : list entry) : cplx :=
  match L with
  | [] => a
  | e :: r => loop_new (if e_cnt e then cmul (cmul a (e_gw e)) (e_ww e) else cmul a (e_gw e)) r
  end.
Fixpoint loop_old (d : diagram) (a : cplx) (L : list entry) : cplx :=
  match L with
  | [] => a
  | e :: r => loop_old d (if e_cnt e then cmul (cmul a (g_W d (e_g e))) (w_W d (e_w e)) else cmul a (g_W d (e_g e))) r
  end.
Definition cw (L : list entry) : list nat := map e_w (filter e_cnt L).

(** the entry of vertex [e_v e] of the loop [vs] when the loop moves to site [R] *)
Definition entry_ok (c : cfg) (d : diagram) (R : site) (vs : list nat) (e : entry) : Prop :=
  e_g e = v_G d (e_v e) OUT /\ e_w e = v_W d (e_v e) /\
  GWeight (c_tab c) R R (v_T d (e_v e)) (v_T d (g_ver d (e_g e) OUT)) (v_S d (e_v e) OUT)
    (v_S d (g_ver d (e_g e) OUT) IN) (g_meas d (e_g e)) (g_gg d (e_g e)) (uext d) = Ok (e_gw e) /\
  let vW := w_ver d (e_w e) (inv (v_D d (e_v e))) in
  WWeightDir (c_tab c) (v_D d (e_v e)) R (if mem vW vs then R else v_R d vW) (v_T d (e_v e)) (v_T d vW)
    (v_S d (e_v e)) (v_S d vW) (w_worm d (e_w e)) (w_meas d (e_w e)) (w_delta d (e_w e)) (w_ww d (e_w e)) (uext d)
    = Ok (e_ww e).

Definition loop_post (R : site) (L : list entry) (wr : cplx) (d : diagram) : diagram :=
  mulR wr
  (s_v_R (s_g_W (s_w_W d
    (fold_left (fun f e => upd f (e_w e) (e_ww e)) L (w_W d)))
    (fold_left (fun f e => upd f (e_g e) (e_gw e)) L (g_W d)))
    (fold_left (fun f e => upd f (e_v e) R) L (v_R d))).

(** [v] is reached from [v0] along outgoing G lines *)
Definition onloop (d : diagram) (v0 v : nat) : Prop := exists n, v = Nat.iter n (fun x => g_ver d (v_G d x OUT) OUT) v0.
Inductive loop_rel (c : cfg) (d : diagram) : real -> diagram -> diagram -> Prop :=
| loop_i v0 vs R L wr :
    order d <> 0 -> wm_ex d = false -> In v0 vs -> NoDup vs -> (forall v, In v vs -> live (vB d) v) ->
    (forall v, In v vs -> In (g_ver d (v_G d v OUT) OUT) vs) -> site_ok (c_lat c) R ->
    map e_v L = vs -> Forall (entry_ok c d R vs) L ->
    NoDup (cw L) -> (forall v, In v vs -> In (v_W d v) (cw L)) ->
    wr = cdiv (loop_new (mkC r1 r0) L) (loop_old d (mkC r1 r0) L) ->
    (forall v, In v vs -> onloop d v0 v) ->
    loop_rel c d (rmul (cmod wr) (rdiv (ProbSite c) (ProbSite c))) (loop_post R L wr d) d.

Definition loop3 (d : diagram) a b c' : diagram := s_v_R (s_g_W (s_w_W d a) b) c'.
Lemma loop_write1_ok R wr sg e (d : diagram) : loop_write1 R (mulW wr sg d) (tup e) =
  mulW wr sg (loop3 d (upd (w_W d) (e_w e) (e_ww e)) (upd (g_W d) (e_g e) (e_gw e)) (upd (v_R d) (e_v e) R)).
Proof. destruct d, e. unfold loop_write1, tup, loop3. dred. reflexivity. Qed.
Lemma loop3_id d : loop3 d (w_W d) (g_W d) (v_R d) = d.
Proof. destruct d. unfold loop3. dred. reflexivity. Qed.
Lemma loop3_3 d a b c' x y z : loop3 (loop3 d a b c') x y z = loop3 d x y z.
Proof. destruct d. unfold loop3. dred. reflexivity. Qed.
Lemma loop3_p d a b c' : w_W (loop3 d a b c') = a /\ g_W (loop3 d a b c') = b /\ v_R (loop3 d a b c') = c'.
Proof. destruct d. unfold loop3. dred. auto. Qed.
Lemma fold_left_cons {A B} (f : A -> B -> A) b l a : fold_left f (b :: l) a = fold_left f l (f a b).
Proof. reflexivity. Qed.
Lemma loop_fold R L wr sg : forall d : diagram, fold_left (loop_write1 R) (map tup L) (mulW wr sg d) =
  mulW wr sg (loop3 d (fold_left (fun f e => upd f (e_w e) (e_ww e)) L (w_W d))
    (fold_left (fun f e => upd f (e_g e) (e_gw e)) L (g_W d)) (fold_left (fun f e => upd f (e_v e) R) L (v_R d))).
Proof.
  induction L as [|e L IH]; intros d.
  - cbn [map fold_left]. now rewrite loop3_id.
  - rewrite map_cons, !fold_left_cons, loop_write1_ok, IH. destruct (loop3_p d (upd (w_W d) (e_w e) (e_ww e)) (upd (g_W d) (e_g e) (e_gw e))
      (upd (v_R d) (e_v e) R)) as (-> & -> & ->). now rewrite loop3_3.
Qed.
Lemma loop_write_ok R L wr (d : diagram) : loop_write R (map tup L) wr (phase wr) d = Ok (loop_post R L wr d).
Proof. unfold loop_write. now rewrite loop_fold. Qed.
End Loop.

Section Sem3.
Context {N : Num} {E : Type} (next : E -> Z * E).
Notation mst := (@mstate N E).
Context (c : cfg) (d : diagram) (C : cfg_ok c) (HI : Inv c d).

Definition cn (vs : list nat) (w : nat) : Z := b2z (mem (w_ver d w IN) vs) + b2z (mem (w_ver d w OUT) vs).

Lemma live_len (vs : list nat) : NoDup vs -> (forall v, In v vs -> live (vB d) v) -> (length vs <= 18)%nat.
Proof.
  intros H L. destruct (i_cnt _ _ HI) as (_ & _ & A & _ & B). pose proof (co_order c C).
  transitivity (length (liveL (vB d))); [|rewrite liveL_length; lia].
  apply NoDup_incl_length; auto. intros x Hx. apply liveL_in; [apply (i_bv _ _ HI)|auto].
Qed.
Lemma nm_eq b x y : BInv b -> live b x -> live b y -> (nm b x = nm b y <-> x = y).
Proof. intros B Lx Ly. split; [|congruence]. apply nm_inj; auto; apply lv_lt with b; auto. Qed.

Lemma ends_v w e v : live (wB d) w -> live (vB d) v -> (w_ver d w e = v <-> v_W d v = w /\ v_D d v = e).
Proof.
  intros Lw Lv. split.
  - intros <-. split; [apply (f_wvw HI)|apply (f_wvd HI)]; auto.
  - intros [<- <-]. apply (f_vwv HI); auto.
Qed.

Lemma loop_walk_wp v0 fuel : forall v acc fV fW (s : mst) (Q : option (list nat * (nat -> Z)) -> mst -> Prop),
  live (vB d) v -> (length acc + fuel = 19)%nat -> NoDup acc -> (forall x, In x acc -> live (vB d) x) ->
  (forall x, live (vB d) x -> (fV (nm (vB d) x) = mem x acc)) ->
  (forall w, live (wB d) w -> fW (nm (wB d) w) = cn acc w) ->
  (forall x, In x acc -> In (g_ver d (v_G d x OUT) OUT) acc \/ g_ver d (v_G d x OUT) OUT = v) ->
  onloop d v0 v -> (forall x, In x acc -> onloop d v0 x) ->
  (forall vs fW', In v vs -> incl acc vs -> NoDup vs -> (forall x, In x vs -> live (vB d) x) ->
     (forall x, In x vs -> In (g_ver d (v_G d x OUT) OUT) vs) ->
     (forall w, live (wB d) w -> fW' (nm (wB d) w) = cn vs w) -> (forall x, In x vs -> onloop d v0 x) -> Q (Some (vs, fW')) s) ->
  wp (loop_walk d (v_R d v) fuel v acc fV fW) s Q.
Proof.
  induction fuel as [|fuel IH]; intros v acc fV fW s Q Lv Hlen ND La HV HW Hc Ov Oa HQ.
  - pose proof (live_len acc ND La). lia.
  - cbn [loop_walk].
    assert (Hnm : (nm (vB d) v < 18)%nat).
    { destruct Lv as [_ A]. destruct (i_cnt _ _ HI) as (_ & _ & A' & _ & B). pose proof (co_order c C). lia. }
    apply wp_bind, wp_guard_ub; [unfold MAX_BUNDLE; lia|].
    apply wp_if; intros EV.
    + apply wp_ret. rewrite HV in EV by auto. apply mem_In in EV. apply HQ.
      * now apply -> in_rev.
      * intros x. apply in_rev.
      * apply NoDup_rev, ND.
      * intros x Hx. apply in_rev in Hx. auto.
      * intros x Hx. apply in_rev in Hx. apply -> in_rev. destruct (Hc x Hx) as [A| ->]; auto.
      * intros w Lw. rewrite HW by auto. unfold cn. now rewrite !mem_rev.
      * intros x Hx. apply in_rev in Hx. auto.
    + rewrite HV in EV by auto.
      assert (Nin : ~ In v acc) by (rewrite <- mem_In; congruence).
      cbv zeta. wrd.
      assert (Lw : live (wB d) (v_W d v)) by eauto with inv.
      assert (Hnw : (nm (wB d) (v_W d v) < 10)%nat).
      { destruct Lw as [_ A]. destruct (i_cnt _ _ HI) as (_ & _ & A' & _ & B). pose proof (co_order c C). lia. }
      apply wp_bind, wp_guard_ub; [lia|]. wrd. wrd.
      apply wp_if; intros ES.
      { exfalso. pose proof (i_loc _ _ HI (v_G d v OUT) ltac:(eauto with inv)) as ER. pose proof (f_vgv HI v OUT Lv) as EV2. cbn [inv] in EV2.
        rewrite EV2 in ER. rewrite <- ER, site_eqb_refl in ES. discriminate. }
      apply negb_false_iff, site_eqb_true in ES.
      rewrite <- ES. apply IH; auto.
      * eauto with inv.
      * simpl. lia.
      * constructor; auto.
      * intros x [<-|Hx]; auto.
      * intros x Lx. rewrite upd_eq. destruct (Nat.eq_dec (nm (vB d) x) (nm (vB d) v)) as [Ex|Ex].
        -- apply nm_eq in Ex; auto; [|apply (i_bv _ _ HI)]. subst x. rewrite mem_cons, Nat.eqb_refl. reflexivity.
        -- rewrite HV, mem_cons by auto.
           assert (x <> v) as Hx by congruence. apply Nat.eqb_neq in Hx. now rewrite Hx.
      * intros w Lw'. rewrite upd_eq. unfold cn. rewrite !mem_cons.
        assert (Nm : mem v acc = false) by exact EV.
        destruct (Nat.eq_dec (nm (wB d) w) (nm (wB d) (v_W d v))) as [Ex|Ex].
        -- apply nm_eq in Ex; auto; [|apply (i_bw _ _ HI)]. subst w. rewrite HW by auto. unfold cn.
           pose proof (f_vwv HI v Lv) as Ev. pose proof (f_other HI v Lv) as Eo. apply Nat.eqb_neq in Eo.
           destruct (v_D d v); cbn [inv] in *; rewrite Ev, Eo, Nat.eqb_refl, Nm; cbn [orb b2z]; clear; lia.
        -- rewrite HW by auto. unfold cn.
           assert (forall e, Nat.eqb (w_ver d w e) v = false) as Hne.
           { intros e. apply Nat.eqb_neq. intros X. apply ends_v in X as [X _]; auto; congruence. }
           now rewrite !Hne.
      * intros x [<-|Hx]; [auto|]. destruct (Hc x Hx) as [A| ->]; [left; now right|left; now left].
      * destruct Ov as [n ->]. exists (S n). reflexivity.
      * intros x [<-|Hx]; auto.
      * intros vs fW' H1 H2 H3 H4 H5 H6 H7. apply HQ; auto.
        -- apply H2. now left.
        -- intros x Hx. apply H2. now right.
Qed.

(** an interaction line touched by the processed part of the loop *)
Definition touched (P : list nat) (w : nat) : bool := mem (w_ver d w IN) P || mem (w_ver d w OUT) P.

Lemma mem_end v P : live (vB d) v -> mem v P = true -> touched P (v_W d v) = true.
Proof.
  intros Lv H. unfold touched. pose proof (f_vwv HI v Lv) as Ev. destruct (v_D d v); rewrite Ev, H; auto using orb_true_r.
Qed.
Lemma cn_both vs v : live (vB d) v -> mem v vs = true ->
  cn vs (v_W d v) = 1 + b2z (mem (w_ver d (v_W d v) (inv (v_D d v))) vs).
Proof.
  intros Lv H. unfold cn. pose proof (f_vwv HI v Lv) as Ev. destruct (v_D d v); cbn [inv]; rewrite Ev, H; cbn [b2z]; lia.
Qed.

Lemma loop_weights_wp R (vs : list nat) : site_ok (c_lat c) R -> NoDup vs ->
  (forall v, In v vs -> live (vB d) v) -> (forall v, In v vs -> In (g_ver d (v_G d v OUT) OUT) vs) ->
  forall rest P i fW nW oW (s : mst) (Q : _ -> mst -> Prop),
  vs = P ++ rest ->
  (forall w, live (wB d) w -> fW (nm (wB d) w) = if (cn vs w =? 2) && touched P w then 0 else cn vs w) ->
  (forall L, map e_v L = rest -> Forall (entry_ok c d R vs) L ->
     NoDup (cw L) -> (forall w, In w (cw L) -> cn vs w = 2 -> touched P w = false) ->
     (forall v, In v rest -> In (v_W d v) (cw L) \/ cn vs (v_W d v) = 2 /\ touched P (v_W d v) = true) ->
     Q (map tup L, (loop_new nW L, loop_old d oW L)) s) ->
  wp (loop_weights c d R rest i fW nW oW) s Q.
Proof.
  intros HR NDv Lvs Cvs. induction rest as [|v rest IH]; intros P i fW nW oW s Q EP HF HQ.
  - cbn [loop_weights]. apply wp_ret. apply (HQ []); simpl; try constructor; try contradiction.
  - cbn [loop_weights].
    assert (Iv : In v vs) by (rewrite EP; apply in_or_app; right; now left).
    assert (Lv := Lvs v Iv).
    assert (NIv : ~ In v P /\ ~ In v rest).
    { rewrite EP in NDv. apply NoDup_remove in NDv as [_ A]. split; intros X; apply A, in_or_app; auto. }
    destruct NIv as [NIP NIR].
    wrd. wrd. wwt gw Hg ltac:(wok). wrd. wrd. cbv zeta.
    set (w := v_W d v) in *. assert (Lw : live (wB d) w) by (unfold w; eauto with inv).
    set (vW := w_ver d w (inv (v_D d v))) in *.
    assert (LvW : live (vB d) vW) by (unfold vW; eauto with inv).
    assert (Hcn : cn vs w = 1 + b2z (mem vW vs)) by (apply cn_both; auto; now apply mem_In).
    assert (HvWw : v_W d vW = w) by (apply (f_wvw HI); auto).
    (* processing v touches w *)
    assert (Ht : touched (P ++ [v]) w = true).
    { apply mem_end; auto. rewrite mem_app, mem_cons, Nat.eqb_refl. now destruct (mem v P). }
    assert (Hto : forall w', live (wB d) w' -> w' <> w -> touched (P ++ [v]) w' = touched P w').
    { intros w' Lw' Hn. unfold touched. rewrite !mem_app, !mem_cons. cbn [mem existsb].
      assert (forall e, Nat.eqb (w_ver d w' e) v = false) as Hne.
      { intros e. apply Nat.eqb_neq. intros X. apply ends_v in X as [X _]; auto. }
      rewrite !Hne. cbn [orb]. now rewrite !orb_false_r. }
    assert (EP' : vs = (P ++ [v]) ++ rest) by (rewrite EP, <- app_assoc; reflexivity).
    assert (Hrest : forall v', In v' rest -> live (vB d) v').
    { intros v' Hv'. apply Lvs. rewrite EP. apply in_or_app. right. now right. }
    rewrite HF by auto.
    destruct (mem vW vs) eqn:MW.
    + (* both ends on the loop *)
      assert (C2 : cn vs w = 2) by (rewrite Hcn; reflexivity).
      rewrite C2. cbn [Z.eqb Pos.eqb andb].
      destruct (touched P w) eqn:TP; cbn [Z.eqb Pos.eqb].
      * wwt ww Hw ltac:(wok). apply wp_bind. eapply (IH (P ++ [v])); [exact EP'| |].
        -- intros w' Lw'. rewrite HF by auto. destruct (Nat.eq_dec w' w) as [->|Hn].
           ++ rewrite C2, TP, Ht. reflexivity.
           ++ rewrite Hto by auto. reflexivity.
        -- intros L HL1 HL2 HL3 HL4 HL5. apply wp_ret.
           apply (HQ (mkE v (v_G d v OUT) gw w ww false :: L)).
           ++ simpl. now f_equal.
           ++ constructor; auto. red. cbn [e_v e_g e_gw e_w e_ww]. cbv zeta. fold w. fold vW. rewrite MW. auto.
           ++ exact HL3.
           ++ intros w' Hw' C2'. change (In w' (cw L)) in Hw'. destruct (Nat.eq_dec w' w) as [->|Hn].
              ** specialize (HL4 w Hw' C2). congruence.
              ** assert (Lw' : live (wB d) w').
                 { unfold cw in Hw'. apply in_map_iff in Hw' as [e [<- He]]. apply filter_In in He as [He _].
                   rewrite Forall_forall in HL2. destruct (HL2 e He) as (_ & -> & _).
                   apply (f_vw HI). apply Hrest. rewrite <- HL1. now apply in_map. }
                 rewrite <- (Hto w' Lw' Hn). auto.
           ++ intros v' [<-|Hv'].
              ** right. auto.
              ** destruct (HL5 v' Hv') as [A|[A B]]; [now left|].
                 destruct (Nat.eq_dec (v_W d v') w) as [Hn|Hn]; [right; rewrite Hn; auto|].
                 right. split; auto. rewrite <- Hto; auto. apply (f_vw HI). auto.
      * wwt ww Hw ltac:(wok). apply wp_bind. eapply (IH (P ++ [v])); [exact EP'| |].
        -- intros w' Lw'. rewrite upd_eq. destruct (Nat.eq_dec (nm (wB d) w') (nm (wB d) w)) as [Hn|Hn].
           ++ apply nm_eq in Hn; auto; [|apply (i_bw _ _ HI)]. subst w'. rewrite C2, Ht. reflexivity.
           ++ rewrite HF, Hto by (auto; congruence). reflexivity.
        -- intros L HL1 HL2 HL3 HL4 HL5. apply wp_ret.
           apply (HQ (mkE v (v_G d v OUT) gw w ww true :: L)).
           ++ simpl. now f_equal.
           ++ constructor; auto. red. cbn [e_v e_g e_gw e_w e_ww]. cbv zeta. fold w. fold vW. rewrite MW. auto.
           ++ unfold cw. cbn [filter e_cnt map e_w]. constructor; auto.
              intros X. specialize (HL4 w X C2). congruence.
           ++ unfold cw. cbn [filter e_cnt map e_w]. intros w' [<-|Hw'] C2'; auto.
              destruct (Nat.eq_dec w' w) as [->|Hn]; auto.
              assert (Lw' : live (wB d) w').
              { apply in_map_iff in Hw' as [e [<- He]]. apply filter_In in He as [He _].
                rewrite Forall_forall in HL2. destruct (HL2 e He) as (_ & -> & _).
                apply (f_vw HI). apply Hrest. rewrite <- HL1. now apply in_map. }
              rewrite <- (Hto w' Lw' Hn). auto.
           ++ unfold cw. cbn [filter e_cnt map e_w]. intros v' [<-|Hv']; [left; now left|].
              destruct (HL5 v' Hv') as [A|[A B]]; [left; now right|].
              destruct (Nat.eq_dec (v_W d v') w) as [Hn|Hn]; [left; left; auto|].
              right. split; auto. rewrite <- Hto; auto. apply (f_vw HI). auto.
    + (* the other end is off the loop *)
      assert (C1 : cn vs w = 1) by (rewrite Hcn; reflexivity).
      rewrite C1. cbn [Z.eqb Pos.eqb andb].
      wwt ww Hw ltac:(wok). apply wp_bind. eapply (IH (P ++ [v])); [exact EP'| |].
      * intros w' Lw'. rewrite HF by auto. destruct (Nat.eq_dec w' w) as [->|Hn].
        -- rewrite C1. reflexivity.
        -- rewrite Hto by auto. reflexivity.
      * intros L HL1 HL2 HL3 HL4 HL5. apply wp_ret.
        apply (HQ (mkE v (v_G d v OUT) gw w ww true :: L)).
        -- simpl. now f_equal.
        -- constructor; auto. red. cbn [e_v e_g e_gw e_w e_ww]. cbv zeta. fold w. fold vW. rewrite MW. auto.
        -- unfold cw. cbn [filter e_cnt map e_w]. constructor; auto.
           intros X. apply in_map_iff in X as [e [Ee He]]. apply filter_In in He as [He _].
           rewrite Forall_forall in HL2. destruct (HL2 e He) as (_ & Ew & _). rewrite Ee in Ew.
           assert (Ir : In (e_v e) rest) by (rewrite <- HL1; now apply in_map).
           assert (Lr := Hrest _ Ir).
           (* e_v e is an end of w other than v, hence vW *)
           assert (Hev : e_v e = vW).
           { pose proof (f_vwv HI _ Lr) as A. rewrite <- Ew in A. pose proof (f_vwv HI _ Lv) as B. fold w in B.
             unfold vW. destruct (v_D d (e_v e)) eqn:D1, (v_D d v) eqn:D2; cbn [inv]; try congruence. }
           assert (In vW vs) as Z by (rewrite <- Hev, EP; apply in_or_app; right; now right).
           apply mem_In in Z. congruence.
        -- unfold cw. cbn [filter e_cnt map e_w]. intros w' [<-|Hw'] C2'; [congruence|].
           destruct (Nat.eq_dec w' w) as [->|Hn]; [congruence|].
           assert (Lw' : live (wB d) w').
           { apply in_map_iff in Hw' as [e [<- He]]. apply filter_In in He as [He _].
             rewrite Forall_forall in HL2. destruct (HL2 e He) as (_ & -> & _).
             apply (f_vw HI). apply Hrest. rewrite <- HL1. now apply in_map. }
           rewrite <- (Hto w' Lw' Hn). auto.
        -- unfold cw. cbn [filter e_cnt map e_w]. intros v' [<-|Hv']; [left; now left|].
           destruct (HL5 v' Hv') as [A|[A B]]; [left; now right|].
           destruct (Nat.eq_dec (v_W d v') w) as [Hn|Hn]; [left; left; auto|].
           right. split; auto. rewrite <- Hto; auto. apply (f_vw HI). auto.
Qed.
End Sem3.

Section Sem3b.
Context {N : Num} {E : Type} (next : E -> Z * E).
Notation mst := (@mstate N E).
Lemma ChangeRLoop_sem c (s : mst) : cfg_ok c -> Inv c (md s) ->
  wp (ChangeRLoop next c) s (Post next (loop_rel c) CHANGE_R_LOOP s).
Proof.
  intros C HI. unfold ChangeRLoop. cbv zeta. start d Sil0.
  wguard E0. apply orb_false_iff in E0 as [E0 E1]. apply Z.eqb_neq in E0.
  apply wp_bind, wp_guard_abort; [pose proof (co_order c C); lia|].
  apply wp_bind, wp_pick; [apply (i_bv _ _ HI)|eauto with inv|]. draw Sil0 v0 Lv0.
  apply wp_bind. eapply (loop_walk_wp c d C HI v0 19 v0 []); auto.
  - constructor.
  - intros x [].
  - now exists O.
  - intros x [].
  - intros vs fW I0 _ ND Lvs Cvs HF OL.
    apply wp_bind, wp_PickSite; [apply C|]. draw Sil0 R HR.
    apply wp_bind. eapply (loop_weights_wp c d C HI R vs HR ND Lvs Cvs vs []); auto.
    + intros w Lw. rewrite HF by auto. unfold touched, mem. cbn [existsb orb]. now rewrite andb_false_r.
    + intros L HL1 HL2 HL3 HL4 HL5.
      unfold d. eapply wp_decide1; [eapply f_order; eauto|exact Sil0| |].
      * apply loop_write_ok.
      * econstructor; eauto. intros v Hv. destruct (HL5 v Hv) as [A|[_ A]]; auto. discriminate A.
Qed.
End Sem3b.
