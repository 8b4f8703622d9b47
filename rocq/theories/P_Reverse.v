(** Every Monte Carlo step can be undone by one further step *)
From Coq Require Import ZArith List Bool Arith Lia ZifyBool Reals Lra.
From Verif Require Import Base Num NumR RNG Momentum Complex Lattice Bundle IndexMap Weights Diagram Markov DiagramIO History
  P_Momentum P_RNG P_Bundle P_Lattice P_IndexMap P_WP P_Inv P_Rel P_Sem1 P_Sem2 P_Sem3 P_Pres1 P_Pres2 P_Pres3 P_Pres4
  P_Hop P_Fix P_IO P_History P_IOProm P_Loop P_Weight P_Step Target P_MH Alike P_Alike P_Reach P_Undo P_Can.
Import ListNotations.
Open Scope Z_scope.

(** *** ChangeRLoop *)
Section LoopCan.
Context (c : @cfg NumR) (C : cfg_ok c).
Notation D := (@diagram NumR).

(** the proposal of ChangeRLoop from vertex [v0] to site [R] *)
Inductive loop_at (d : D) (v0 : nat) (R : site) : @real NumR -> D -> Prop :=
| loop_at_i vs L wr :
    order d <> 0 -> wm_ex d = false -> In v0 vs -> NoDup vs -> (forall v, In v vs -> live (vB d) v) ->
    (forall v, In v vs -> In (g_ver d (v_G d v OUT) OUT) vs) -> site_ok (c_lat c) R ->
    map e_v L = vs -> Forall (entry_ok c d R vs) L ->
    NoDup (cw L) -> (forall v, In v vs -> In (v_W d v) (cw L)) ->
    wr = cdiv (loop_new (mkC r1 r0) L) (loop_old d (mkC r1 r0) L) ->
    (forall v, In v vs -> onloop d v0 v) ->
    loop_at d v0 R (rmul (cmod wr) (rdiv (ProbSite c) (ProbSite c))) (loop_post R L wr d).
Lemma loop_at_rel d v0 R p d' : loop_at d v0 R p d' -> loop_rel c d p d' d.
Proof. intros []. eapply loop_i; eassumption. Qed.

Lemma loop_can d v0 R (P : D -> Prop) : Inv c d -> order d <> 0 -> wm_ex d = false -> live (vB d) v0 -> site_ok (c_lat c) R ->
  (forall p d'', loop_at d v0 R p d'' -> (0 < (p : Reals.Rdefinitions.R))%R /\ P d'') ->
  exists ws, Forall w32 ws /\ forall E (next : E -> Z * E) (s : @mstate NumR E), md s = d -> emits next (mrng s) ws ->
    wp (ChangeRLoop next c) s (fun _ s' => P (md s')).
Proof.
  intros HI Ho Hx Lv0 HR HP. exists (Z.of_nat (nm (vB d) v0) :: coord R ++ [sub R; 2^31]). split.
  { destruct (site_w32 c C R HR) as [A B]. apply Forall_cons; [apply nm_w32; [apply (i_bv _ _ HI)|assumption]|].
    apply Forall_app. split; [exact A|]. apply Forall_cons; [exact B|]. apply Forall_cons; [apply last_w32|apply Forall_nil]. }
  intros E next s Ed Em. unfold ChangeRLoop. cbv zeta. startc Sil0 Ed.
  gno. apply wp_bind, wp_guard_abort; [pose proof (co_order c C); lia|].
  apply wp_bind. eapply we_pick; [apply (i_bv _ _ HI)|exact Lv0|exact Em|]. adv Sil0 Em.
  apply wp_bind. eapply (loop_walk_wp c d C HI v0 19 v0 []); auto.
  - constructor.
  - intros x [].
  - now exists O.
  - intros x [].
  - intros vs fW I0 _ ND Lvs Cvs HF OL.
    apply wp_bind. eapply we_Site; [apply C|exact HR|exact Em|]. adv Sil0 Em.
    apply wp_bind. eapply (loop_weights_wp c d C HI R vs HR ND Lvs Cvs vs []); auto.
    + intros w Lw. rewrite HF by auto. unfold touched, mem. cbn [existsb orb]. now rewrite andb_false_r.
    + intros L HL1 HL2 HL3 HL4 HL5. cbv beta iota zeta.
      assert (LA := loop_at_i d v0 R vs L _ Ho Hx I0 ND Lvs Cvs HR HL1 HL2 HL3
        (fun v Hv => match HL5 v Hv with or_introl A => A | or_intror (Logic.conj _ A) => False_ind _ (diff_false_true A) end) eq_refl OL).
      destruct (HP _ _ LA) as [Hp HP']. eapply wp_mono.
      * eapply we_decide; [eapply f_order; eassumption|exact Hp|exact Em|].
        match goal with |- context [md ?t] => assert (X : md t = d) by (rewrite <- Ed; apply Sil0); rewrite X end.
        apply loop_write_ok.
      * cbv beta. intros _ s' ->. exact HP'.
Qed.

Lemma onloop_site d v0 v : Inv c d -> live (vB d) v0 -> onloop d v0 v -> live (vB d) v /\ v_R d v = v_R d v0.
Proof.
  intros HI L0 [n ->]. induction n as [|n [IH1 IH2]]; [auto|]. split.
  - change (live (vB d) (g_ver d (v_G d (Nat.iter n (fun x => g_ver d (v_G d x OUT) OUT) v0) OUT) OUT)). eauto with inv.
  - rewrite <- IH2. exact (adj_site c d _ OUT HI IH1).
Qed.
Lemma iter_closed (f : nat -> nat) vs n : forall v0, In v0 vs -> (forall v, In v vs -> In (f v) vs) -> In (Nat.iter n f v0) vs.
Proof. induction n as [|n IH]; intros v0 H0 Hc; [exact H0|]. cbn [Nat.iter nat_rect]. apply Hc. now apply IH. Qed.

Lemma loop_undo d p d' r : Inv c d -> loop_rel c d p d' r ->
  exists v0 R, order d' <> 0 /\ wm_ex d' = false /\ live (vB d') v0 /\ site_ok (c_lat c) R /\
    forall p' d'', loop_at d' v0 R p' d'' -> alike0 idn idn idn d d''.
Proof.
  intros HI H. destruct H as [v0 vs R L wr Ho Hx I0 ND Lvs Cl HR EL EO NW Cov Ewr OL].
  exists v0, (v_R d v0).
  split; [exact Ho|]. split; [exact Hx|]. split; [exact (Lvs _ I0)|]. split; [exact (f_site HI _ (Lvs _ I0))|].
  intros p' d'' H. destruct H as [vs' L' wr' Ho' Hx' I0' ND' Lvs' Cl' HR' EL' EO' NW' Cov' Ewr' OL'].
  assert (S1 : forall v, In v vs <-> In v vs').
  { intros v. split; intros Hv.
    - destruct (OL v Hv) as [n ->]. apply iter_closed; auto.
    - destruct (OL' v Hv) as [n ->]. apply iter_closed; auto. }
  assert (M : forall v, mem v vs' = mem v vs).
  { intros v. apply eq_true_iff_eq. rewrite !mem_In. symmetry. apply S1. }
  al0. intros _ x Lx. unfold idn.
  change (fold_left (fun f e => upd f (e_v e) (v_R d v0)) L' (fold_left (fun f e => upd f (e_v e) R) L (v_R d)) x = v_R d x).
  destruct (mem x vs) eqn:E.
  - assert (Hx1 := E). apply mem_In in Hx1. destruct (onloop_site d v0 x HI (Lvs _ I0) (OL x Hx1)) as [_ ->].
    assert (Hx2 : In x vs') by now apply S1. rewrite <- EL' in Hx2. apply in_map_iff in Hx2 as [e [<- He]].
    apply (fold_upd_in e_v (fun _ => v_R d v0)); eauto.
  - assert (NI : ~ In x vs) by (rewrite <- mem_In; congruence).
    rewrite (fold_upd_out e_v (fun _ => v_R d v0)).
    + apply (fold_upd_out e_v (fun _ => R)). intros e He Ee. apply NI. rewrite <- EL, <- Ee. now apply in_map.
    + intros e He Ee. apply NI, S1. rewrite <- EL', <- Ee. now apply in_map.
Qed.
End LoopCan.

(** *** the inverse proposal has positive threshold and restores the diagram *)
Section Fin.
Context (c : @cfg NumR) (C : cfg_ok c) (PS : positive c).
Notation D := (@diagram NumR).

Definition back (d d'' : D) : Prop := exists fv fg fw, alike fv fg fw d d''.
Record good (d : D) : Prop := { gd_I : Inv c d; gd_L : LoopSign d; gd_W : WInv c d; gd_1 : worm1 d }.

Lemma lbij_avail b b' f : BInv b -> BInv b' -> lbij b b' f -> avail b' = avail b.
Proof.
  intros B B' H. pose proof (Permutation.Permutation_length (lbij_perm b b' f B B' H)) as E.
  rewrite map_length, !liveL_length in E. exact E.
Qed.
Lemma same_density fv fg fw d d' op : Inv c d -> Inv c d' -> alike0 fv fg fw d d' -> density c op d' = density c op d.
Proof.
  intros HI HI' A. unfold density, draws, nG, nW, nV.
  rewrite (lbij_avail _ _ _ (i_bg _ _ HI) (i_bg _ _ HI') (a0_g _ _ _ _ _ A)),
    (lbij_avail _ _ _ (i_bw _ _ HI) (i_bw _ _ HI') (a0_w _ _ _ _ _ A)),
    (lbij_avail _ _ _ (i_bv _ _ HI) (i_bv _ _ HI') (a0_v _ _ _ _ _ A)). reflexivity.
Qed.
Lemma same_target fv fg fw d d' : Inv c d -> Inv c d' -> alike0 fv fg fw d d' -> dweight d' = dweight d -> target c d' = target c d.
Proof.
  intros HI HI' A E. unfold target, labels.
  rewrite (lbij_avail _ _ _ (i_bw _ _ HI) (i_bw _ _ HI') (a0_w _ _ _ _ _ A)), E,
    (a0_order _ _ _ _ _ A), (a0_ex _ _ _ _ _ A), (a0_mG _ _ _ _ _ A), (a0_gamma _ _ _ _ _ A). reflexivity.
Qed.
Lemma pos_accepts (p : @real NumR) : (0 < (p : R))%R -> accepts p.
Proof.
  intros Hp. right. exists (2^31). split; [lia|]. rewrite urn0. change (@rltb NumR) with Rltb. unfold Rltb.
  destruct (Rlt_dec 0 p) as [|X]; [reflexivity|]. destruct (X Hp).
Qed.
Lemma good_prop d op p d' r : good d -> prop_rel c d op p d' r -> accepts p -> good d'.
Proof.
  intros [HI LS HW W1] P A. constructor.
  - exact (proj1 (prop_pres c d op p d' r C HI P)).
  - exact (proj1 (prop_sign c d op p d' r sign_lawR C HI P LS)).
  - exact (proj2 (prop_w2 c C d op p d' r HI LS HW P) A).
  - exact (proj1 (worm1_prop c d op p d' r P W1)).
Qed.

Lemma undo_fin d op p d' r op' p' d'' r' fv fg fw : good d -> prop_rel c d op p d' r -> accepts p ->
  prop_rel c d' op' p' d'' r' -> inverse op' = op -> alike0 fv fg fw d d'' -> (0 < (p' : R))%R /\ back d d''.
Proof.
  intros G P A P' IV AL. pose proof (good_prop d op p d' r G P A) as G'. destruct G as [HI LS HW W1], G' as [HI' LS' HW' W1'].
  pose proof (proj1 (prop_pres c _ _ _ _ _ C HI' P')) as HI2.
  destruct (prop_w2 c C _ _ _ _ _ HI' LS' HW' P') as [DW WA].
  assert (ED : dweight d'' = dweight d) by (apply (alike_dw c fv fg fw); auto; exact (wi_p _ _ HW)).
  pose proof (prop_bal c PS _ _ _ _ _ HI' LS' HW' W1' P') as B. unfold balance in B. rewrite IV in B.
  rewrite (same_density fv fg fw d d'' op HI HI2 AL), (same_target fv fg fw d d'' HI HI2 AL ED) in B.
  pose proof (target_pos c C PS d HI LS HW) as T1. pose proof (density_pos c PS _ _ _ _ _ HI P) as T2.
  pose proof (target_pos c C PS d' HI' LS' HW') as T3. pose proof (density_pos c PS _ _ _ _ _ HI' P') as T4.
  change (@real NumR) with R in *.
  assert (Hp : (0 < p')%R).
  { pose proof (Rmult_lt_0_compat _ _ T1 T2) as X. pose proof (Rmult_lt_0_compat _ _ T3 T4) as Y. rewrite <- B in X.
    clear - X Y. apply Rnot_le_lt. intros Z. 
    assert (p' * (target c d' * density c op' d') <= 0)%R; [|lra].
    replace 0%R with (0 * (target c d' * density c op' d'))%R by ring. apply Rmult_le_compat_r; [lra|exact Z]. }
  split; [exact Hp|]. exists fv, fg, fw. pose proof (WA (pos_accepts p' Hp)) as HW2.
  apply (alike_build c); auto.
  - exact (wi_ph _ _ HW).
  - exact (wi_ph _ _ HW2).
  - exact (proj1 (worm1_prop c _ _ _ _ _ P' W1')).
Qed.

Definition can_op (k : nat) (d : D) (P : D -> Prop) : Prop :=
  exists ws, Forall w32 ws /\ forall E (next : E -> Z * E) (s : @mstate NumR E), md s = d -> emits next (mrng s) ws ->
    wp (nth k (ops next c) (ret tt)) s (fun _ s' => P (md s')).
Lemma can_op_can k (op : forall E, (E -> Z * E) -> M (@mstate NumR E) unit) d d' (P : D -> Prop) : can op d d' ->
  (forall E next, nth k (ops next c) (ret tt) = op E next) -> P d' -> can_op k d P.
Proof.
  intros (ws & H1 & H2) E1 HP. exists ws. split; [exact H1|]. intros E next s Ed Em. rewrite E1.
  eapply wp_mono; [apply H2; eassumption|]. cbv beta. intros _ s' ->. exact HP.
Qed.
Lemma nth_mc k E (next : E -> Z * E) : (k < 19)%nat -> nth k (ops next c) (ret tt) = nth k (mc_ops next c) (ret tt).
Proof. intros H. unfold ops. destruct (c_gamma3 c); [apply app_nth1; exact H|reflexivity]. Qed.

Lemma undo_step d op p d' r : good d -> Mov d -> Ext c d -> DelEq d -> Exact c d -> prop_rel c d op p d' r -> accepts p ->
  exists k, (k < Z.to_nat (nupd c))%nat /\ can_op k d' (back d).
Proof.
  intros G MV EX DE XD P A. exists (Z.to_nat (inverse op)). pose proof (gd_I _ G) as HI. pose proof (good_prop d op p d' r G P A) as G'.
  pose proof (gd_I _ G') as HI'. pose proof P as P0.
  assert (N : (19 <= Z.to_nat (nupd c))%nat) by (unfold nupd; destruct (c_gamma3 c); cbn; lia).
  assert (N3 : c_gamma3 c = true -> (23 <= Z.to_nat (nupd c))%nat) by (unfold nupd; intros ->; cbn; lia).
  destruct P as [? ? ? H|? ? ? H|? ? ? H|? ? ? H|? ? ? H|? ? ? H|? ? ? H|? ? ? H|? ? ? H|? ? ? H|? ? ? H|? ? ? H|? ? ? H|? ? ? H|? ? ? H|? ? ? H|? ? ? H|? ? ? G3 H|? ? ? G3 H|? ? ? G3 H|? ? ? G3 H].
  all: split; [try apply N3 in G3; match goal with |- (Z.to_nat ?x < _)%nat => let m := eval vm_compute in (Z.to_nat x) in change (Z.to_nat x) with m end; lia|].
  all: match goal with |- can_op ?x _ _ => let m := eval vm_compute in x in change x with m end.
  - destruct (create_undo c C d _ _ _ HI H) as (p' & d'' & H' & AL). destruct (undo_fin _ _ _ _ _ _ _ _ _ _ _ _ G P0 A (pr_delete c _ _ _ _ H') eq_refl AL) as [Hp B].
    eapply can_op_can; [exact (delete_can c C _ _ _ _ HI' H' Hp)|intros E next; rewrite nth_mc by lia; reflexivity|exact B].
  - destruct (delete_undo c C d _ _ _ HI MV H) as (p' & d'' & H' & AL). destruct (undo_fin _ _ _ _ _ _ _ _ _ _ _ _ G P0 A (pr_create c _ _ _ _ H') eq_refl AL) as [Hp B].
    eapply can_op_can; [exact (create_can c C _ _ _ _ HI' H' Hp)|intros E next; rewrite nth_mc by lia; reflexivity|exact B].
  - destruct (moveG_undo c C d _ _ _ HI H) as (p' & d'' & H' & AL). destruct (undo_fin _ _ _ _ _ _ _ _ _ _ _ _ G P0 A (pr_moveG c _ _ _ _ H') eq_refl AL) as [Hp B].
    eapply can_op_can; [exact (moveG_can c C _ _ _ _ HI' H' Hp)|intros E next; rewrite nth_mc by lia; reflexivity|exact B].
  - destruct (moveW_undo c C d _ _ _ HI H) as (p' & d'' & H' & AL). destruct (undo_fin _ _ _ _ _ _ _ _ _ _ _ _ G P0 A (pr_moveW c _ _ _ _ H') eq_refl AL) as [Hp B].
    eapply can_op_can; [exact (moveW_can c C _ _ _ _ HI' H' Hp)|intros E next; rewrite nth_mc by lia; reflexivity|exact B].
  - destruct (reconnect_undo c C d _ _ _ HI H) as (p' & d'' & H' & AL). destruct (undo_fin _ _ _ _ _ _ _ _ _ _ _ _ G P0 A (pr_reconnect c _ _ _ _ H') eq_refl AL) as [Hp B].
    eapply can_op_can; [exact (reconnect_can c C _ _ _ _ HI' H' Hp)|intros E next; rewrite nth_mc by lia; reflexivity|exact B].
  - destruct (add_undo c C false d _ _ _ HI H) as (p' & d'' & H' & AL). destruct (undo_fin _ _ _ _ _ _ _ _ _ _ _ _ G P0 A (pr_del c _ _ _ _ H') eq_refl AL) as [Hp B].
    eapply can_op_can; [exact (del_can c C false _ _ _ _ HI' H' Hp)|intros E next; rewrite nth_mc by lia; reflexivity|exact B].
  - destruct (del_undo c C false d _ _ _ HI DE XD H) as (p' & d'' & fv & fg & fw & H' & AL). destruct (undo_fin _ _ _ _ _ _ _ _ _ _ _ _ G P0 A (pr_add c _ _ _ _ H') eq_refl AL) as [Hp B].
    eapply can_op_can; [exact (add_can c C false _ _ _ _ HI' H' Hp)|intros E next; rewrite nth_mc by lia; reflexivity|exact B].
  - destruct (add_undo c C true d _ _ _ HI H) as (p' & d'' & H' & AL). destruct (undo_fin _ _ _ _ _ _ _ _ _ _ _ _ G P0 A (pr_del_d c _ _ _ _ H') eq_refl AL) as [Hp B].
    eapply can_op_can; [exact (del_can c C true _ _ _ _ HI' H' Hp)|intros E next; rewrite nth_mc by lia; reflexivity|exact B].
  - destruct (del_undo c C true d _ _ _ HI DE XD H) as (p' & d'' & fv & fg & fw & H' & AL). destruct (undo_fin _ _ _ _ _ _ _ _ _ _ _ _ G P0 A (pr_add_d c _ _ _ _ H') eq_refl AL) as [Hp B].
    eapply can_op_can; [exact (add_can c C true _ _ _ _ HI' H' Hp)|intros E next; rewrite nth_mc by lia; reflexivity|exact B].
  - destruct (tau_undo c C d _ _ _ HI XD H) as (p' & d'' & H' & AL). destruct (undo_fin _ _ _ _ _ _ _ _ _ _ _ _ G P0 A (pr_tau c _ _ _ _ H') eq_refl AL) as [Hp B].
    eapply can_op_can; [exact (tau_can c C _ _ _ _ HI' H' Hp)|intros E next; rewrite nth_mc by lia; reflexivity|exact B].
  - destruct (loop_undo c d _ _ _ HI H) as (v0 & R0 & O1 & X1 & L1 & S1 & U1).
    destruct (loop_can c C _ v0 R0 (back d) HI' O1 X1 L1 S1) as (ws & W1 & W2).
    { intros p' d'' LA. exact (undo_fin _ _ _ _ _ _ _ _ _ _ _ _ G P0 A (pr_loop c _ _ _ _ (loop_at_rel c _ _ _ _ _ LA)) eq_refl (U1 _ _ LA)). }
    exists ws. split; [exact W1|]. intros E next s Ed Em. rewrite nth_mc by lia. exact (W2 E next s Ed Em).
  - destruct (g2w_undo c C d _ _ _ HI H) as (p' & d'' & H' & AL). destruct (undo_fin _ _ _ _ _ _ _ _ _ _ _ _ G P0 A (pr_w2g c _ _ _ _ H') eq_refl AL) as [Hp B].
    eapply can_op_can; [exact (w2g_can c C _ _ _ _ HI' H' Hp)|intros E next; rewrite nth_mc by lia; reflexivity|exact B].
  - destruct (w2g_undo c C d _ _ _ HI H) as (p' & d'' & H' & AL). destruct (undo_fin _ _ _ _ _ _ _ _ _ _ _ _ G P0 A (pr_g2w c _ _ _ _ H') eq_refl AL) as [Hp B].
    eapply can_op_can; [exact (g2w_can c C _ _ _ _ HI' H' Hp)|intros E next; rewrite nth_mc by lia; reflexivity|exact B].
  - destruct (delta_undo c C false d _ _ _ HI DE XD H) as (p' & d'' & H' & AL). destruct (undo_fin _ _ _ _ _ _ _ _ _ _ _ _ G P0 A (pr_c2d c _ _ _ _ H') eq_refl AL) as [Hp B].
    eapply can_op_can; [exact (delta_can c C true _ _ _ _ HI' H' Hp)|intros E next; rewrite nth_mc by lia; reflexivity|exact B].
  - destruct (delta_undo c C true d _ _ _ HI DE XD H) as (p' & d'' & H' & AL). destruct (undo_fin _ _ _ _ _ _ _ _ _ _ _ _ G P0 A (pr_d2c c _ _ _ _ H') eq_refl AL) as [Hp B].
    eapply can_op_can; [exact (delta_can c C false _ _ _ _ HI' H' Hp)|intros E next; rewrite nth_mc by lia; reflexivity|exact B].
  - destruct (to0_undo c C d _ _ _ HI XD H) as (p' & d'' & H' & AL). destruct (undo_fin _ _ _ _ _ _ _ _ _ _ _ _ G P0 A (pr_to1 c _ _ _ _ H') eq_refl AL) as [Hp B].
    eapply can_op_can; [exact (to1_can c C _ _ _ _ HI' H' Hp)|intros E next; rewrite nth_mc by lia; reflexivity|exact B].
  - destruct (to1_undo c d _ _ _ HI H) as (p' & d'' & H' & AL). destruct (undo_fin _ _ _ _ _ _ _ _ _ _ _ _ G P0 A (pr_to0 c _ _ _ _ H') eq_refl AL) as [Hp B].
    eapply can_op_can; [exact (to0_can c C _ _ _ _ HI' H' Hp)|intros E next; rewrite nth_mc by lia; reflexivity|exact B].
  - destruct (toGG_undo c C d _ _ _ HI H) as (p' & d'' & H' & AL). destruct (undo_fin _ _ _ _ _ _ _ _ _ _ _ _ G P0 A (pr_fromGG c _ _ _ _ G3 H') eq_refl AL) as [Hp B].
    eapply can_op_can; [exact (fromGG_can c C _ _ _ _ HI' H' Hp)|intros E next; unfold ops; rewrite G3; reflexivity|exact B].
  - destruct (fromGG_undo c C d _ _ _ HI EX G3 H) as (p' & d'' & r' & H' & AL). destruct (undo_fin _ _ _ _ _ _ _ _ _ _ _ _ G P0 A (pr_toGG c _ _ _ _ G3 H') eq_refl AL) as [Hp B].
    eapply can_op_can; [exact (toGG_can c C _ _ _ _ HI' H' Hp)|intros E next; unfold ops; rewrite G3; reflexivity|exact B].
  - destruct (toWW_undo c C d _ _ _ HI H) as (p' & d'' & H' & AL). destruct (undo_fin _ _ _ _ _ _ _ _ _ _ _ _ G P0 A (pr_fromWW c _ _ _ _ G3 H') eq_refl AL) as [Hp B].
    eapply can_op_can; [exact (fromWW_can c C _ _ _ _ HI' H' Hp)|intros E next; unfold ops; rewrite G3; reflexivity|exact B].
  - destruct (fromWW_undo c C d _ _ _ HI EX G3 H) as (p' & d'' & r' & H' & AL). destruct (undo_fin _ _ _ _ _ _ _ _ _ _ _ _ G P0 A (pr_toWW c _ _ _ _ G3 H') eq_refl AL) as [Hp B].
    eapply can_op_can; [exact (toWW_can c C _ _ _ _ HI' H' Hp)|intros E next; unfold ops; rewrite G3; reflexivity|exact B].
Qed.
End Fin.

(** *** one step *)
Lemma word_for k n : 0 <= k < n -> n <= 23 -> exists x, w32 x /\ (IZR k / IZR n <= @urn_of NumR x < IZR (k + 1) / IZR n)%R.
Proof.
  intros Hk Hn. set (y := (k * 2^32 + n - 1) / n).
  assert (Y : k * 2^32 <= y * n < (k + 1) * 2^32).
  { unfold y. pose proof (Z.div_mod (k * 2^32 + n - 1) n ltac:(lia)). pose proof (Z.mod_pos_bound (k * 2^32 + n - 1) n ltac:(lia)). nia. }
  assert (Hy : 0 <= y < 2^32) by nia.
  exists ((y - 2^31) mod 2^32). split; [unfold w32; apply Z.mod_pos_bound; lia|].
  assert (E : s32 ((y - 2^31) mod 2^32) = y - 2^31).
  { unfold s32, u32. change (2^32) with 4294967296 in *. change (2^31) with 2147483648 in *.
    rewrite Z.mod_mod by lia. destruct (Z.ltb_spec y 2147483648).
    - replace ((y - 2147483648) mod 4294967296) with (y + 2147483648) by (apply Z.mod_unique with (-1); lia).
      destruct (Z.ltb_spec (y + 2147483648) 2147483648); lia.
    - rewrite Z.mod_small by lia. destruct (Z.ltb_spec (y - 2147483648) 2147483648); lia. }
  assert (U : @urn_of NumR ((y - 2^31) mod 2^32) = (IZR y / IZR (2^32))%R).
  { unfold urn_of. rewrite E. change ((IZR (y - 2^31) * (1 / IZR (2^32)) + 1 / 2)%R = (IZR y / IZR (2^32))%R).
    rewrite minus_IZR. change (2^31) with 2147483648. change (2^32) with 4294967296. lra. }
  rewrite U. destruct Y as [Y1 Y2]. apply IZR_le in Y1. apply IZR_lt in Y2. rewrite !mult_IZR in Y1, Y2.
  assert (Pn : (0 < IZR n)%R) by (apply (IZR_lt 0); lia). assert (P2 : (0 < IZR (2^32))%R) by (apply (IZR_lt 0); lia).
  split.
  - apply Rmult_le_reg_r with (IZR n * IZR (2^32))%R; [now apply Rmult_lt_0_compat|].
    replace (IZR k / IZR n * (IZR n * IZR (2^32)))%R with (IZR k * IZR (2^32))%R by (field; lra).
    replace (IZR y / IZR (2^32) * (IZR n * IZR (2^32)))%R with (IZR y * IZR n)%R by (field; lra). exact Y1.
  - apply Rmult_lt_reg_r with (IZR n * IZR (2^32))%R; [now apply Rmult_lt_0_compat|].
    replace (IZR (k + 1) / IZR n * (IZR n * IZR (2^32)))%R with (IZR (k + 1) * IZR (2^32))%R by (field; lra).
    replace (IZR y / IZR (2^32) * (IZR n * IZR (2^32)))%R with (IZR y * IZR n)%R by (field; lra). exact Y2.
Qed.

Lemma can_hop (c : @cfg NumR) k d (P : @diagram NumR -> Prop) : (k < Z.to_nat (nupd c))%nat -> can_op c k d P ->
  exists ws, Forall w32 ws /\ forall E (next : E -> Z * E) (t : @mstate NumR E), md t = d -> emits next (mrng t) ws ->
    exists t', Hop next c 1 t = Ok (tt, t') /\ P (md t').
Proof.
  intros Hk (ws & W1 & W2).
  assert (Hn : nupd c <= 23) by (unfold nupd, NUpdates, MCUpdates; destruct (c_gamma3 c); lia).
  destruct (word_for (Z.of_nat k) (nupd c)) as (x & Hx & Ux); [clear - Hk; lia|exact Hn|].
  exists (x :: ws). split; [now apply Forall_cons|]. intros E next t Ed [Em1 Em2].
  rewrite (choice_R next c t k).
  - specialize (W2 E next (after_draw next t) Ed Em2). apply wp_ok in W2 as ([] & t2 & E2 & W2).
    unfold then_count. rewrite E2. unfold count_step. eexists. split; [reflexivity|]. exact W2.
  - rewrite ops_length. exact Hk.
  - unfold first_draw. rewrite Em1. exact Ux.
Qed.
Lemma nop_op (c : @cfg NumR) d (P : @diagram NumR -> Prop) : P d -> can_op c 10 d P.
Proof. intros H. exists []. split; [constructor|]. intros E next s Ed _. rewrite nth_mc by lia. apply wp_ret. now rewrite Ed. Qed.

Section Rev.
Context {E : Type} (next : E -> Z * E).
Lemma good_history (c c' : @cfg NumR) (s : @mstate NumR E) : cfg_ok c -> new_ok (c_lat c) -> regular_history next c s -> retuned c c' ->
  cfg_ok c' /\ good c' (md s) /\ Mov (md s) /\ Ext c' (md s) /\ Exact c' (md s).
Proof.
  intros C LK H RT. destruct (regular_w next c s C LK H) as (Hh & HW).
  pose proof (history_inv next c s C LK Hh) as HI. apply (retuned_Inv c c' _ RT) in HI. pose proof (retuned_ok c c' C RT) as C'.
  pose proof (history_sign next c s sign_lawR C LK Hh) as LS. pose proof (worm1_history next c s C LK Hh) as W1.
  destruct (reach_history next c s C LK Hh) as (MV & EX & DW).
  destruct RT as (ET & ES & EB & _).
  split; [exact C'|]. split.
  - constructor; auto. destruct HW as [H1 H2 H3 H4 H5]; constructor; rewrite ?ET; auto.
  - split; [exact MV|]. split; [intros X; destruct (EX X) as [X1 X2]; unfold tau_draw in *; rewrite ES, EB; auto|].
    intros v Lv. apply tau_zero. destruct (DW v Lv) as [X|X]; [left; exact X|right]. unfold tau_draw in *. now rewrite EB.
Qed.

Lemma step_back (c c' : @cfg NumR) (s s' : @mstate NumR E) : cfg_ok c -> new_ok (c_lat c) -> regular_history next c s -> retuned c c' -> positive c' ->
  DelEq (md s) -> Hop next c' 1 s = Ok (tt, s') ->
  exists ws, Forall w32 ws /\ forall E' (next' : E' -> Z * E') (t : @mstate NumR E'), md t = md s' -> emits next' (mrng t) ws ->
    exists t', Hop next' c' 1 t = Ok (tt, t') /\ back (md s) (md t').
Proof.
  intros C LK H RT PS DE Q. destruct (good_history c c' s C LK H RT) as (C' & G & MV & EX & XD).
  pose proof (gd_I _ _ G) as HI.
  pose proof (hop1_step next c' s C' HI) as W. apply wp_ok in W as ([] & s2 & E2 & W). apply Hop1 in Q. rewrite Q in E2. injection E2 as <-.
  assert (N : (10 < Z.to_nat (nupd c'))%nat) by (unfold nupd; destruct (c_gamma3 c'); cbn; lia).
  assert (Self : forall x, gamma (md s) = 0 -> Inv c' (s_uext (md s) x) -> back (md s) (s_uext (md s) x)).
  { intros x Ga HIx. exists idn, idn, idn. apply (alike_build c'); auto; try apply G; try reflexivity; al0. intros X. destruct (X Ga). }
  assert (Selfd : back (md s) (md s)).
  { exists idn, idn, idn. apply (alike_build c'); auto; try apply G; try reflexivity; al0. }
  destruct W as (_ & [(W & _)|(op & p & d' & r & s1 & P & _ & _ & Em & e & b & D1 & D2 & _)]).
  - rewrite W. apply (can_hop c' 10); auto. apply nop_op. exact Selfd.
  - cbn [md s_mcount] in D2. rewrite D2. destruct b.
    + destruct (undo_step c' C' PS (md s) op p d' r G MV EX DE XD P) as (k & Hk & Ck).
      { destruct (rleb (rofZ 1) p) eqn:L1; [now left|right]. destruct D1 as [D1 _].
        exists (u32 (fst (next e))). split; [unfold u32; apply Z.mod_pos_bound; lia|]. symmetry. exact D1. }
      apply (can_hop c' k); auto.
    + apply (can_hop c' 10); auto. apply nop_op.
      destruct (rej_same c' _ _ _ _ _ P) as [->|(Ga & x & ->)]; [exact Selfd|].
      apply Self; auto. exact (proj2 (prop_pres c' _ _ _ _ _ C' HI P)).
Qed.
End Rev.

(** *** a delta line with unequal end times cannot be made again *)
Section NoDelta.
Context {N : Num} {E : Type} (next : E -> Z * E).
Definition NoDelta (d : @diagram N) : Prop := forall w, live (wB d) w -> w_delta d w = false.
Lemma NoDelta_DelEq d : NoDelta d -> DelEq d.
Proof. intros H w Lw Hw. rewrite (H w Lw) in Hw. discriminate Hw. Qed.
Lemma no_delta_prop c d op p d' r : Inv c d -> NoDelta d -> prop_rel c d op p d' r -> order d' <> order d \/ DelEq d'.
Proof.
  intros HI ND P.
  destruct P as [? ? ? H|? ? ? H|? ? ? H|? ? ? H|? ? ? H|? ? ? H|? ? ? H|? ? ? H|? ? ? H|? ? ? H|? ? ? H|? ? ? H|? ? ? H|? ? ? H|? ? ? H|? ? ? H|? ? ? H|? ? ? G3 H|? ? ? G3 H|? ? ? G3 H|? ? ? G3 H]; destruct H.
  all: try (right; apply NoDelta_DelEq; exact ND).
  all: try (left; change (order d + 1 <> order d); clear; lia).
  all: try (left; change (order d - 1 <> order d); clear; lia).
  - right. apply NoDelta_DelEq. intros x Lx. change (upd (w_delta d) w false x = false). rewrite upd_eq. destruct (Nat.eq_dec x w); auto.
  - right. intros x Lx. change (upd (w_delta d) w true x = true -> upd (v_T d) vo t (w_ver d x OUT) = upd (v_T d) vo t (w_ver d x IN)).
    rewrite upd_eq. destruct (Nat.eq_dec x w) as [->|Nx]; [intros _|intros X; rewrite (ND x Lx) in X; discriminate X].
    assert (Nio : w_ver d w IN <> vo). { pose proof (f_wvd HI w IN ltac:(assumption)). pose proof (f_wvd HI w OUT ltac:(assumption)). congruence. }
    subst vi vo. rewrite upd_same, (upd_other _ _ _ _ Nio). auto.
Qed.
Lemma no_delta_step c (s s' : @mstate N E) : cfg_ok c -> Inv c (md s) -> NoDelta (md s) -> Hop next c 1 s = Ok (tt, s') ->
  order (md s') <> order (md s) \/ DelEq (md s').
Proof.
  intros C HI ND Q. pose proof (hop1_step next c s C HI) as W. apply wp_ok in W as ([] & s2 & E2 & W). apply Hop1 in Q. rewrite Q in E2. injection E2 as <-.
  destruct W as (_ & [(W & _)|(op & p & d' & r & s1 & P & _ & _ & Em & e & b & D1 & D2 & _)]).
  - right. rewrite W. now apply NoDelta_DelEq.
  - cbn [md s_mcount] in D2. rewrite D2. destruct b; [exact (no_delta_prop c _ _ _ _ _ HI ND P)|].
    right. destruct (rej_same c _ _ _ _ _ P) as [->|(_ & x & ->)]; apply NoDelta_DelEq; exact ND.
Qed.
Lemma alike_DelEq fv fg fw (d d' : @diagram N) : order d <> 0 -> alike fv fg fw d d' -> DelEq d' ->
  (forall w e, bexist (wB d) w = true -> bexist (vB d) (w_ver d w e) = true) -> DelEq d.
Proof.
  intros O A DE HV w Lw Hd. apply live_exist in Lw. destruct A.
  rewrite <- !(al_T O) by (now apply HV). rewrite <- !al_wv by exact Lw. apply DE.
  - destruct al_w as (B1 & _). apply live_exist. now apply B1.
  - now rewrite al_wd.
Qed.
End NoDelta.

Lemma step_back_b {E} (next : E -> Z * E) (c c' : @cfg NumR) (s s' : @mstate NumR E) :
  cfg_ok c -> new_ok (c_lat c) -> regular_history next c s -> retuned c c' -> positive c' ->
  (forall w, bexist (wB (md s)) w = true -> w_delta (md s) w = true ->
     v_T (md s) (w_ver (md s) w IN) = v_T (md s) (w_ver (md s) w OUT)) ->
  Hop next c' 1 s = Ok (tt, s') ->
  exists ws, Forall (fun x => 0 <= x < 2^32) ws /\
    forall (E' : Type) (next' : E' -> Z * E') (t : @mstate NumR E'), md t = md s' -> emits next' (mrng t) ws ->
    exists t', Hop next' c' 1 t = Ok (tt, t') /\ exists fv fg fw, alike fv fg fw (md s) (md t').
Proof.
  intros C LK H RT PS DE Q. apply (step_back next c c' s s' C LK H RT PS); [|exact Q].
  intros w Lw Ew. symmetry. apply DE; [now apply live_exist|exact Ew].
Qed.
