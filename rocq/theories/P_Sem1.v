(** Every update, started in a state satisfying the invariant, terminates normally and
    performs its transition relation (worm and measurement updates) *)
From Coq Require Import ZArith List Bool Arith Lia ZifyBool.
From Verif Require Import Base Num RNG Momentum Complex Lattice Bundle IndexMap Weights Diagram Markov
  P_Momentum P_RNG P_Bundle P_Lattice P_IndexMap P_WP P_Inv P_Rel.
Import ListNotations.
Open Scope Z_scope.

Lemma lv_lt b p : live b p -> (p < 20)%nat.
Proof. intros [H _]. exact H. Qed.

Section Facts.
Context {N : Num} {c : cfg} {d : diagram} (HI : Inv c d).
Lemma f_gv g e : live (gB d) g -> live (vB d) (g_ver d g e).
Proof. intros H. apply (proj1 (i_tG _ _ HI)); auto. Qed.
Lemma f_gvg g e : live (gB d) g -> v_G d (g_ver d g e) (inv e) = g.
Proof. intros H. apply (proj1 (i_tG _ _ HI)); auto. Qed.
Lemma f_vg v e : live (vB d) v -> live (gB d) (v_G d v e).
Proof. intros H. apply (proj2 (i_tG _ _ HI)); auto. Qed.
Lemma f_vgv v e : live (vB d) v -> g_ver d (v_G d v e) (inv e) = v.
Proof. intros H. apply (proj2 (i_tG _ _ HI)); auto. Qed.
Lemma f_wv w e : live (wB d) w -> live (vB d) (w_ver d w e).
Proof. intros H. apply (proj1 (i_tW _ _ HI)); auto. Qed.
Lemma f_wvw w e : live (wB d) w -> v_W d (w_ver d w e) = w.
Proof. intros H. apply (proj1 (i_tW _ _ HI) w e); auto. Qed.
Lemma f_wvd w e : live (wB d) w -> v_D d (w_ver d w e) = e.
Proof. intros H. apply (proj1 (i_tW _ _ HI) w e); auto. Qed.
Lemma f_vw v : live (vB d) v -> live (wB d) (v_W d v).
Proof. intros H. apply (proj2 (i_tW _ _ HI)); auto. Qed.
Lemma f_vwv v : live (vB d) v -> w_ver d (v_W d v) (v_D d v) = v.
Proof. intros H. apply (proj2 (i_tW _ _ HI)); auto. Qed.
Lemma f_Kg g : live (gB d) g -> inrange (g_K d g).
Proof. intros H. apply kindex_range. apply (proj1 (i_hG _ _ HI) g H). Qed.
Lemma f_Kw w : live (wB d) w -> inrange (w_K d w).
Proof. intros H. pose proof (proj1 (i_hW _ _ HI) w H). unfold inrange, kabs in *. lia. Qed.
Lemma f_hg g : live (gB d) g -> ghash d (kindex (g_K d g)) = true.
Proof. intros H. apply (HT_taken _ _ _ _ g (i_hG _ _ HI) H). Qed.
Lemma f_hw w : live (wB d) w -> whash d (kabs (w_K d w)) = true.
Proof. intros H. apply (HT_taken _ _ _ _ w (i_hW _ _ HI) H). Qed.
Lemma f_gg g : live (gB d) g -> g_gg d g = true -> c_gamma3 c = true.
Proof.
  intros H E. destruct (i_gam _ _ HI) as [(_ & A & _)|[(_ & _ & A & _)|(_ & _ & A & _)]]; auto.
  rewrite A in E by auto. discriminate.
Qed.
Lemma f_ww w : live (wB d) w -> w_ww d w = true -> c_gamma3 c = true.
Proof.
  intros H E. destruct (i_gam _ _ HI) as [(_ & _ & A)|[(_ & _ & A & _)|(_ & _ & A & _)]]; auto.
  rewrite A in E by auto. discriminate.
Qed.
Lemma f_gg0 g : live (gB d) g -> gamma d = 0 -> g_gg d g = false.
Proof.
  intros H E. destruct (i_gam _ _ HI) as [(_ & A & _)|[(A & _)|(A & _)]]; try lia. auto.
Qed.
Lemma f_ww0 w : live (wB d) w -> gamma d = 0 -> w_ww d w = false.
Proof.
  intros H E. destruct (i_gam _ _ HI) as [(_ & _ & A)|[(A & _)|(A & _)]]; try lia. auto.
Qed.
Lemma f_avw : (0 < avail (wB d))%nat.
Proof. destruct (i_cnt _ _ HI) as (_ & A & B & C & _). lia. Qed.
Lemma f_avg : (0 < avail (gB d))%nat.
Proof. destruct (i_cnt _ _ HI) as (_ & A & B & C & _). lia. Qed.
Lemma f_avv : (0 < avail (vB d))%nat.
Proof. destruct (i_cnt _ _ HI) as (_ & A & B & C & _). lia. Qed.
Lemma f_order : cfg_ok c -> 0 <= order d <= 9.
Proof. intros C. destruct (co_order c C). destruct (i_cnt _ _ HI) as (A & _ & _ & B & D). destruct A as [A|[A A']]; lia. Qed.
Lemma f_wo (H : wm_ex d = true) : live (vB d) (ira d) /\ live (vB d) (masha d) /\ ira d <> masha d /\
  v_D d (masha d) = OUT /\ order d <> 0 /\ (wm_ds d = 1 \/ wm_ds d = -1) /\ inrange (wm_K d) /\
  (forall w, live (wB d) w -> (w_worm d w = true <-> v_W d (ira d) = w \/ v_W d (masha d) = w)).
Proof. pose proof (i_worm _ _ HI) as W. unfold Worm in W. rewrite H in W. exact W. Qed.
Lemma f_li : wm_ex d = true -> live (vB d) (ira d).
Proof. intros H. apply (f_wo H). Qed.
Lemma f_lm : wm_ex d = true -> live (vB d) (masha d).
Proof. intros H. apply (f_wo H). Qed.
Lemma f_nworm w : wm_ex d = false -> live (wB d) w -> w_worm d w = false.
Proof. intros H. pose proof (i_worm _ _ HI) as W. unfold Worm in W. rewrite H in W. auto. Qed.
Lemma f_site v : live (vB d) v -> site_ok (c_lat c) (v_R d v).
Proof. apply (i_site _ _ HI). Qed.
Lemma f_tau v : live (vB d) v -> tau_gen c (v_T d v).
Proof. apply (i_tau _ _ HI). Qed.
Lemma f_delta w : live (wB d) w -> w_meas d w && w_delta d w = false.
Proof. apply (i_delta _ _ HI). Qed.

(** a vertex that is not a worm end has two different G lines *)
Lemma f_notad v : live (vB d) v -> (wm_ex d = true -> v <> ira d /\ v <> masha d) -> v_G d v IN <> v_G d v OUT.
Proof.
  intros Hv Hw E. pose proof (i_K _ _ HI v Hv) as K. rewrite E in K.
  assert (Ht : wterm (wm_ex d) (ira d) (masha d) (wm_K d) v = 0).
  { unfold wterm. destruct (wm_ex d); auto. destruct (Hw eq_refl) as [A B].
    apply Nat.eqb_neq in A, B. now rewrite A, B. }
  rewrite Ht in K. pose proof (f_Kw _ (f_vw _ Hv)) as R. pose proof (i_hW0 _ _ HI _ (f_vw _ Hv)) as Z.
  apply Z. apply eqm_inrange; [exact R|unfold inrange, MAX_K; lia|].
  destruct K as [q K]. exists ((- SIGN (v_D d v)) * q).
  destruct (v_D d v); cbn [SIGN] in *; lia.
Qed.
(** the two ends of an interaction line differ *)
Lemma f_wends w : live (wB d) w -> w_ver d w IN <> w_ver d w OUT.
Proof. intros H E. pose proof (f_wvd w IN H). pose proof (f_wvd w OUT H). rewrite E in *. congruence. Qed.
Lemma f_other v : live (vB d) v -> w_ver d (v_W d v) (inv (v_D d v)) <> v.
Proof.
  intros H E. pose proof (f_vwv v H) as A. pose proof (f_wvd (v_W d v) (inv (v_D d v)) (f_vw v H)) as B.
  rewrite E in B. destruct (v_D d v); discriminate.
Qed.
Lemma f_vg_inj v v' e : live (vB d) v -> live (vB d) v' -> v_G d v e = v_G d v' e -> v = v'.
Proof. intros A B E. rewrite <- (f_vgv v e A), <- (f_vgv v' e B). congruence. Qed.
Lemma f_gv_inj g g' e : live (gB d) g -> live (gB d) g' -> g_ver d g e = g_ver d g' e -> g = g'.
Proof. intros A B E. rewrite <- (f_gvg g e A), <- (f_gvg g' e B). congruence. Qed.
End Facts.

Global Hint Resolve lv_lt f_gv f_vg f_wv f_vw f_Kg f_Kw f_hg f_hw f_li f_lm f_site f_tau f_delta : inv.
Global Hint Extern 1 (0 < avail _)%nat => first [eapply f_avw; eassumption | eapply f_avg; eassumption | eapply f_avv; eassumption] : inv.

Lemma site_eqb_true a b : site_eqb a b = true -> a = b.
Proof.
  unfold site_eqb. destruct a as [s l], b as [s' l']. cbn [sub coord].
  rewrite andb_true_iff. intros [H1 H2]. f_equal; [lia|].
  revert l' H2. unfold vec_eqb. induction l as [|x l IH]; intros [|y l'] H; try discriminate; auto.
  apply andb_true_iff in H as [A B]. f_equal; [lia|]. apply IH, B.
Qed.

(** *** tactics *)
Ltac sfin := match goal with S : sil ?s0 ?s |- sil ?s0 ?s => exact S | |- sil ?s ?s => apply sil_refl end.
Ltac silent := apply wp_ret; left; sfin.
Ltac draw Sil0 x Hx :=
  let s' := fresh "st" in let S' := fresh "Sil'" in
  intros x s' Hx S'; apply (sil_trans _ _ _ Sil0) in S'; clear Sil0; rename S' into Sil0; cbv beta.
Ltac draw0 Sil0 x :=
  let s' := fresh "st" in let S' := fresh "Sil'" in
  intros x s' S'; apply (sil_trans _ _ _ Sil0) in S'; clear Sil0; rename S' into Sil0; cbv beta.
Ltac wrd := apply wp_bind, wp_rd; [solve [eauto 8 with inv]|]; cbv beta.
Ltac wlift H := eapply wp_bind, wp_lift; [exact H|]; cbv beta.
Ltac wgspin := unfold gspin; apply wp_bind, wp_bind; apply wp_rd; [solve [eauto 8 with inv]|]; apply wp_ret; cbv beta.
Lemma wp_if {S A} (b : bool) (x y : M S A) (s : S) Q :
  (b = true -> wp x s Q) -> (b = false -> wp y s Q) -> wp (if b then x else y) s Q.
Proof. destruct b; auto. Qed.
Ltac wguard E := apply wp_if; intros E; [silent|].
Ltac wwt y H tac := match goal with |- wp (bind (lift ?x) _) _ _ =>
    assert (H : exists y, x = Ok y) by tac; destruct H as [y H]; wlift H end.
Ltac wg3 := lazymatch goal with
  | |- false = true -> _ => discriminate
  | |- g_gg _ ?g = true -> _ => eapply (f_gg ltac:(eassumption) g); solve [eauto 8 with inv]
  | |- w_ww _ ?g = true -> _ => eapply (f_ww ltac:(eassumption) g); solve [eauto 8 with inv]
  | |- true = true -> _ => intros _; solve [auto]
  | |- cfg_ok _ => assumption
  | |- _ && _ = false => solve [eauto 8 with inv]
  | |- site_ok _ _ => solve [eauto 8 with inv]
  | |- tau_gen _ _ => solve [eauto 8 using draw_gen with inv]
  end.
Ltac wok := lazymatch goal with
  | |- exists _, GWeight _ _ _ _ _ _ _ _ _ _ = _ => apply GWeight_ok
  | |- exists _, WWeight _ _ _ _ _ _ _ _ _ _ _ _ = _ => apply WWeight_ok
  | |- exists _, GWeightDir _ _ _ _ _ _ _ _ _ _ _ = _ => apply GWeightDir_ok
  | |- exists _, WWeightDir _ _ _ _ _ _ _ _ _ _ _ _ _ = _ => apply WWeightDir_ok end; wg3.
Ltac start d Sil0 :=
  apply wp_bind, wp_gets; cbv beta;
  lazymatch goal with |- wp _ ?s _ =>
    assert (Sil0 : sil s s) by apply sil_refl; set (d := md s) in * end.

Section Sem1.
Context {N : Num} {E : Type} (next : E -> Z * E).
Notation mst := (@mstate N E).

Lemma sil_sil' (s s' : mst) : sil s s' -> sil' s s'.
Proof. unfold sil, sil'. tauto. Qed.

(** the tail of an update that does not touch the diagram before deciding *)
Lemma wp_decide1 (R : diagram -> real -> diagram -> diagram -> Prop) op prob write (s0 s : mst) dprop :
  0 <= order (md s0) <= 9 -> sil s0 s -> write (md s0) = Ok dprop -> R (md s0) prob dprop (md s0) ->
  wp (decide next op (order (md s0)) prob write) s (Post next R op s0).
Proof.
  intros Ho S Hw HR. eapply wp_decide with (s0 := s0) (dprop := dprop); [lia|reflexivity|apply sil_sil', S| |].
  - destruct S as [-> _]. exact Hw.
  - intros s' Hd. right. exists prob, dprop, (md s0). split; [exact HR|]. destruct S as [E1 _]. rewrite E1 in Hd. exact Hd.
Qed.

Lemma create_write_ok (w vi vo : nat) (ds kM kW : Z) (wW : cplx) (d : diagram) :
  inrange (w_K d w) -> inrange kW -> whash d (kabs (w_K d w)) = true -> whash d (kabs kW) = false ->
  create_write w vi vo ds kM kW wW (cdiv wW (w_W d w)) (phase (cdiv wW (w_W d w))) WormWeight d
  = Ok (create_post w vi vo ds kM kW wW d).
Proof.
  destruct d. unfold create_write, create_post, mulR. intros H1 H2 H3 H4.
  dred_in H1. dred_in H3. dred_in H4. dred.
  rewrite ReplaceWHash_ok by auto. dred. reflexivity.
Qed.

Lemma CreateWorm_sem c (s : mst) : cfg_ok c -> Inv c (md s) ->
  wp (CreateWorm next c) s (Post next (create_rel c) CREATE_WORM s).
Proof.
  intros C HI. unfold CreateWorm. cbv zeta. start d Sil0.
  wguard E0. apply orb_false_iff in E0 as [E0 E1]. unfold is0 in E0. apply Z.eqb_neq in E0.
  apply wp_bind, wp_pick; [apply (i_bw _ _ HI)|eauto with inv|]. draw Sil0 w Lw.
  wrd. wrd. apply wp_bind, wp_PickK. draw Sil0 kM HkM.
  destruct (ksub_spec (w_K d w) kM) as [Rk _]; eauto with inv.
  wlift (WHashCheck_ok d _ Rk). wguard E2.
  destruct (Z.eqb_spec (ksub (w_K d w) kM) 0) as [|E2']; [discriminate|].
  apply wp_bind, wp_PickDSpin. draw Sil0 ds Hds. wguard E3.
  wwt wW HW ltac:(wok).
  unfold d. eapply wp_decide1; [eapply f_order; eauto|exact Sil0| |].
  - apply create_write_ok; eauto with inv.
  - econstructor; eauto.
Qed.

Lemma delete_write_ok (w : nat) (k : Z) (wW : cplx) (d : diagram) :
  inrange (w_K d w) -> inrange k -> whash d (kabs (w_K d w)) = true -> whash d (kabs k) = false ->
  delete_write w k wW (cdiv wW (w_W d w)) (phase (cdiv wW (w_W d w))) d = Ok (delete_post w k wW d).
Proof.
  destruct d. unfold delete_write, delete_post, mulR. intros H1 H2 H3 H4.
  dred_in H1. dred_in H3. dred_in H4. dred.
  rewrite ReplaceWHash_ok by auto. dred. reflexivity.
Qed.

Lemma sign_range e : -3 <= SIGN e <= 3.
Proof. destruct e; simpl; lia. Qed.
Lemma sign2_range e e' : -3 <= SIGN e * SIGN e' <= 3.
Proof. destruct e, e'; simpl; lia. Qed.
Lemma kadds_range a e k : inrange a -> inrange k -> inrange (kadd a (kscale (SIGN e) k)).
Proof. intros A B. apply kadd_spec; auto. apply kscale_spec; auto. apply sign_range. Qed.
Lemma ksubs_range a e k : inrange a -> inrange k -> inrange (ksub a (kscale (SIGN e) k)).
Proof. intros A B. apply ksub_spec; auto. apply kscale_spec; auto. apply sign_range. Qed.
Lemma kadds2_range a e e' k : inrange a -> inrange k -> inrange (kadd a (kscale (SIGN e * SIGN e') k)).
Proof. intros A B. apply kadd_spec; auto. apply kscale_spec; auto. apply sign2_range. Qed.
Lemma ksubs2_range a e e' k : inrange a -> inrange k -> inrange (ksub a (kscale (SIGN e * SIGN e') k)).
Proof. intros A B. apply ksub_spec; auto. apply kscale_spec; auto. apply sign2_range. Qed.

Lemma DeleteWorm_sem c (s : mst) : cfg_ok c -> Inv c (md s) ->
  wp (DeleteWorm next c) s (Post next (delete_rel c) DELETE_WORM s).
Proof.
  intros C HI. unfold DeleteWorm. cbv zeta. start d Sil0.
  wguard E0. apply orb_false_iff in E0 as [E0 E1]. apply Z.eqb_neq in E0. apply negb_false_iff in E1.
  destruct (f_wo HI E1) as (Li & Lm & Him & Dm & _ & Hds & HK & HW).
  wrd. wrd. wrd. wguard E2. apply negb_false_iff, Nat.eqb_eq in E2.
  assert (Rk := kadds_range (w_K d (v_W d (ira d))) (v_D d (ira d)) (wm_K d) ltac:(eauto with inv) HK).
  wlift (WHashCheck_ok d _ Rk). wguard E3.
  match goal with _ : (if ?k =? 0 then _ else _) = _ |- _ => destruct (Z.eqb_spec k 0) as [|Ek]; [discriminate|] end.
  wwt wW HWt ltac:(wok).
  unfold d. eapply wp_decide1; [eapply f_order; eauto|exact Sil0| |].
  - apply delete_write_ok; eauto with inv.
  - econstructor; eauto.
Qed.

Lemma moveG_write_ok (v1 v2 g w1 w2 : nat) (k : Z) (iw1 : bool) (s1 s2 : dir -> spin)
  (gW w1W w2W : cplx) (d : diagram) :
  inrange (g_K d g) -> inrange k -> ghash d (kindex (g_K d g)) = true -> ghash d (kindex k) = false ->
  let wr := cdiv (cmul (cmul w1W w2W) gW) (cmul (cmul (g_W d g) (w_W d w1)) (w_W d w2)) in
  moveG_write v1 v2 g w1 w2 k iw1 s1 s2 gW w1W w2W wr (phase wr) WormWeight d
  = Ok (moveG_post v1 v2 g w1 w2 k iw1 s1 s2 gW w1W w2W d).
Proof.
  destruct d. cbv zeta. unfold moveG_write, moveG_post, mulR. intros H1 H2 H3 H4.
  dred_in H1. dred_in H3. dred_in H4. dred.
  rewrite ReplaceGHash_ok by auto. dred. reflexivity.
Qed.

Lemma MoveWormOnG_sem c (s : mst) : cfg_ok c -> Inv c (md s) ->
  wp (MoveWormOnG next c) s (Post next (moveG_rel c) MOVE_WORM_G s).
Proof.
  intros C HI. unfold MoveWormOnG. cbv zeta. start d Sil0.
  wguard E0. apply orb_false_iff in E0 as [E0 E1]. apply Z.eqb_neq in E0. apply negb_false_iff in E1.
  destruct (f_wo HI E1) as (Li & Lm & Him & Dm & _ & Hds & HK & HW).
  wrd. apply wp_bind, wp_PickDir. draw0 Sil0 dr.
  assert (Lg : live (gB d) (v_G d (ira d) dr)) by eauto with inv.
  assert (Lv2 : live (vB d) (g_ver d (v_G d (ira d) dr) dr)) by eauto with inv.
  wrd. wrd. wguard E2. apply orb_false_iff in E2 as [E2 E2']. apply Nat.eqb_neq in E2, E2'.
  wgspin. wguard E3.
  assert (Rk := ksubs_range (g_K d (v_G d (ira d) dr)) dr (wm_K d) ltac:(eauto with inv) HK).
  wlift (GHashCheck_ok d _ Rk). wguard E4.
  wrd. wrd.
  wwt w1W HW1 ltac:(wok).
  wrd. wrd.
  wwt w2W HW2 ltac:(wok).
  wwt gW HWg ltac:(wok).
  wrd.
  unfold d. eapply wp_decide1; [eapply f_order; eauto|exact Sil0| |].
  - apply moveG_write_ok; eauto with inv.
  - eapply moveG_i with (dr := dr); try reflexivity; eauto.
Qed.

Lemma moveW_write_ok (w v2 : nat) (k : Z) (wW : cplx) (d : diagram) :
  inrange (w_K d w) -> inrange k -> whash d (kabs (w_K d w)) = true -> whash d (kabs k) = false ->
  moveW_write w v2 k wW (cdiv wW (w_W d w)) (phase (cdiv wW (w_W d w))) WormWeight d = Ok (moveW_post w v2 k wW d).
Proof.
  destruct d. unfold moveW_write, moveW_post, mulR. intros H1 H2 H3 H4.
  dred_in H1. dred_in H3. dred_in H4. dred.
  rewrite ReplaceWHash_ok by auto. dred. reflexivity.
Qed.

Lemma MoveWormOnW_sem c (s : mst) : cfg_ok c -> Inv c (md s) ->
  wp (MoveWormOnW next c) s (Post next (moveW_rel c) MOVE_WORM_W s).
Proof.
  intros C HI. unfold MoveWormOnW. cbv zeta. start d Sil0.
  wguard E0. apply orb_false_iff in E0 as [E0 E1]. apply Z.eqb_neq in E0. apply negb_false_iff in E1.
  destruct (f_wo HI E1) as (Li & Lm & Him & Dm & _ & Hds & HK & HW).
  wrd. wrd. wrd. wguard E2. apply orb_false_iff in E2 as [E2 E2']. apply Nat.eqb_neq in E2, E2'.
  assert (Rk := kadds_range (w_K d (v_W d (ira d))) (v_D d (ira d)) (wm_K d) ltac:(eauto with inv) HK).
  wlift (WHashCheck_ok d _ Rk). wguard E3.
  match goal with _ : (if ?k =? 0 then _ else _) = _ |- _ => destruct (Z.eqb_spec k 0) as [|Ek]; [discriminate|] end.
  wwt wW HWt ltac:(wok).
  wrd.
  unfold d. eapply wp_decide1; [eapply f_order; eauto|exact Sil0| |].
  - apply moveW_write_ok; eauto with inv.
  - eapply moveW_i; try reflexivity; eauto.
Qed.

Lemma reconnect_write_ok (I Ma : nat) (dr : dir) (GIA GMB : nat) (k : Z) (gi gm : cplx) (d : diagram) :
  let wr := cdiv (cmul (rmul_c (rofZ (-1)) gi) gm) (cmul (g_W d GIA) (g_W d GMB)) in
  reconnect_write I Ma dr GIA GMB k gi gm wr (phase wr) d = Ok (reconnect_post I Ma dr GIA GMB k gi gm d).
Proof. destruct d. unfold reconnect_write, reconnect_post, mulR. dred. reflexivity. Qed.

Lemma Reconnect_sem c (s : mst) : cfg_ok c -> Inv c (md s) ->
  wp (Reconnect next c) s (Post next (reconnect_rel c) RECONNECT s).
Proof.
  intros C HI. unfold Reconnect. cbv zeta. start d Sil0.
  wguard E0. apply orb_false_iff in E0 as [E0 E1]. apply Z.eqb_neq in E0. apply negb_false_iff in E1.
  destruct (f_wo HI E1) as (Li & Lm & Him & Dm & _ & Hds & HK & HW).
  wrd. wrd. wguard E2. apply negb_false_iff, site_eqb_true in E2.
  apply wp_bind, wp_PickDir. draw0 Sil0 dr.
  assert (Lg : live (gB d) (v_G d (ira d) dr)) by eauto with inv.
  assert (Lg' : live (gB d) (v_G d (masha d) dr)) by eauto with inv.
  wrd. wrd. wgspin. wgspin. wguard E3. apply negb_false_iff, spin_eqb_true in E3.
  wrd. wwt gi HWi ltac:(wok).
  wrd. wwt gm HWm ltac:(wok).
  unfold d. eapply wp_decide1; [eapply f_order; eauto|exact Sil0| |].
  - apply reconnect_write_ok.
  - eapply reconnect_i with (dr := dr); try reflexivity; eauto.
Qed.

Lemma tau_write_ok v gi go w t giW goW wW (d : diagram) : gi <> go ->
  let wr := cdiv (cmul (cmul giW goW) wW) (cmul (cmul (g_W d gi) (g_W d go)) (w_W d w)) in
  tau_write v gi go w t giW goW wW wr (phase wr) d = Ok (tau_post v gi go w t giW goW wW d).
Proof.
  intros H. destruct d. unfold tau_write, tau_post, mulR.
  assert (Hn : Nat.eqb go gi = false) by (apply Nat.eqb_neq; auto). rewrite Hn. dred. reflexivity.
Qed.
Lemma ChangeTau_sem c (s : mst) : cfg_ok c -> Inv c (md s) ->
  wp (ChangeTauOnVertex next c) s (Post next (tau_rel c) CHANGE_TAU_VERTEX s).
Proof.
  intros C HI. unfold ChangeTauOnVertex. cbv zeta. start d Sil0.
  wguard E0. apply orb_false_iff in E0 as [E0 E1]. apply Z.eqb_neq in E0.
  apply wp_bind, wp_pick; [apply (i_bv _ _ HI)|eauto with inv|]. draw Sil0 v Lv.
  wrd. wguard E2. apply wp_bind, wp_PickTau. draw Sil0 t Ht. wrd. wrd. wrd.
  assert (HG : v_G d v IN <> v_G d v OUT) by (apply (f_notad HI); [auto|congruence]).
  assert (HG' : Nat.eqb (v_G d v IN) (v_G d v OUT) = false) by (apply Nat.eqb_neq; auto).
  rewrite HG'.
  assert (HV : Nat.eqb (w_ver d (v_W d v) (inv (v_D d v))) v = false) by (apply Nat.eqb_neq, (f_other HI); auto).
  apply wp_bind. wwt giW HWi ltac:(wok).
  wrd. wwt goW HWo ltac:(wok).
  apply wp_ret. wrd. rewrite HV. wwt wW HWw ltac:(wok).
  unfold d. eapply wp_decide1; [eapply f_order; eauto|exact Sil0| |].
  - apply tau_write_ok. exact HG.
  - eapply tau_i; try reflexivity; eauto.
Qed.

Lemma g2w_write_ok g w gW wW (d : diagram) :
  let wr := cdiv (cmul gW wW) (cmul (g_W d g) (w_W d w)) in
  g2w_write g w gW wW wr (phase wr) d = Ok (g2w_post g w gW wW d).
Proof. destruct d. unfold g2w_write, g2w_post, mulR. dred. reflexivity. Qed.
Lemma f_measG c d : Inv c d -> measG d = true -> live (gB d) (gmeas d).
Proof. intros HI E0. pose proof (i_meas _ _ HI) as M. unfold Meas in M. rewrite E0 in M. tauto. Qed.
Lemma f_measW c d : Inv c d -> measG d = false -> live (wB d) (wmeas d).
Proof. intros HI E0. pose proof (i_meas _ _ HI) as M. unfold Meas in M. rewrite E0 in M. tauto. Qed.
Lemma ChangeG2W_sem c (s : mst) : cfg_ok c -> Inv c (md s) ->
  wp (ChangeMeasureFromGToW next c) s (Post next (g2w_rel c) CHANGE_MEASURE_G2W s).
Proof.
  intros C HI. unfold ChangeMeasureFromGToW. cbv zeta. start d Sil0.
  wguard E0. apply orb_false_iff in E0 as [E0 EM]. apply orb_false_iff in E0 as [E0 E1].
  apply Z.eqb_neq in E0. apply negb_false_iff in EM.
  wguard E2. apply negb_false_iff, Z.eqb_eq in E2.
  apply wp_bind, wp_pick; [apply (i_bw _ _ HI)|eauto with inv|]. draw Sil0 w Lw.
  wguard E3. pose proof (f_measG _ _ HI EM) as Lg.
  wrd. wrd. wrd. wgspin.
  wwt gW HG ltac:(wok).
  wrd. wrd. wwt wW HWw ltac:(wok).
  unfold d. eapply wp_decide1; [eapply f_order; eauto|exact Sil0| |].
  - apply g2w_write_ok.
  - eapply g2w_i; try reflexivity; eauto.
Qed.
Lemma w2g_write_ok g w gW wW (d : diagram) :
  let wr := cdiv (cmul gW wW) (cmul (g_W d g) (w_W d w)) in
  w2g_write g w gW wW wr (phase wr) d = Ok (w2g_post g w gW wW d).
Proof. destruct d. unfold w2g_write, w2g_post, mulR. dred. reflexivity. Qed.
Lemma ChangeW2G_sem c (s : mst) : cfg_ok c -> Inv c (md s) ->
  wp (ChangeMeasureFromWToG next c) s (Post next (w2g_rel c) CHANGE_MEASURE_W2G s).
Proof.
  intros C HI. unfold ChangeMeasureFromWToG. cbv zeta. start d Sil0.
  wguard E0. apply orb_false_iff in E0 as [E0 EM]. apply orb_false_iff in E0 as [E0 E1].
  apply Z.eqb_neq in E0.
  wguard E2. apply negb_false_iff, Z.eqb_eq in E2.
  apply wp_bind, wp_pick; [apply (i_bg _ _ HI)|eauto with inv|]. draw Sil0 g Lg.
  pose proof (f_measW _ _ HI EM) as Lw. wrd. wguard E3.
  wrd. wrd. wgspin.
  wwt gW HG ltac:(wok).
  wrd. wrd. wwt wW HWw ltac:(wok).
  unfold d. eapply wp_decide1; [eapply f_order; eauto|exact Sil0| |].
  - apply w2g_write_ok.
  - eapply w2g_i; try reflexivity; eauto.
Qed.

Lemma delta_write_ok td vo w G1 G2 t wW W1 W2 (d : diagram) : G1 <> G2 ->
  let wr := cdiv (cmul (cmul W1 W2) wW) (cmul (cmul (g_W d G1) (g_W d G2)) (w_W d w)) in
  delta_write td vo w G1 G2 t wW W1 W2 wr (phase wr) d = Ok (delta_post td vo w G1 G2 t wW W1 W2 d).
Proof.
  intros H. destruct d. unfold delta_write, delta_post, mulR.
  assert (Hn : Nat.eqb G1 G2 = false) by (apply Nat.eqb_neq; auto). rewrite Hn. dred. reflexivity.
Qed.
Lemma ChangeDelta_sem td c (s : mst) : cfg_ok c -> Inv c (md s) ->
  wp (ChangeDelta_gen next td c) s
    (Post next (delta_rel td c) (if td then CHANGE_CONTINUS2DELTA else CHANGE_DELTA2CONTINUS) s).
Proof.
  intros C HI. unfold ChangeDelta_gen. cbv zeta. start d Sil0.
  wguard E0. apply orb_false_iff in E0 as [E0 E1]. apply Z.ltb_ge in E0.
  apply wp_bind, wp_pick; [apply (i_bw _ _ HI)|eauto with inv|]. draw Sil0 w Lw.
  wguard E2. apply orb_false_iff in E2 as [E2 Eww]. apply orb_false_iff in E2 as [E2 Em].
  assert (Ed : w_delta d w = negb td) by (destruct td, (w_delta d w); simpl in *; congruence).
  assert (Lvo : live (vB d) (w_ver d w OUT)) by eauto with inv.
  assert (HG : v_G d (w_ver d w OUT) IN <> v_G d (w_ver d w OUT) OUT) by (apply (f_notad HI); [auto|congruence]).
  assert (HG' := proj2 (Nat.eqb_neq _ _) HG).
  wrd. wrd. wrd. wrd. rewrite HG'.
  apply wp_bind. eapply wp_mono with (Q := fun t s' => sil s s' /\ tau_gen c t /\ (td = false -> tau_draw c t) /\ (td = true -> t = v_T d (w_ver d w IN))).
  { destruct td.
    - apply wp_ret. split; [exact Sil0|]. split; [eauto with inv|]. split; [discriminate|auto].
    - apply wp_PickTau. draw Sil0 t Ht. split; [exact Sil0|]. split; [now apply draw_gen|]. split; [auto|discriminate]. }
  clear Sil0. intros t s' (Sil0 & Ht & Htd0 & Htd).
  wwt wW HWw ltac:(wok).
  wrd. apply wp_bind. wwt W1 HW1 ltac:(wok).
  wrd. wwt W2 HW2 ltac:(wok).
  apply wp_ret.
  unfold d. eapply wp_decide1; [eapply f_order; eauto|exact Sil0| |].
  - apply delta_write_ok. exact HG.
  - eapply delta_i; try reflexivity; eauto.
Qed.

Lemma JumpToOrder0_sem c (s : mst) : cfg_ok c -> Inv c (md s) ->
  wp (JumpToOrder0 next c) s (Post next (to0_rel c) JUMP_TO_ORDER0 s).
Proof.
  intros C HI. unfold JumpToOrder0. cbv zeta. start d Sil0.
  wguard E0. apply orb_false_iff in E0 as [E1 E0]. apply negb_false_iff, Z.eqb_eq in E0.
  wguard E2. apply negb_false_iff, Z.eqb_eq in E2.
  assert (Hav : avail (vB d) = 2%nat) by (destruct (i_cnt _ _ HI) as (A & B & B' & B'' & _); lia).
  destruct (bat_spec (vB d) 0 (i_bv _ _ HI)) as [B1 L1]; [lia|].
  destruct (bat_spec (vB d) 1 (i_bv _ _ HI)) as [B2 L2]; [lia|].
  wlift B1. wlift B2. wrd. wrd. wguard E3.
  pose proof (co_order c C). pose proof (co_orw c C).
  apply wp_bind, wp_orw; [lia|lia|]. intros o0 Ho0.
  apply wp_bind, wp_orw; [lia|lia|]. intros o1 Ho1.
  unfold d. eapply wp_decide1; [eapply f_order; eauto|exact Sil0|reflexivity|].
  econstructor; eauto.
Qed.

Lemma to1_write_ok V1 V2 G1 G2 W1 R t1 t2 sp1 sp2 g1 g2 wW (d : diagram) :
  let wr := cdiv (cmul (cmul (rmul_c (rofZ (-1)) g1) g2) wW) (dweight d) in
  to1_write V1 V2 G1 G2 W1 R t1 t2 sp1 sp2 g1 g2 wW wr (phase wr) d = Ok (to1_post V1 V2 G1 G2 W1 R t1 t2 sp1 sp2 g1 g2 wW d).
Proof. destruct d. unfold to1_write, to1_post, mulR. dred. reflexivity. Qed.
Lemma JumpBackToOrder1_sem c (s : mst) : cfg_ok c -> Inv c (md s) ->
  wp (JumpBackToOrder1 next c) s (Post next (to1_rel c) JUMP_BACK_TO_ORDER1 s).
Proof.
  intros C HI. unfold JumpBackToOrder1. cbv zeta. start d Sil0.
  wguard E2. apply negb_false_iff, Z.eqb_eq in E2.
  wguard E0. apply orb_false_iff in E0 as [E1 E0]. apply negb_false_iff, Z.eqb_eq in E0.
  apply wp_bind, wp_PickSite; [apply C|]. draw Sil0 R HR.
  apply wp_bind, wp_PickTau. draw Sil0 t1 Ht1. apply wp_bind, wp_PickTau. draw Sil0 t2 Ht2.
  apply wp_bind, wp_PickSpin. draw0 Sil0 a. apply wp_bind, wp_PickSpin. draw0 Sil0 b.
  assert (Hav : avail (vB d) = 2%nat) by (destruct (i_cnt _ _ HI) as (A & B & B' & B'' & _); lia).
  destruct (bat_spec (vB d) 0 (i_bv _ _ HI)) as [B1 L1]; [lia|].
  destruct (bat_spec (vB d) 1 (i_bv _ _ HI)) as [B2 L2]; [lia|].
  wlift B1. wlift B2. wrd. wrd. wrd. wrd. wrd.
  wwt g1 HW1 ltac:(wok).
  wwt g2 HW2 ltac:(wok).
  wwt wW HW3 ltac:(wok).
  pose proof (co_order c C). pose proof (co_orw c C).
  apply wp_bind, wp_orw; [lia|lia|]. intros o1 Ho1.
  apply wp_bind, wp_orw; [lia|lia|]. intros o0 Ho0.
  unfold d. eapply wp_decide1; [eapply f_order; eauto|exact Sil0| |].
  - apply to1_write_ok.
  - eapply to1_i; try reflexivity; eauto.
Qed.
End Sem1.
