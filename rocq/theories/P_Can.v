(** Which engine outputs make an update propose a given change and accept it *)
From Coq Require Import ZArith List Bool Arith Lia ZifyBool Reals Lra.
From Verif Require Import Base Num NumR RNG Momentum Complex Lattice Bundle IndexMap Weights Diagram Markov
  P_Momentum P_RNG P_Bundle P_Lattice P_IndexMap P_WP P_Inv P_Rel P_Sem1 P_Sem2 P_Sem3 P_Pres1 Alike P_Alike P_Undo.
Import ListNotations.
Open Scope Z_scope.

Definition w32 (x : Z) : Prop := 0 <= x < 2^32.
Lemma emits_app {E} (next : E -> Z * E) ws ws' : forall e, emits next e (ws ++ ws') ->
  emits next e ws.
Proof. induction ws as [|x r IH]; intros e H; cbn in *; [auto|]. destruct H. split; auto. Qed.

Definition wdir (e : dir) : Z := match e with IN => 0 | OUT => 1 end.
Definition wspin (s : spin) : Z := match s with DOWN => 0 | UP => 1 end.
Lemma urn0 : @urn_of NumR (2^31) = 0%R.
Proof. unfold urn_of. change (s32 (2^31)) with (-2^31). cbn. lra. Qed.
Lemma tau_word (c : @cfg NumR) t : tau_draw c t -> exists x, w32 x /\ @rmul NumR (urn_of x) (c_beta c) = t.
Proof. intros [x [Hx ->]]. eauto. Qed.
Lemma tau_zero (c : @cfg NumR) t : t = @rofZ NumR 0 \/ tau_draw c t -> tau_draw c t.
Proof. intros [->|H]; [|exact H]. exists (2^31). split; [lia|]. rewrite urn0. cbn. lra. Qed.

Section Rules.
Context {E : Type} (next : E -> Z * E).
Notation mst := (@mstate NumR E).

Lemma we_word x ws (s : mst) (Q : Z -> mst -> Prop) : emits next (mrng s) (x :: ws) ->
  (forall s', sil s s' -> emits next (mrng s') ws -> Q x s') -> wp (word next) s Q.
Proof.
  intros [Hx Hr] H. unfold wp, word. destruct (next (mrng s)) as [y e] eqn:Ey. cbn [fst snd] in *. subst x.
  apply H; [repeat split|]. exact Hr.
Qed.
Lemma we_irn a b y ws (s : mst) (Q : Z -> mst -> Prop) : - 2^31 <= a -> b < 2^31 -> b - a + 1 < 2^31 -> a <= y <= b ->
  emits next (mrng s) (y - a :: ws) -> (forall s', sil s s' -> emits next (mrng s') ws -> Q y s') -> wp (irn next a b) s Q.
Proof.
  intros H1 H2 H3 Hy He H. apply wp_bind. eapply we_word; [exact He|]. intros s' Hs He'.
  eapply wp_lift; [|apply H; eassumption]. rewrite irn_spec by lia. rewrite Z.mod_small by lia. f_equal. lia.
Qed.
Lemma we_pick b p ws (s : mst) (Q : nat -> mst -> Prop) : BInv b -> live b p -> emits next (mrng s) (Z.of_nat (nm b p) :: ws) ->
  (forall s', sil s s' -> emits next (mrng s') ws -> Q p s') -> wp (pick next b) s Q.
Proof.
  intros HB Lp He H. apply wp_bind. eapply we_word; [exact He|]. intros s' Hs He'.
  apply wp_bind. pose proof (bi_av b HB) as Ha. unfold MAX_BUNDLE in Ha. pose proof Lp as [L1 L2].
  eapply (wp_lift _ p).
  - unfold bpick. rewrite irn_spec by lia. rewrite Z.mod_small by lia. cbn [obind].
    assert (Ec : (0 <=? 0 + Z.of_nat (nm b p)) && (0 + Z.of_nat (nm b p) <? Z.of_nat MAX_BUNDLE) = true) by (unfold MAX_BUNDLE; lia).
    rewrite Ec. rewrite Z.add_0_l, Nat2Z.id. f_equal. apply (bi_nm b HB). exact L1.
  - apply wp_rd; [exact L1|]. auto.
Qed.
Lemma we_K k ws (s : mst) (Q : Z -> mst -> Prop) : inrange k -> emits next (mrng s) (k + MAX_K :: ws) ->
  (forall s', sil s s' -> emits next (mrng s') ws -> Q k s') -> wp (RandomPickK next) s Q.
Proof.
  intros Hk He H. unfold inrange, MAX_K in *. apply wp_bind. eapply (we_irn _ _ k); try (unfold MAX_K; lia).
  - unfold MAX_K. replace (k - -10000) with (k + 10000) by lia. exact He.
  - intros s' Hs He'. apply wp_ret. rewrite mkMom_id; [auto|]. unfold inrange, MAX_K; lia.
Qed.
Lemma we_DSpin k ws (s : mst) (Q : Z -> mst -> Prop) : k = 1 \/ k = -1 -> emits next (mrng s) ((if k =? 1 then 1 else 0) :: ws) ->
  (forall s', sil s s' -> emits next (mrng s') ws -> Q k s') -> wp (RandomPickDeltaSpin next) s Q.
Proof.
  intros Hk He H. apply wp_bind. destruct Hk; subst k; cbn in He.
  - eapply (we_irn _ _ 1); try lia; [exact He|]. intros s' Hs He'. apply wp_ret. auto.
  - eapply (we_irn _ _ 0); try lia; [exact He|]. intros s' Hs He'. apply wp_ret. auto.
Qed.
Lemma we_Spin k ws (s : mst) (Q : spin -> mst -> Prop) : emits next (mrng s) (wspin k :: ws) ->
  (forall s', sil s s' -> emits next (mrng s') ws -> Q k s') -> wp (RandomPickSpin next) s Q.
Proof.
  intros He H. apply wp_bind. destruct k; cbn in He.
  - eapply (we_irn _ _ 0); try lia; [exact He|]. intros s' Hs He'. apply wp_ret. auto.
  - eapply (we_irn _ _ 1); try lia; [exact He|]. intros s' Hs He'. apply wp_ret. auto.
Qed.
Lemma we_Dir k ws (s : mst) (Q : dir -> mst -> Prop) : emits next (mrng s) (wdir k :: ws) ->
  (forall s', sil s s' -> emits next (mrng s') ws -> Q k s') -> wp (RandomPickDir next) s Q.
Proof.
  intros He H. apply wp_bind. destruct k; cbn in He.
  - eapply (we_irn _ _ 0); try lia; [exact He|]. intros s' Hs He'. apply wp_ret. auto.
  - eapply (we_irn _ _ 1); try lia; [exact He|]. intros s' Hs He'. apply wp_ret. auto.
Qed.
Lemma we_Tau (c : cfg) x t ws (s : mst) (Q : real -> mst -> Prop) : @rmul NumR (urn_of x) (c_beta c) = t -> emits next (mrng s) (x :: ws) ->
  (forall s', sil s s' -> emits next (mrng s') ws -> Q t s') -> wp (RandomPickTau next c) s Q.
Proof.
  intros Et He H. apply wp_bind. apply wp_bind. eapply we_word; [exact He|]. intros s' Hs He'. apply wp_ret, wp_ret. rewrite Et. auto.
Qed.
Lemma we_coords sizes l : Forall2 (fun z x => 0 <= x < z) sizes l -> Forall (fun z => 0 < z < 2^31) sizes ->
  forall ws (s : mst) (Q : list Z -> mst -> Prop), emits next (mrng s) (l ++ ws) ->
  (forall s', sil s s' -> emits next (mrng s') ws -> Q l s') -> wp (pick_coords next sizes) s Q.
Proof.
  induction 1 as [|z x r l Hx Hr IH]; intros HF ws s Q He H.
  - apply wp_ret, H; [apply sil_refl|exact He].
  - inversion HF; subst. cbn [pick_coords]. apply wp_bind. eapply (we_irn _ _ x); try lia.
    + rewrite Z.sub_0_r. exact He.
    + intros s1 H1 He1. apply wp_bind. eapply IH; [assumption|exact He1|]. intros s2 Hs2 He2. apply wp_ret, H; auto.
      eapply sil_trans; eauto.
Qed.
Lemma we_Site (c : cfg) r ws (s : mst) (Q : site -> mst -> Prop) : lat_ok (c_lat c) -> site_ok (c_lat c) r ->
  emits next (mrng s) (coord r ++ sub r :: ws) ->
  (forall s', sil s s' -> emits next (mrng s') ws -> Q r s') -> wp (RandomPickSite next c) s Q.
Proof.
  intros [_ [H1 H2]] [H3 H4] He H. apply wp_bind. eapply we_coords; [exact H4|exact H1|exact He|].
  intros s1 Hs1 He1. apply wp_bind. eapply (we_irn _ _ (sub r)); try lia; [rewrite Z.sub_0_r; exact He1|].
  intros s2 Hs2 He2. apply wp_ret. destruct r. apply H; auto. eapply sil_trans; eauto.
Qed.
Lemma we_orw (c : cfg) i x (s : mst) (Q : real -> mst -> Prop) : 0 <= i -> nth_error (c_orw c) (Z.to_nat i) = Some x -> Q x s ->
  wp (orw c i) s Q.
Proof. intros Hi Hx H. unfold orw. destruct (Z.ltb_spec i 0); [lia|]. rewrite Hx. apply wp_ret, H. Qed.
Lemma we_decide op o (p : @real NumR) (write : @diagram NumR -> outcome (@diagram NumR)) ws (s : mst) dprop : 0 <= o <= 9 -> (0 < (p : R))%R ->
  emits next (mrng s) (2^31 :: ws) -> write (md s) = Ok dprop ->
  wp (decide next op o p write) s (fun _ s' => md s' = dprop).
Proof.
  intros Ho Hp He Hw. unfold decide, propose, accepted.
  assert (G : (0 <=? o) && (o <? 10) = true) by lia. rewrite G. cbn [guard_ub].
  apply wp_bind. apply wp_bind, wp_ret, wp_modify. apply wp_bind.
  unfold accept. destruct (@rleb NumR (rofZ 1) p) eqn:EP.
  - apply wp_ret. apply wp_bind. apply wp_bind, wp_ret, wp_modify. unfold wp, updD. cbn [md s_macc s_mprop].
    rewrite Hw. reflexivity.
  - apply wp_bind. unfold urn. apply wp_bind. eapply we_word; [exact He|]. intros s' Hs _. apply wp_ret, wp_ret.
    rewrite urn0. destruct (@rltb NumR 0%R p) eqn:EL.
    + apply wp_bind. apply wp_bind, wp_ret, wp_modify. unfold wp, updD. cbn [md s_macc].
      destruct Hs as [-> _]. cbn [md s_mprop]. rewrite Hw. reflexivity.
    + exfalso. change (@rltb NumR) with Rltb in EL. unfold Rltb in EL. destruct (Rlt_dec 0 p) as [|X]; [congruence|]. apply X, Hp.
Qed.
End Rules.

(** *** tactics *)
Ltac gsolve := unfold is0;
  repeat lazymatch goal with |- _ || _ = false => apply orb_false_iff; split | |- negb _ = false => apply negb_false_iff end; try assumption; try reflexivity;
  first [ apply Z.eqb_neq; assumption | apply Z.eqb_eq; assumption | apply Nat.eqb_neq; assumption | apply Nat.eqb_eq; congruence
        | apply Z.leb_gt; assumption | apply Z.ltb_ge; assumption
        | match goal with |- spin_eqb ?a ?b = true => replace b with a by congruence; destruct a; reflexivity end
        | match goal with |- site_eqb ?a ?b = true => replace b with a by congruence; apply site_eqb_refl end
        | idtac ].
Ltac gno := match goal with |- wp (if ?b then _ else _) _ _ =>
  let EE := fresh "EE" in assert (EE : b = false) by (gsolve); rewrite EE; clear EE end.
Ltac adv Sil0 Em := let s' := fresh "st" in let S' := fresh "Sil'" in let E' := fresh "Em'" in
  intros s' S' E'; apply (sil_trans _ _ _ Sil0) in S'; clear Sil0 Em; rename S' into Sil0; rename E' into Em; cbv beta.
Ltac wlf := eapply wp_bind, wp_lift; [eassumption|]; cbv beta.
Ltac fin Sil0 Em Ed := eapply we_decide; [eapply f_order; eassumption|eassumption|exact Em|];
  let X := fresh "X" in
  lazymatch type of Sil0 with sil _ ?s => lazymatch type of Ed with _ = ?d => assert (X : md s = d) by (rewrite <- Ed; apply Sil0) end end;
  rewrite X; clear X.
Ltac startc Sil0 Ed :=
  apply wp_bind, wp_gets; cbv beta; rewrite ?Ed;
  lazymatch goal with |- wp _ ?s _ => assert (Sil0 : sil s s) by apply sil_refl end.

Section Can.
Context (c : @cfg NumR) (C : cfg_ok c).
Notation D := (@diagram NumR).
Definition can (op : forall E, (E -> Z * E) -> M (@mstate NumR E) unit) (d d' : D) : Prop :=
  exists ws, Forall w32 ws /\ forall E (next : E -> Z * E) (s : @mstate NumR E), md s = d -> emits next (mrng s) ws ->
    wp (op E next) s (fun _ s' => md s' = d').

Lemma nm_w32 b p : BInv b -> live b p -> w32 (Z.of_nat (nm b p)).
Proof. intros B [H1 H2]. pose proof (bi_av b B). unfold MAX_BUNDLE in *. unfold w32. lia. Qed.
Lemma K_w32 k : inrange k -> w32 (k + MAX_K).
Proof. unfold inrange, w32, MAX_K. lia. Qed.
Lemma dir_w32 k : w32 (wdir k).
Proof. unfold w32. destruct k; cbn [wdir]; lia. Qed.
Lemma spin_w32 k : w32 (wspin k).
Proof. unfold w32. destruct k; cbn [wspin]; lia. Qed.
Lemma last_w32 : w32 (2^31).
Proof. unfold w32. lia. Qed.
Lemma site_w32 r : site_ok (c_lat c) r -> Forall w32 (coord r) /\ w32 (sub r).
Proof.
  intros [H1 H2]. destruct (co_lat c C) as (_ & H3 & H4). split; [|unfold w32; lia].
  clear H1 H4. induction H2; [constructor|]. inversion H3; subst. constructor; auto. unfold w32. lia.
Qed.
Lemma ds_w32 ds : w32 (if ds =? 1 then 1 else 0).
Proof. unfold w32. destruct (ds =? 1); lia. Qed.
Hint Resolve K_w32 dir_w32 spin_w32 last_w32 ds_w32 : w32.
Ltac wl HI := repeat lazymatch goal with |- Forall _ (_ :: _) => apply Forall_cons | |- Forall _ [] => apply Forall_nil
    | |- Forall _ (_ ++ _) => apply Forall_app; split end;
  first [assumption | apply nm_w32; [first [apply (i_bw _ _ HI)|apply (i_bv _ _ HI)|apply (i_bg _ _ HI)]|assumption] | eauto with w32 ].

Lemma create_can d p d' r : Inv c d -> create_rel c d p d' r -> (0 < (p : R))%R -> can (fun E next => CreateWorm next c) d d'.
Proof.
  intros HI [w vi vo kM kW ds wW Ho Hx Lw Evi Evo HkM EkW Nk Hh Hds HCM HWt] Hp. subst vi vo kW.
  exists [Z.of_nat (nm (wB d) w); kM + MAX_K; (if ds =? 1 then 1 else 0); 2^31]. split.
  { wl HI. }
  intros E next s Ed Em. unfold CreateWorm. cbv zeta. startc Sil0 Ed. gno.
  apply wp_bind. eapply we_pick; [apply (i_bw _ _ HI)|exact Lw|exact Em|]. adv Sil0 Em.
  wrd. wrd. apply wp_bind. eapply we_K; [exact HkM|exact Em|]. adv Sil0 Em.
  destruct (ksub_spec (w_K d w) kM) as [Rk _]; eauto with inv.
  wlift (WHashCheck_ok d _ Rk). rewrite (proj2 (Z.eqb_neq _ _) Nk), Hh.
  apply wp_bind. eapply we_DSpin; [exact Hds|exact Em|]. adv Sil0 Em. rewrite HCM. wlf.
  fin Sil0 Em Ed. apply create_write_ok; eauto with inv.
Qed.
Lemma delete_can d p d' r : Inv c d -> delete_rel c d p d' r -> (0 < (p : R))%R -> can (fun E next => DeleteWorm next c) d d'.
Proof.
  intros HI [w k wW Ho Hx Ew Ew' Ek Nk Hh HWt] Hp. subst w k.
  exists [2^31]. split. { wl HI. }
  intros E next s Ed Em. unfold DeleteWorm. cbv zeta. startc Sil0 Ed. gno.
  destruct (f_wo HI Hx) as (Li & Lm & Him & Dm & _ & Hds & HK & HW).
  wrd. wrd. wrd. gno.
  assert (Rk := kadds_range (w_K d (v_W d (ira d))) (v_D d (ira d)) (wm_K d) ltac:(eauto with inv) HK).
  wlift (WHashCheck_ok d _ Rk). rewrite (proj2 (Z.eqb_neq _ _) Nk), Hh. wlf.
  fin Sil0 Em Ed. apply delete_write_ok; eauto with inv.
Qed.
Lemma moveG_can d p d' r : Inv c d -> moveG_rel c d p d' r -> (0 < (p : R))%R -> can (fun E next => MoveWormOnG next c) d d'.
Proof.
  intros HI [dr g v1 v2 k w1 vW1 w2 vW2 iw1 s1 s2 w1W w2W gW Ho Hx E1 E2 E3 N1 N2 HCM Ek Hh E4 E5 E6 E7 E8 E9 E10 W1 W2 W3] Hp. subst.
  exists [wdir dr; 2^31]. split. { wl HI. }
  intros E next s Ed Em. unfold MoveWormOnG. cbv zeta. startc Sil0 Ed. gno.
  destruct (f_wo HI Hx) as (Li & Lm & Him & Dm & _ & Hds & HK & HW).
  wrd. apply wp_bind. eapply we_Dir; [exact Em|]. adv Sil0 Em.
  assert (Lg : live (gB d) (v_G d (ira d) dr)) by eauto with inv.
  assert (Lv2 : live (vB d) (g_ver d (v_G d (ira d) dr) dr)) by eauto with inv.
  wrd. wrd. gno. wgspin. rewrite HCM.
  assert (Rk := ksubs_range (g_K d (v_G d (ira d) dr)) dr (wm_K d) ltac:(eauto with inv) HK).
  wlift (GHashCheck_ok d _ Rk). rewrite Hh. wrd. wrd. wlf. wrd. wrd. wlf. wlf. wrd.
  fin Sil0 Em Ed. apply moveG_write_ok; eauto with inv.
Qed.
Lemma moveW_can d p d' r : Inv c d -> moveW_rel c d p d' r -> (0 < (p : R))%R -> can (fun E next => MoveWormOnW next c) d d'.
Proof.
  intros HI [v1 w v2 k wW Ho Hx E1 E2 E3 N1 N2 Ek Nk Hh W1] Hp. subst.
  exists [2^31]. split. { wl HI. }
  intros E next s Ed Em. unfold MoveWormOnW. cbv zeta. startc Sil0 Ed. gno.
  destruct (f_wo HI Hx) as (Li & Lm & Him & Dm & _ & Hds & HK & HW).
  wrd. wrd. wrd. gno.
  assert (Rk := kadds_range (w_K d (v_W d (ira d))) (v_D d (ira d)) (wm_K d) ltac:(eauto with inv) HK).
  wlift (WHashCheck_ok d _ Rk). rewrite (proj2 (Z.eqb_neq _ _) Nk), Hh. wlf. wrd.
  fin Sil0 Em Ed. apply moveW_write_ok; eauto with inv.
Qed.
Lemma reconnect_can d p d' r : Inv c d -> reconnect_rel c d p d' r -> (0 < (p : R))%R -> can (fun E next => Reconnect next c) d d'.
Proof.
  intros HI [I Ma dr GIA GMB k vA vB' gi gm Ho Hx E1 E2 ER E3 E4 ES Ek E5 E6 W1 W2] Hp. subst.
  exists [wdir dr; 2^31]. split. { wl HI. }
  intros E next s Ed Em. unfold Reconnect. cbv zeta. startc Sil0 Ed. gno.
  destruct (f_wo HI Hx) as (Li & Lm & Him & Dm & _ & Hds & HK & HW).
  wrd. wrd. gno. apply wp_bind. eapply we_Dir; [exact Em|]. adv Sil0 Em.
  assert (Lg : live (gB d) (v_G d (ira d) dr)) by eauto with inv.
  assert (Lg' : live (gB d) (v_G d (masha d) dr)) by eauto with inv.
  wrd. wrd. wgspin. wgspin. gno. wrd. wlf. wrd. wlf.
  fin Sil0 Em Ed. apply reconnect_write_ok.
Qed.

Lemma adj_site d v e : Inv c d -> live (vB d) v -> v_R d (g_ver d (v_G d v e) e) = v_R d v.
Proof.
  intros HI Lv. pose proof (i_loc _ _ HI (v_G d v e) ltac:(eauto with inv)) as H. pose proof (f_vgv HI v e Lv) as H2.
  destruct e; cbn [inv] in *; rewrite H2 in H; congruence.
Qed.

Lemma add_can de d p d' r : Inv c d -> add_rel de c d p d' r -> (0 < (p : R))%R -> can (fun E next => Add_gen next de c) d d'.
Proof.
  intros HI [I Ma dr dw GIC GMD kW kIA kMB kM vC vD tA tB sA sB wW gIA gMB gAC gBD o1 o0
    vA vB' GIA GMB WAB bv1 bv bg1 bg bw Hx Ho Ho' EI EM HkW Nk Hh E1 E2 EK1 EK2 EK3 Hg1 Hg2 HK12 HtA HtB Hde ES1 ES2 E3 E4
    W1 W2 W3 W4 W5 O1 O0 B1 B2 B3 B4 B5] Hp.
  destruct (tau_word c tA HtA) as (xA & HxA & ExA). destruct (tau_word c tB HtB) as (xB & HxB & ExB).
  exists ([kW + MAX_K; wdir dr; wdir dw; xA] ++ (if de then [] else [xB]) ++ [2^31]). split. { destruct de; cbn [app]; wl HI. }
  intros E next s Ed Em. cbn [app] in Em. unfold Add_gen. cbv zeta. startc Sil0 Ed. gno. gno.
  destruct (f_wo HI Hx) as (Li & Lm & Him & Dm & _ & Hds & HK & HW).
  subst I Ma. wrd. wrd. apply wp_bind. eapply we_K; [exact HkW|exact Em|]. adv Sil0 Em.
  wlift (WHashCheck_ok d _ HkW). rewrite (proj2 (Z.eqb_neq _ _) Nk), Hh.
  apply wp_bind. eapply we_Dir; [exact Em|]. adv Sil0 Em. apply wp_bind. eapply we_Dir; [exact Em|]. adv Sil0 Em.
  assert (LI : live (gB d) GIC) by (subst GIC; eauto with inv).
  assert (LM : live (gB d) GMD) by (subst GMD; eauto with inv).
  rewrite <- E1, <- E2.
  apply wp_bind, wp_rd; [eauto with inv|]. apply wp_bind, wp_rd; [eauto with inv|].
  pose proof (ksubs2_range (g_K d GIC) dr dw kW ltac:(eauto with inv) HkW) as R1.
  pose proof (kadds2_range (g_K d GMD) dr dw kW ltac:(eauto with inv) HkW) as R2.
  rewrite <- EK1, <- EK2, <- EK3 in *.
  wlift (GHashCheck_ok d _ R1). rewrite Hg1. wlift (GHashCheck_ok d _ R2). rewrite Hg2.
  rewrite (proj2 (Z.eqb_neq _ _) HK12).
  apply wp_bind. eapply we_Tau; [exact ExA|exact Em|]. adv Sil0 Em.
  apply wp_bind. eapply wp_mono with (Q := fun t s' => t = tB /\ sil s s' /\ emits next (mrng s') [2^31]).
  { destruct de.
    - apply wp_ret. rewrite (Hde eq_refl). auto.
    - eapply we_Tau; [exact ExB|exact Em|]. adv Sil0 Em. auto. }
  clear Sil0 Em. intros t s' (-> & Sil0 & Em).
  wgspin. wgspin. rewrite <- ES1, <- ES2. apply wp_bind, wp_rd; [eauto with inv|]. apply wp_bind, wp_rd; [eauto with inv|].
  rewrite <- E3, <- E4.
  replace (mkspin sA sA (inv dr)) with sA by (destruct dr; reflexivity).
  replace (mkspin sB sB (inv dr)) with sB by (destruct dr; reflexivity).
  replace (mkspin sA sA dr) with sA by (destruct dr; reflexivity).
  replace (mkspin sB sB dr) with sB by (destruct dr; reflexivity).
  wlf. wlf. wlf. wlf. wlf.
  destruct (f_cnt c d HI Ho) as (_ & _ & _ & A4).
  apply wp_bind. eapply we_orw; [lia|exact O1|]. apply wp_bind. eapply we_orw; [lia|exact O0|].
  fin Sil0 Em Ed. eapply add_write_ok; eauto.
Qed.

Lemma del_can de d p d' r : Inv c d -> del_rel de c d p d' r -> (0 < (p : R))%R -> can (fun E next => Del_gen next de c) d d'.
Proof.
  intros HI [I Ma dr GIA GMB vA vB' wAB GAC GBD vC vD kM gIC gMD om o0 bv1 bv bg1 bg bw Hx Ho EI EM E1 E2 M1 M2 M3 M4 E3 E4 S1 S2
    E5 E6 M5 M6 M7 M8 E7 E8 E9 E10 EK W1 W2 O1 O0 B1 B2 B3 B4 B5] Hp.
  exists [wdir dr; 2^31]. split. { wl HI. }
  intros E next s Ed Em. unfold Del_gen. cbv zeta. startc Sil0 Ed. gno. gno.
  destruct (f_wo HI Hx) as (Li & Lm & Him & Dm & Eo & Hds & HK & HW).
  assert (LI : live (gB d) GIA) by (subst; eauto with inv).
  assert (LM : live (gB d) GMB) by (subst; eauto with inv).
  assert (HGn : GIA <> GMB) by (intros X; subst; apply (f_vg_inj HI) in X; auto).
  assert (LA : live (vB d) vA) by (subst vA; eauto with inv).
  assert (LB : live (vB d) vB') by (subst vB'; eauto with inv).
  assert (Lw : live (wB d) wAB) by (subst wAB; eauto with inv).
  assert (LGA : live (gB d) GAC) by (subst GAC; eauto with inv).
  assert (LGB : live (gB d) GBD) by (subst GBD; eauto with inv).
  assert (RA : v_R d vC = v_R d vA) by (subst vC GAC; apply adj_site; auto).
  assert (RB : v_R d vD = v_R d vB') by (subst vD GBD; apply adj_site; auto).
  subst I Ma. wrd. wrd. apply wp_bind. eapply we_Dir; [exact Em|]. adv Sil0 Em.
  rewrite <- E1, <- E2. wrd. wrd. gno. gno. rewrite <- E3, <- E4. wrd. wrd. gno. gno.
  rewrite <- E5. assert (EE : negb (Nat.eqb wAB (v_W d vB')) = false) by (rewrite E6, Nat.eqb_refl; reflexivity). rewrite EE. clear EE.
  wrd. rewrite M5, M6, M7, M8. replace (false || false || xorb de de || false) with false by (destruct de; reflexivity).
  rewrite <- E7, <- E8. wrd. wrd. rewrite <- E9, <- E10.
  apply wp_bind, wp_rd; [subst vC; eauto with inv|]. apply wp_bind, wp_rd; [subst vD; eauto with inv|].
  gno. gno. rewrite <- EK. wlf. wlf.
  destruct (f_cnt c d HI Eo) as (_ & _ & _ & A4).
  apply wp_bind. eapply we_orw; [lia|exact O1|]. apply wp_bind. eapply we_orw; [lia|exact O0|].
  fin Sil0 Em Ed. eapply del_write_ok; try eassumption; eauto with inv. eapply f_Kinj; eauto.
Qed.

Lemma tau_can d p d' r : Inv c d -> tau_rel c d p d' r -> (0 < (p : R))%R -> can (fun E next => ChangeTauOnVertex next c) d d'.
Proof.
  intros HI [v w gi go vi vo vW t giW goW wW Ho Hx Lv E1 M1 Ht E2 E3 HG E4 E5 E6 W1 W2 W3] Hp. subst w gi go vi vo vW.
  destruct (tau_word c t Ht) as (x & Hx' & Ex).
  exists [Z.of_nat (nm (vB d) v); x; 2^31]. split. { wl HI. }
  intros E next s Ed Em. unfold ChangeTauOnVertex. cbv zeta. startc Sil0 Ed. gno.
  apply wp_bind. eapply we_pick; [apply (i_bv _ _ HI)|exact Lv|exact Em|]. adv Sil0 Em.
  wrd. rewrite M1. apply wp_bind. eapply we_Tau; [exact Ex|exact Em|]. adv Sil0 Em. wrd. wrd. wrd.
  rewrite (proj2 (Nat.eqb_neq _ _) HG).
  assert (HV : Nat.eqb (w_ver d (v_W d v) (inv (v_D d v))) v = false) by (apply Nat.eqb_neq, (f_other HI); auto).
  apply wp_bind. wlf. wrd. wlf. apply wp_ret. wrd. rewrite HV, <- M1. wlf.
  fin Sil0 Em Ed. apply tau_write_ok. exact HG.
Qed.
Lemma g2w_can d p d' r : Inv c d -> g2w_rel c d p d' r -> (0 < (p : R))%R -> can (fun E next => ChangeMeasureFromGToW next c) d d'.
Proof.
  intros HI [g w gW wW Ho Hx HM Hga Lw M1 E1 W1 W2] Hp. subst g.
  exists [Z.of_nat (nm (wB d) w); 2^31]. split. { wl HI. }
  intros E next s Ed Em. unfold ChangeMeasureFromGToW. cbv zeta. startc Sil0 Ed. gno. gno.
  apply wp_bind. eapply we_pick; [apply (i_bw _ _ HI)|exact Lw|exact Em|]. adv Sil0 Em.
  rewrite M1 in *. pose proof (f_measG _ _ HI HM) as Lg. wrd. wrd. wrd. wgspin. wlf. wrd. wrd. wlf.
  fin Sil0 Em Ed. apply g2w_write_ok.
Qed.
Lemma w2g_can d p d' r : Inv c d -> w2g_rel c d p d' r -> (0 < (p : R))%R -> can (fun E next => ChangeMeasureFromWToG next c) d d'.
Proof.
  intros HI [g w gW wW Ho Hx HM Hga Lg M1 E1 W1 W2] Hp. subst w.
  exists [Z.of_nat (nm (gB d) g); 2^31]. split. { wl HI. }
  intros E next s Ed Em. unfold ChangeMeasureFromWToG. cbv zeta. startc Sil0 Ed. gno. gno.
  apply wp_bind. eapply we_pick; [apply (i_bg _ _ HI)|exact Lg|exact Em|]. adv Sil0 Em.
  pose proof (f_measW _ _ HI HM) as Lw. wrd. rewrite M1 in *. wrd. wrd. wgspin. wlf. wrd. wrd. wlf.
  fin Sil0 Em Ed. apply w2g_write_ok.
Qed.
Lemma delta_can td d p d' r : Inv c d -> delta_rel td c d p d' r -> (0 < (p : R))%R -> can (fun E next => ChangeDelta_gen next td c) d d'.
Proof.
  intros HI [w vi vo G1 G2 v1 v2 t wW W1 W2 Ho Hx Lw M1 M2 M3 E1 E2 E3 E4 HG E5 E6 Ht Htd WW1 WW2 WW3] Hp. subst vi vo G1 G2 v1 v2.
  assert (TW : exists x, w32 x /\ (td = false -> @rmul NumR (urn_of x) (c_beta c) = t)).
  { destruct td; [exists 0; split; [unfold w32; lia|discriminate]|]. destruct (tau_word c t (Ht eq_refl)) as (x & Hx' & Ex). eauto. }
  destruct TW as (x & Hx' & Ex).
  exists ([Z.of_nat (nm (wB d) w)] ++ (if td then [] else [x]) ++ [2^31]). split. { destruct td; cbn [app]; wl HI. }
  intros E next s Ed Em. cbn [app] in Em. unfold ChangeDelta_gen. cbv zeta. startc Sil0 Ed. gno.
  apply wp_bind. eapply we_pick; [apply (i_bw _ _ HI)|exact Lw|exact Em|]. adv Sil0 Em.
  rewrite M1, M2, M3 in *. replace (xorb (negb td) (negb td) || false || false) with false by (destruct td; reflexivity).
  assert (Lvo : live (vB d) (w_ver d w OUT)) by eauto with inv.
  wrd. wrd. wrd. wrd. rewrite (proj2 (Nat.eqb_neq _ _) HG).
  apply wp_bind. eapply wp_mono with (Q := fun t' s' => t' = t /\ sil s s' /\ emits next (mrng s') [2^31]).
  { destruct td.
    - apply wp_ret. rewrite (Htd eq_refl). auto.
    - eapply we_Tau; [exact (Ex eq_refl)|exact Em|]. adv Sil0 Em. auto. }
  clear Sil0 Em. intros t' s' (-> & Sil0 & Em).
  wlf. wrd. apply wp_bind. wlf. wrd. wlf. apply wp_ret.
  fin Sil0 Em Ed. apply delta_write_ok. exact HG.
Qed.
Lemma to0_can d p d' r : Inv c d -> to0_rel c d p d' r -> (0 < (p : R))%R -> can (fun E next => JumpToOrder0 next c) d d'.
Proof.
  intros HI [o0 o1 Ho Hx Hga O0 O1] Hp.
  exists [2^31]. split. { wl HI. }
  intros E next s Ed Em. unfold JumpToOrder0. cbv zeta. startc Sil0 Ed. gno. gno.
  assert (Hav : avail (vB d) = 2%nat) by (destruct (i_cnt _ _ HI) as (A & B & B' & B'' & _); lia).
  destruct (bat_spec (vB d) 0 (i_bv _ _ HI)) as [B1 L1]; [lia|].
  destruct (bat_spec (vB d) 1 (i_bv _ _ HI)) as [B2 L2]; [lia|].
  wlift B1. wlift B2. wrd. wrd.
  assert (Aw : avail (wB d) = 1%nat) by (destruct (i_cnt _ _ HI) as (A & B & B' & B'' & _); lia).
  assert (ER : v_R d (names (vB d) 0) = v_R d (names (vB d) 1)).
  { destruct (two_str c d HI Hx Aw) as (_ & _ & _ & _ & G1o & _). rewrite <- G1o. symmetry. apply adj_site; auto. }
  gno. apply wp_bind. eapply we_orw; [lia|exact O0|]. apply wp_bind. eapply we_orw; [lia|exact O1|].
  fin Sil0 Em Ed. reflexivity.
Qed.
Lemma to1_can d p d' r : Inv c d -> to1_rel c d p d' r -> (0 < (p : R))%R -> can (fun E next => JumpBackToOrder1 next c) d d'.
Proof.
  intros HI [V1 V2 G1 G2 W1 R t1 t2 a b g1 g2 wW o0 o1 Ho Hx Hga HR Ht1 Ht2 E1 E2 E3 E4 E5 WW1 WW2 WW3 O0 O1] Hp. subst V1 V2 G1 G2 W1.
  destruct (tau_word c t1 Ht1) as (x1 & Hx1 & Ex1). destruct (tau_word c t2 Ht2) as (x2 & Hx2 & Ex2).
  destruct (site_w32 R HR) as [SW1 SW2].
  exists (coord R ++ sub R :: [x1; x2; wspin a; wspin b; 2^31]). split. { wl HI. }
  intros E next s Ed Em. unfold JumpBackToOrder1. cbv zeta. startc Sil0 Ed. gno. gno.
  apply wp_bind. eapply we_Site; [apply C|exact HR|exact Em|]. adv Sil0 Em.
  apply wp_bind. eapply we_Tau; [exact Ex1|exact Em|]. adv Sil0 Em. apply wp_bind. eapply we_Tau; [exact Ex2|exact Em|]. adv Sil0 Em.
  apply wp_bind. eapply we_Spin; [exact Em|]. adv Sil0 Em. apply wp_bind. eapply we_Spin; [exact Em|]. adv Sil0 Em.
  assert (Hav : avail (vB d) = 2%nat) by (destruct (i_cnt _ _ HI) as (A & B & B' & B'' & _); lia).
  destruct (bat_spec (vB d) 0 (i_bv _ _ HI)) as [B1 L1]; [lia|].
  destruct (bat_spec (vB d) 1 (i_bv _ _ HI)) as [B2 L2]; [lia|].
  wlift B1. wlift B2. wrd. wrd. wrd. wrd. wrd. wlf. wlf. wlf.
  apply wp_bind. eapply we_orw; [lia|exact O1|]. apply wp_bind. eapply we_orw; [lia|exact O0|].
  fin Sil0 Em Ed. apply to1_write_ok.
Qed.

Lemma we_decide3 {E} (next : E -> Z * E) op o (p : @real NumR) (write : D -> outcome D) (s0 s : @mstate NumR E) dm dprop : 0 <= o <= 9 -> (0 < (p : R))%R ->
  emits next (mrng s) [2^31] -> md s = dm -> write dm = Ok dprop ->
  wp (decide next op o p write) s (fun _ s' => md s' = dprop).
Proof. intros. subst dm. eapply we_decide; eauto. Qed.
Lemma toGG_can d p d' r : Inv c d -> toGG_rel c d p d' r -> (0 < (p : R))%R -> can (fun E next => JumpToGGGammaG next c) d d'.
Proof.
  intros HI [g t ext wt Ho Hx Hga G3 Lg M1 Ht E1 W1] Hp.
  destruct (tau_word c t Ht) as (x & Hx' & Ex).
  exists [Z.of_nat (nm (gB d) g); x; 2^31]. split. { wl HI. }
  intros E next s Ed Em. unfold JumpToGGGammaG. cbv zeta. startc Sil0 Ed. gno.
  apply wp_bind. eapply we_pick; [apply (i_bg _ _ HI)|exact Lg|exact Em|]. adv Sil0 Em.
  rewrite M1. wrd. wrd. wgspin. apply wp_bind. eapply we_Tau; [exact Ex|exact Em|]. adv Sil0 Em.
  apply wp_bind, wp_modify. rewrite <- E1. wlf.
  eapply we_decide3 with (dm := s_uext d ext); [exact s|eapply f_order; eassumption|exact Hp|exact Em| |].
  - cbn [md s_md]. rewrite (proj1 Sil0), Ed. reflexivity.
  - apply toGG_write_ok.
Qed.
Lemma fromGG_can d p d' r : Inv c d -> fromGG_rel c d p d' r -> (0 < (p : R))%R -> can (fun E next => JumpFromGGGammaGToG next c) d d'.
Proof.
  intros HI [g wt Ho Hx Hga Lg M1 M2 S1 ER W1] Hp.
  exists [2^31]. split. { wl HI. }
  intros E next s Ed Em. unfold JumpFromGGGammaGToG. cbv zeta. startc Sil0 Ed. gno.
  destruct (i_gam _ _ HI) as [(A & _)|[(_ & _ & G3 & g' & Lg' & Mg & Vi & Vo & GG & _)|(A & _)]]; try lia.
  apply GG in M2; [|exact Lg]. subst g'.
  rewrite Vi, Vo. unfold rdslot.
  apply wp_bind. apply wp_bind, wp_rd; [eauto with inv|]. apply wp_rd; [eauto with inv|].
  apply wp_bind. apply wp_bind, wp_rd; [eauto with inv|]. apply wp_rd; [eauto with inv|].
  pose proof (f_gvg HI g IN Lg) as Eg. cbn [inv] in Eg. rewrite Eg.
  pose proof (i_loc _ _ HI g Lg) as EL.
  wrd. gno. gno. gno. wgspin. wlf.
  fin Sil0 Em Ed. apply fromGG_write_ok.
Qed.
Lemma toWW_can d p d' r : Inv c d -> toWW_rel c d p d' r -> (0 < (p : R))%R -> can (fun E next => JumpToWWGammaW next c) d d'.
Proof.
  intros HI [w t rr ext wt Ho Hx Hga G3 Lw M1 M2 Ht HR E1 W1] Hp.
  destruct (tau_word c t Ht) as (x & Hx' & Ex). destruct (site_w32 rr HR) as [SW1 SW2].
  exists (Z.of_nat (nm (wB d) w) :: x :: coord rr ++ sub rr :: [2^31]). split. { wl HI. }
  intros E next s Ed Em. unfold JumpToWWGammaW. cbv zeta. startc Sil0 Ed. gno.
  apply wp_bind. eapply we_pick; [apply (i_bw _ _ HI)|exact Lw|exact Em|]. adv Sil0 Em.
  rewrite M1, M2. wrd. wrd. apply wp_bind. eapply we_Tau; [exact Ex|exact Em|]. adv Sil0 Em.
  apply wp_bind. eapply we_Site; [apply C|exact HR|exact Em|]. adv Sil0 Em.
  apply wp_bind, wp_modify. rewrite <- E1. wlf.
  eapply we_decide3 with (dm := s_uext d ext); [exact s|eapply f_order; eassumption|exact Hp|exact Em| |].
  - cbn [md s_md]. rewrite (proj1 Sil0), Ed. reflexivity.
  - apply toWW_write_ok.
Qed.
Lemma fromWW_can d p d' r : Inv c d -> fromWW_rel c d p d' r -> (0 < (p : R))%R -> can (fun E next => JumpFromWWGammaWToW next c) d d'.
Proof.
  intros HI [w wt Ho Hx Hga Lw M1 M3 M2 S1 W1] Hp.
  exists [2^31]. split. { wl HI. }
  intros E next s Ed Em. unfold JumpFromWWGammaWToW. cbv zeta. startc Sil0 Ed. gno.
  destruct (i_gam _ _ HI) as [(A & _)|[(A & _)|(_ & _ & G3 & w' & Lw' & Mw & Dw & Vi & Vo & WW & _)]]; try lia.
  apply WW in M2; [|exact Lw]. subst w'.
  rewrite Vi, Vo. unfold rdslot.
  apply wp_bind. apply wp_bind, wp_rd; [eauto with inv|]. apply wp_rd; [eauto with inv|].
  apply wp_bind. apply wp_bind, wp_rd; [eauto with inv|]. apply wp_rd; [eauto with inv|].
  rewrite (f_wvw HI w IN Lw). wrd. gno. wlf.
  fin Sil0 Em Ed. apply fromWW_write_ok.
Qed.
End Can.
