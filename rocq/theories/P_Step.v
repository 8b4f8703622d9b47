(** One Hop step: which update runs, what it may change, how far the engine moves *)
From Coq Require Import ZArith List Bool Arith Lia ZifyBool Reals Lra.
From Verif Require Import Base Num NumR RNG Momentum Complex Lattice Bundle IndexMap Weights Diagram Markov DiagramIO History
  P_Momentum P_RNG P_Bundle P_Lattice P_IndexMap P_WP P_Inv P_Rel P_Sem1 P_Sem2 P_Sem3 P_Pres1 P_Pres2 P_Pres3 P_Pres4
  P_Hop P_Fix P_IO P_History.
Import ListNotations.
Open Scope Z_scope.

Section Adv.
Context {N : Num} {E : Type} (next : E -> Z * E).
Notation mst := (@mstate N E).
(** the engine after [k] outputs *)
Fixpoint outputs (k : nat) (e : E) : E := match k with O => e | S k => snd (next (outputs k e)) end.
Lemma outputs_add j k e : outputs (j + k) e = outputs j (outputs k e).
Proof. induction j as [|j IH]; cbn [outputs Nat.add]; congruence. Qed.
Definition adv {A} (m : M mst A) : Prop := forall s a s', m s = Ok (a, s') -> exists k, mrng s' = outputs k (mrng s).

Lemma adv_ret {A} (a : A) : adv (ret a).
Proof. intros s b s' H. injection H as _ <-. now exists O. Qed.
Lemma adv_bind {A B} (m : M mst A) (k : A -> M mst B) : adv m -> (forall a, adv (k a)) -> adv (bind m k).
Proof.
  intros H1 H2 s b s' H. unfold bind in H. destruct (m s) as [[a s1]| |] eqn:Em; try discriminate.
  destruct (H1 _ _ _ Em) as [k1 E1]. destruct (H2 _ _ _ _ H) as [k2 E2]. exists (k2 + k1)%nat. now rewrite outputs_add, <- E1.
Qed.
Lemma adv_gets {A} (f : mst -> A) : adv (gets f).
Proof. intros s b s' H. injection H as _ <-. now exists O. Qed.
Lemma adv_lift {A} (x : outcome A) : adv (lift x).
Proof. intros s b s' H. unfold lift in H. destruct x; try discriminate. injection H as _ <-. now exists O. Qed.
Lemma adv_guard_ub b : adv (guard_ub b).
Proof. destruct b; [apply adv_ret|]. intros s a s' H. discriminate. Qed.
Lemma adv_guard_abort b : adv (guard_abort b).
Proof. destruct b; [apply adv_ret|]. intros s a s' H. discriminate. Qed.
Lemma adv_ub {A} : adv (@ub mst A).
Proof. intros s a s' H. discriminate. Qed.
Lemma adv_abort {A} : adv (@abort mst A).
Proof. intros s a s' H. discriminate. Qed.
Lemma adv_rd p : adv (rd p).
Proof. unfold rd. destruct (_ <? _)%nat; [apply adv_ret|apply adv_ub]. Qed.
Lemma adv_word : adv (word next).
Proof. intros s a s' H. unfold word in H. destruct (next (mrng s)) as [x e] eqn:En. injection H as _ <-. exists 1%nat. cbn. now rewrite En. Qed.
Lemma adv_setD f : adv (setD f).
Proof. intros s a s' H. injection H as _ <-. now exists O. Qed.
Lemma adv_updD f : adv (updD f).
Proof. intros s a s' H. unfold updD in H. destruct (f (md s)); try discriminate. injection H as _ <-. now exists O. Qed.
Lemma adv_urn : adv (urn next).
Proof. apply adv_bind; [apply adv_word|intros; apply adv_ret]. Qed.
Lemma adv_irn a b : adv (irn next a b).
Proof. apply adv_bind; [apply adv_word|intros; apply adv_lift]. Qed.
Lemma adv_pick b : adv (pick next b).
Proof. apply adv_bind; [apply adv_word|intros; apply adv_bind; [apply adv_lift|intros; apply adv_rd]]. Qed.
Lemma adv_propose op o : adv (propose op o).
Proof. apply adv_bind; [apply adv_guard_ub|]. intros _ s a s' H. injection H as _ <-. now exists O. Qed.
Lemma adv_accepted op o : adv (accepted op o).
Proof. apply adv_bind; [apply adv_guard_ub|]. intros _ s a s' H. injection H as _ <-. now exists O. Qed.
Lemma adv_accept p : adv (accept next p).
Proof. unfold accept. destruct (rleb _ _); [apply adv_ret|]. apply adv_bind; [apply adv_urn|intros; apply adv_ret]. Qed.
Lemma adv_decide op o p w : adv (decide next op o p w).
Proof.
  apply adv_bind; [apply adv_propose|intros _]. apply adv_bind; [apply adv_accept|intros [|]; [|apply adv_ret]].
  apply adv_bind; [apply adv_accepted|intros _; apply adv_updD].
Qed.
Lemma adv_tau c : adv (RandomPickTau next c).
Proof. apply adv_bind; [apply adv_urn|intros; apply adv_ret]. Qed.
Lemma adv_coords l : adv (pick_coords next l).
Proof. induction l as [|s l IH]; cbn [pick_coords]; [apply adv_ret|]. apply adv_bind; [apply adv_irn|intros; apply adv_bind; [apply IH|intros; apply adv_ret]]. Qed.
Lemma adv_site c : adv (RandomPickSite next c).
Proof. apply adv_bind; [apply adv_coords|intros]. apply adv_bind; [apply adv_irn|intros; apply adv_ret]. Qed.
Lemma adv_orw c i : adv (orw c i).
Proof. unfold orw. destruct (_ <? _); [apply adv_ub|]. destruct (nth_error _ _); [apply adv_ret|apply adv_ub]. Qed.

Ltac adv1 := first
  [ apply adv_ret | apply adv_gets | apply adv_lift | apply adv_guard_ub | apply adv_guard_abort | apply adv_ub | apply adv_abort
  | apply adv_rd | apply adv_pick | apply adv_irn | apply adv_urn | apply adv_tau | apply adv_site | apply adv_orw | apply adv_decide
  | apply adv_setD | apply adv_updD | assumption
  | (apply adv_bind; [|intros ?]) ].
Ltac advd := match goal with
  | |- adv (if ?b then _ else _) => destruct b
  | |- adv (match ?b with _ => _ end) => destruct b
  | |- adv (let '(_, _) := ?b in _) => destruct b
  end.
Ltac advs := repeat (cbv zeta; first [adv1 | advd]).

Lemma adv_gspin d g : adv (gspin d g).
Proof. unfold gspin. advs. Qed.
Lemma adv_walk d R : forall n v l f g, adv (loop_walk d R n v l f g).
Proof. induction n as [|n IH]; intros; cbn [loop_walk]; advs; try apply IH. Qed.
Lemma adv_weights c d R : forall vs i f a b, adv (loop_weights c d R vs i f a b).
Proof. induction vs as [|v vs IH]; intros; cbn [loop_weights]; advs; try apply IH; try apply adv_gspin. Qed.

Local Opaque loop_walk loop_weights.
Ltac advx := repeat (cbv zeta; first [apply adv_walk | apply adv_weights | apply adv_gspin | adv1 | advd]).
Lemma adv_rdslot d p : adv (rdslot d p).
Proof. unfold rdslot. advx. Qed.
Lemma adv_ops c : Forall adv (ops next c).
Proof.
  assert (G : Forall adv (mc_ops next c)).
  { repeat apply Forall_cons; try apply Forall_nil; try apply adv_ret.
    - unfold CreateWorm, getD, RandomPickK, RandomPickDeltaSpin. advx.
    - unfold DeleteWorm, getD. advx.
    - unfold MoveWormOnG, getD, RandomPickDir. advx.
    - unfold MoveWormOnW, getD. advx.
    - unfold Reconnect, getD, RandomPickDir. advx.
    - unfold AddInteraction, Add_gen, getD, RandomPickDir, RandomPickK. advx.
    - unfold DeleteInteraction, Del_gen, getD, RandomPickDir. advx.
    - unfold AddDeltaInteraction, Add_gen, getD, RandomPickDir, RandomPickK. advx.
    - unfold DeleteDeltaInteraction, Del_gen, getD, RandomPickDir. advx.
    - unfold ChangeTauOnVertex, getD. advx.
    - unfold ChangeRLoop, getD. advx.
    - unfold ChangeMeasureFromGToW, getD. advx.
    - unfold ChangeMeasureFromWToG, getD. advx.
    - unfold ChangeDeltaToContinuous, ChangeDelta_gen, getD. advx.
    - unfold ChangeContinuousToDelta, ChangeDelta_gen, getD. advx.
    - unfold JumpToOrder0, getD. advx.
    - unfold JumpBackToOrder1, getD, RandomPickSpin. advx. }
  unfold ops. destruct (c_gamma3 c); auto. apply Forall_app. split; auto.
  repeat apply Forall_cons; try apply Forall_nil.
  - unfold JumpToGGGammaG, getD. advx.
  - unfold JumpFromGGGammaGToG, getD. advx; apply adv_rdslot.
  - unfold JumpToWWGammaW, getD. advx.
  - unfold JumpFromWWGammaWToW, getD. advx; apply adv_rdslot.
Qed.
Lemma adv_dispatch c x : forall l j, Forall adv l -> adv (dispatch c x j l).
Proof.
  induction l as [|m l IH]; intros j H; cbn [dispatch]; [apply adv_ret|]. inversion H; subst.
  destruct (rltb _ _); auto.
Qed.
Lemma hop1_adv c s s' : hop1 next c s = Ok (tt, s') -> exists k, mrng s' = outputs (S k) (mrng s).
Proof.
  intros H. unfold hop1, bind at 1, urn, bind at 1, word in H. destruct (next (mrng s)) as [x e] eqn:En. cbn [ret] in H.
  assert (A : adv (dispatch c (urn_of (u32 x)) 0 (ops next c) ;;; modify (fun s => s_mcount s (mcount s + 1)))%monad).
  { apply adv_bind; [apply adv_dispatch, adv_ops|]. intros _ s1 a s2 Q. injection Q as _ <-. now exists O. }
  destruct (A _ _ _ H) as [k Ek]. exists k. rewrite Ek. cbn [mrng s_mrng].
  replace (S k) with (k + 1)%nat by lia. rewrite outputs_add. cbn [outputs]. now rewrite En.
Qed.
Lemma hops_adv c : forall n s s', hops next c n s = Ok (tt, s') -> exists k, (n <= k)%nat /\ mrng s' = outputs k (mrng s).
Proof.
  induction n as [|n IH]; intros s s' H; cbn [hops] in H.
  - injection H as <-. now exists O.
  - unfold bind in H. destruct (hop1 next c s) as [[[] s1]| |] eqn:E1; try discriminate.
    destruct (hop1_adv _ _ _ E1) as [k Ek]. destruct (IH _ _ H) as (k' & L & Ek').
    exists (k' + S k)%nat. split; [lia|]. now rewrite outputs_add, <- Ek.
Qed.

(** the update that runs *)
Lemma dispatch_pick c x : forall l j k, (k < length l)%nat -> (forall i, (i < k)%nat -> rltb x (SumPc c (j + i)) = false) ->
  rltb x (SumPc c (j + k)) = true -> dispatch c x j l = nth k l (@ret mst unit tt).
Proof.
  induction l as [|m l IH]; intros j k L H1 H2; cbn [length] in L; [lia|]. cbn [dispatch]. destruct k as [|k].
  - rewrite Nat.add_0_r in H2. now rewrite H2.
  - rewrite <- (Nat.add_0_r j), (H1 O) by lia. rewrite Nat.add_0_r. cbn [nth]. apply IH; [lia| |].
    + intros i Hi. replace (S j + i)%nat with (j + S i)%nat by lia. apply H1. lia.
    + now replace (S j + k)%nat with (j + S k)%nat by lia.
Qed.
Lemma dispatch_none c x : forall l j, (forall i, (i < length l)%nat -> rltb x (SumPc c (j + i)) = false) ->
  dispatch c x j l = @ret mst unit tt.
Proof.
  induction l as [|m l IH]; intros j H; cbn [length] in H; auto. cbn [dispatch].
  rewrite <- (Nat.add_0_r j), (H O) by lia. rewrite Nat.add_0_r. apply IH.
  intros i Hi. replace (S j + i)%nat with (j + S i)%nat by lia. apply H. lia.
Qed.
Definition first_draw (s : mst) : real := urn_of (u32 (fst (next (mrng s)))).
Definition after_draw (s : mst) : mst := s_mrng s (snd (next (mrng s))).
Definition count_step (s : mst) : outcome (unit * mst) := Ok (tt, s_mcount s (mcount s + 1)).
Definition then_count (m : M mst unit) (s : mst) : outcome (unit * mst) :=
  match m s with Ok (_, s') => count_step s' | Abort => Abort | UB => UB end.
Lemma hop1_eq c s : hop1 next c s = then_count (dispatch c (first_draw s) 0 (ops next c)) (after_draw s).
Proof.
  unfold hop1, bind at 1, urn, bind at 1, word, then_count, first_draw, after_draw. destruct (next (mrng s)) as [x e]. cbn [ret fst snd].
  unfold bind. destruct (dispatch _ _ _ _ _) as [[[] s']| |]; reflexivity.
Qed.

(** what one step can do *)
Definition step_result (c : cfg) (s s' : mst) : Prop :=
  mcount s' = mcount s + 1 /\
  ((md s' = md s /\ mprop s' = mprop s /\ macc s' = macc s) \/
   exists op p d' r s1, prop_rel c (md s) op p d' r /\ mprop s1 = mprop s /\ macc s1 = macc s /\ md s1 = md s /\
     decided next s1 (s_mcount s' (mcount s1)) op p d' r).
Lemma hop1_step c (s : mst) : cfg_ok c -> Inv c (md s) -> wp (hop1 next c) s (fun _ s' => step_result c s s').
Proof.
  intros C HI. unfold hop1. apply wp_bind, wp_urn. intros x s1 Hx (Em & Ec & Ep & Ea).
  apply wp_bind. assert (HI1 : Inv c (md s1)) by now rewrite Em.
  eapply dispatch_wp with (1 := s) (2 := ops_sem next c s1 C HI1).
  - apply wp_modify. split; [cbn; lia|left; auto].
  - intros s2 (Em2 & Ec2 & Ep2 & Ea2). apply wp_modify. split; [cbn; lia|left; cbn; repeat split; congruence].
  - intros op p d' r s2 P D. apply wp_modify. destruct D as (e & b & D1 & D2 & D3 & D4 & D5).
    split; [cbn; lia|right]. exists op, p, d', r, s1. rewrite <- Em. repeat split; auto.
    exists e, b. cbn. repeat split; auto.
Qed.

Lemma rej_same c d op p d' r : prop_rel c d op p d' r -> r = d \/ (gamma d = 0 /\ exists e, r = s_uext d e).
Proof.
  intros H. destruct H as [? ? ? H|? ? ? H|? ? ? H|? ? ? H|? ? ? H|? ? ? H|? ? ? H|? ? ? H|? ? ? H|? ? ? H|? ? ? H|? ? ? H|? ? ? H|? ? ? H|? ? ? H|? ? ? H|? ? ? H|? ? ? G3 H|? ? ? G3 H|? ? ? G3 H|? ? ? G3 H]; destruct H; eauto.
Qed.
Lemma order0_only c d op p d' r : order d = 0 -> prop_rel c d op p d' r -> op = JUMP_BACK_TO_ORDER1 /\ order d' = 1 /\ r = d.
Proof.
  intros O H. destruct H as [? ? ? H|? ? ? H|? ? ? H|? ? ? H|? ? ? H|? ? ? H|? ? ? H|? ? ? H|? ? ? H|? ? ? H|? ? ? H|? ? ? H|? ? ? H|? ? ? H|? ? ? H|? ? ? H|? ? ? H|? ? ? G3 H|? ? ? G3 H|? ? ? G3 H|? ? ? G3 H]; destruct H; try contradiction; try (exfalso; lia).
  repeat split; reflexivity.
Qed.
Lemma Hop1 c s s' : Hop next c 1 s = Ok (tt, s') -> hop1 next c s = Ok (tt, s').
Proof.
  unfold Hop. change (Z.to_nat 1) with 1%nat. cbn [hops]. unfold bind. destruct (hop1 next c s) as [[[] s1]| |]; auto.
Qed.
Lemma Hop1_step c s s' : cfg_ok c -> new_ok (c_lat c) -> history next c s -> Hop next c 1 s = Ok (tt, s') -> step_result c s s'.
Proof.
  intros C LK H Q. pose proof (hop1_step c s C (history_inv next c s C LK H)) as W. apply wp_ok in W as ([] & s2 & E2 & W).
  apply Hop1 in Q. rewrite Q in E2. now injection E2 as <-.
Qed.

Lemma rejected_same c s s' : cfg_ok c -> new_ok (c_lat c) -> history next c s -> Hop next c 1 s = Ok (tt, s') ->
  (macc s' = macc s /\ (md s' = md s \/ (gamma (md s) = 0 /\ exists e, md s' = s_uext (md s) e))) \/
  (exists op, macc s' = bump (macc s) op (order (md s)) /\ mprop s' = bump (mprop s) op (order (md s))).
Proof.
  intros C LK H Q. destruct (Hop1_step c s s' C LK H Q) as (_ & [(A & B & D)|(op & p & d' & r & s1 & P & Ep & Ea & Em & e & b & D1 & D2 & D3 & D4 & D5)]).
  - left. auto.
  - cbn [md mprop macc s_mcount] in *. rewrite Ep, Em in D4. rewrite Ea, Em in D5. destruct b.
    + right. exists op. auto.
    + left. split; auto. rewrite D2. exact (rej_same _ _ _ _ _ _ P).
Qed.
Lemma order0_step c s s' : cfg_ok c -> new_ok (c_lat c) -> history next c s -> order (md s) = 0 -> Hop next c 1 s = Ok (tt, s') ->
  md s' = md s \/ (order (md s') = 1 /\ macc s' = bump (macc s) JUMP_BACK_TO_ORDER1 0).
Proof.
  intros C LK H O Q. destruct (Hop1_step c s s' C LK H Q) as (_ & [(A & B & D)|(op & p & d' & r & s1 & P & Ep & Ea & Em & e & b & D1 & D2 & D3 & D4 & D5)]).
  - left. auto.
  - cbn [md mprop macc s_mcount] in *. destruct (order0_only _ _ _ _ _ _ O P) as (-> & O' & ->). rewrite Ea, Em, O in D5. destruct b.
    + right. rewrite D2. auto.
    + left. exact D2.
Qed.
Lemma order0_ops c s : cfg_ok c -> new_ok (c_lat c) -> history next c s -> order (md s) = 0 -> forall k u,
  k <> 18%nat -> nth_error (ops next c) k = Some u -> exists s', u s = Ok (tt, s') /\ sil s s'.
Proof.
  intros C LK H O k u Hk Hu. pose proof (history_inv next c s C LK H) as HI.
  pose proof (ops_sem next c s C HI) as F.
  assert (G : forall l os, Forall2 (op_sem next c s) l os -> forall k, nth_error l k = Some u -> exists o, nth_error os k = Some o /\ op_sem next c s u o).
  { clear. induction 1 as [|a b l os H1 H2 IH]; intros [|k] Hk; cbn in Hk; try discriminate.
    - injection Hk as ->. exists b. split; auto.
    - exact (IH k Hk). }
  destruct (G _ _ F k Hu) as (o & Ho & S). destruct o as [op|]; cbn [op_sem] in S.
  - apply wp_ok in S as ([] & s' & Es & [Q|(p & d' & r & P & D)]).
    + exists s'. auto.
    + exfalso. destruct (order0_only _ _ _ _ _ _ O P) as (-> & _). unfold codes in Ho. clear - Ho Hk.
      do 18 (destruct k as [|k]; [cbn in Ho; discriminate|]). destruct k as [|k]; [congruence|]. cbn in Ho.
      destruct (c_gamma3 c); do 4 (destruct k as [|k]; [cbn in Ho; discriminate|]); destruct k; cbn in Ho; discriminate.
  - subst u. exists s. split; [reflexivity|apply sil_refl].
Qed.
Lemma count_engine c s n s' : cfg_ok c -> new_ok (c_lat c) -> history next c s -> Hop next c n s = Ok (tt, s') ->
  mcount s' = mcount s + Z.max n 0 /\ exists k, Z.max n 0 <= Z.of_nat k /\ mrng s' = outputs k (mrng s).
Proof.
  intros C LK H Q. destruct (Hop_ok next c n s C (history_inv next c s C LK H)) as (s2 & E2 & _ & _ & Hc).
  rewrite Q in E2. injection E2 as <-. split; auto. destruct (hops_adv c _ _ _ Q) as (k & L & Ek). exists k. split; [lia|auto].
Qed.
Lemma choice c (s : mst) : forall k,
  (k < length (ops next c))%nat -> (forall i, (i < k)%nat -> rltb (first_draw s) (SumPc c i) = false) ->
  rltb (first_draw s) (SumPc c k) = true ->
  Hop next c 1 s = then_count (nth k (ops next c) (ret tt)) (after_draw s).
Proof.
  intros k L H1 H2. unfold Hop. change (Z.to_nat 1) with 1%nat. cbn [hops]. unfold bind. rewrite hop1_eq.
  rewrite (dispatch_pick c (first_draw s) (ops next c) 0 k L H1 H2). destruct (then_count _ _) as [[[] s1]| |]; reflexivity.
Qed.
Lemma choice_none c (s : mst) : 
  (forall i, (i < length (ops next c))%nat -> rltb (first_draw s) (SumPc c i) = false) ->
  Hop next c 1 s = count_step (after_draw s).
Proof.
  intros H1. unfold Hop. change (Z.to_nat 1) with 1%nat. cbn [hops]. unfold bind. rewrite hop1_eq.
  rewrite (dispatch_none c (first_draw s) (ops next c) 0 H1). reflexivity.
Qed.
Lemma ops_length c : length (ops next c) = Z.to_nat (nupd c).
Proof. unfold ops, nupd. destruct (c_gamma3 c); reflexivity. Qed.
End Adv.

Section AdvR.
Context {E : Type} (next : E -> Z * E).
Lemma nupd_pos (c : @cfg NumR) : (0 < IZR (nupd c))%R.
Proof. apply IZR_lt. unfold nupd, NUpdates, MCUpdates. destruct (c_gamma3 c); lia. Qed.
Lemma SumPc_R (c : @cfg NumR) j : @SumPc NumR c j = (IZR (Z.of_nat j + 1) / IZR (nupd c))%R.
Proof.
  assert (E0 : @Pc NumR c 0 = (1 / IZR (nupd c))%R).
  { unfold Pc, nupd. destruct (c_gamma3 c); reflexivity. }
  assert (Nz : IZR (nupd c) <> 0%R) by (pose proof (nupd_pos c); lra).
  unfold SumPc. rewrite E0. induction j as [|j IH].
  - change (0 + 1 / IZR (nupd c) = IZR (Z.of_nat 0 + 1) / IZR (nupd c))%R. cbn [Z.of_nat Z.add]. field. auto.
  - change (Nat.iter (S (S j)) ?f ?x) with (f (Nat.iter (S j) f x)). cbv beta. rewrite IH. change (@radd NumR) with Rplus.
    rewrite Nat2Z.inj_succ. unfold Z.succ. rewrite !plus_IZR.
    match goal with |- ?a = ?b => change (@eq R a b) end. field. auto.
Qed.
(** in exact arithmetic the update of the interval that contains the draw runs *)
Lemma choice_R (c : @cfg NumR) (s : @mstate NumR E) (k : nat) : (k < length (ops next c))%nat ->
  (IZR (Z.of_nat k) / IZR (nupd c) <= first_draw next s < IZR (Z.of_nat k + 1) / IZR (nupd c))%R ->
  Hop next c 1 s = then_count (nth k (ops next c) (ret tt)) (after_draw next s).
Proof.
  intros L [H1 H2]. assert (Nz : (0 < / IZR (nupd c))%R) by (apply Rinv_0_lt_compat, nupd_pos).
  apply choice; auto.
  - intros i Hi. change (Rltb (first_draw next s) (@SumPc NumR c i) = false). apply Rltb_false. rewrite SumPc_R.
    apply Rle_trans with (2 := H1). apply Rmult_le_compat_r; [lra|]. apply IZR_le. lia.
  - change (Rltb (first_draw next s) (@SumPc NumR c k) = true). apply Rltb_spec. now rewrite SumPc_R.
Qed.
Lemma choice_ex (c : @cfg NumR) (s : @mstate NumR E) : exists k, (k < length (ops next c))%nat /\
  (IZR (Z.of_nat k) / IZR (nupd c) <= first_draw next s < IZR (Z.of_nat k + 1) / IZR (nupd c))%R.
Proof.
  assert (Np : (0 < IZR (nupd c))%R) by apply nupd_pos.
  set (y := (first_draw next s * IZR (nupd c))%R).
  destruct (urn_R_range (u32 (fst (next (mrng s))))) as [U1 U2]. fold (@first_draw NumR E next s) in U1, U2.
  destruct (base_Int_part y) as [B1 B2].
  assert (Y0 : (0 <= y)%R) by (apply Rmult_le_pos; lra).
  assert (Y1 : (y < IZR (nupd c))%R) by (unfold y; rewrite <- (Rmult_1_l (IZR (nupd c))) at 2; apply Rmult_lt_compat_r; lra).
  assert (I0 : 0 <= Int_part y). { assert (-1 < Int_part y); [|lia]. apply lt_IZR. lra. }
  assert (I1 : Int_part y < nupd c) by (apply lt_IZR; lra).
  exists (Z.to_nat (Int_part y)). split; [rewrite ops_length; lia|]. rewrite Z2Nat.id by auto.
  replace (first_draw next s) with (y / IZR (nupd c))%R by (unfold y; field; lra).
  assert (Nz : (0 < / IZR (nupd c))%R) by (apply Rinv_0_lt_compat; auto). split.
  - apply Rmult_le_compat_r; lra.
  - apply Rmult_lt_compat_r; auto. rewrite plus_IZR. lra.
Qed.
Lemma accepted_seen (f : Z -> Z -> R) op o : (forall a b, @bump NumR f op o a b = f a b) -> False.
Proof.
  intros H. specialize (H op o). unfold bump in H. rewrite !Z.eqb_refl in H. cbn [andb] in H.
  change (@radd NumR) with Rplus in H. change (@rofZ NumR) with IZR in H. lra.
Qed.
End AdvR.
