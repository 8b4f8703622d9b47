(** Every Monte Carlo step runs without ABORT or undefined behaviour and keeps the invariant *)
From Coq Require Import ZArith List Bool Arith Lia ZifyBool.
From Verif Require Import Base Num RNG Momentum Complex Lattice Bundle IndexMap Weights Diagram Markov
  P_Momentum P_RNG P_Bundle P_Lattice P_IndexMap P_WP P_Inv P_Rel P_Sem1 P_Sem2 P_Sem3 P_Pres1 P_Pres2 P_Pres3 P_Pres4.
Import ListNotations.
Open Scope Z_scope.

Section Hop.
Context {N : Num} {E : Type} (next : E -> Z * E).
Notation mst := (@mstate N E).

(** All proposals: threshold, diagram if accepted, diagram if rejected. *)
Inductive prop_rel (c : cfg) (d : diagram) : Z -> real -> diagram -> diagram -> Prop :=
| pr_create p d' r : create_rel c d p d' r -> prop_rel c d CREATE_WORM p d' r
| pr_delete p d' r : delete_rel c d p d' r -> prop_rel c d DELETE_WORM p d' r
| pr_moveG p d' r : moveG_rel c d p d' r -> prop_rel c d MOVE_WORM_G p d' r
| pr_moveW p d' r : moveW_rel c d p d' r -> prop_rel c d MOVE_WORM_W p d' r
| pr_reconnect p d' r : reconnect_rel c d p d' r -> prop_rel c d RECONNECT p d' r
| pr_add p d' r : add_rel false c d p d' r -> prop_rel c d ADD_INTERACTION p d' r
| pr_del p d' r : del_rel false c d p d' r -> prop_rel c d DEL_INTERACTION p d' r
| pr_add_d p d' r : add_rel true c d p d' r -> prop_rel c d ADD_DELTA_INTERACTION p d' r
| pr_del_d p d' r : del_rel true c d p d' r -> prop_rel c d DEL_DELTA_INTERACTION p d' r
| pr_tau p d' r : tau_rel c d p d' r -> prop_rel c d CHANGE_TAU_VERTEX p d' r
| pr_loop p d' r : loop_rel c d p d' r -> prop_rel c d CHANGE_R_LOOP p d' r
| pr_g2w p d' r : g2w_rel c d p d' r -> prop_rel c d CHANGE_MEASURE_G2W p d' r
| pr_w2g p d' r : w2g_rel c d p d' r -> prop_rel c d CHANGE_MEASURE_W2G p d' r
| pr_d2c p d' r : delta_rel false c d p d' r -> prop_rel c d CHANGE_DELTA2CONTINUS p d' r
| pr_c2d p d' r : delta_rel true c d p d' r -> prop_rel c d CHANGE_CONTINUS2DELTA p d' r
| pr_to0 p d' r : to0_rel c d p d' r -> prop_rel c d JUMP_TO_ORDER0 p d' r
| pr_to1 p d' r : to1_rel c d p d' r -> prop_rel c d JUMP_BACK_TO_ORDER1 p d' r
| pr_toGG p d' r : c_gamma3 c = true -> toGG_rel c d p d' r -> prop_rel c d JUMP_TO_GGGAMMAG p d' r
| pr_fromGG p d' r : c_gamma3 c = true -> fromGG_rel c d p d' r -> prop_rel c d JUMP_FROM_GGGAMMAG_TO_G p d' r
| pr_toWW p d' r : c_gamma3 c = true -> toWW_rel c d p d' r -> prop_rel c d JUMP_TO_WWGAMMAW p d' r
| pr_fromWW p d' r : c_gamma3 c = true -> fromWW_rel c d p d' r -> prop_rel c d JUMP_FROM_WWGAMMAW_TO_W p d' r.

Lemma sem_any c (R : diagram -> real -> diagram -> diagram -> Prop) op (m : M mst unit) s : (forall p d' r, R (md s) p d' r -> prop_rel c (md s) op p d' r) ->
  wp m s (Post next R op s) -> wp m s (Post next (fun d p d' r => prop_rel c d op p d' r) op s).
Proof.
  intros H W. eapply wp_mono; [exact W|]. intros a s' [P|(p & d' & r & P & D)]; [now left|right; exists p, d', r; auto].
Qed.
(** every operation of the list, with its code *)
Definition codes (c : cfg) : list (option Z) :=
  [Some CREATE_WORM; Some DELETE_WORM; Some MOVE_WORM_G; Some MOVE_WORM_W; Some RECONNECT;
   Some ADD_INTERACTION; Some DEL_INTERACTION; Some ADD_DELTA_INTERACTION; Some DEL_DELTA_INTERACTION;
   Some CHANGE_TAU_VERTEX; None; Some CHANGE_R_LOOP; Some CHANGE_MEASURE_G2W; Some CHANGE_MEASURE_W2G;
   Some CHANGE_DELTA2CONTINUS; Some CHANGE_CONTINUS2DELTA; None; Some JUMP_TO_ORDER0; Some JUMP_BACK_TO_ORDER1]
  ++ if c_gamma3 c then [Some JUMP_TO_GGGAMMAG; Some JUMP_FROM_GGGAMMAG_TO_G; Some JUMP_TO_WWGAMMAW; Some JUMP_FROM_WWGAMMAW_TO_W]
     else [].
Definition op_sem (c : cfg) (s : mst) (m : M mst unit) (o : option Z) : Prop :=
  match o with
  | None => m = ret tt
  | Some op => wp m s (Post next (fun d p d' r => prop_rel c d op p d' r) op s)
  end.
Lemma ops_sem c s : cfg_ok c -> Inv c (md s) -> Forall2 (op_sem c s) (ops next c) (codes c).
Proof.
  intros C HI. unfold ops, codes.
  assert (G : Forall2 (op_sem c s) (mc_ops next c)
   [Some CREATE_WORM; Some DELETE_WORM; Some MOVE_WORM_G; Some MOVE_WORM_W; Some RECONNECT;
   Some ADD_INTERACTION; Some DEL_INTERACTION; Some ADD_DELTA_INTERACTION; Some DEL_DELTA_INTERACTION;
   Some CHANGE_TAU_VERTEX; None; Some CHANGE_R_LOOP; Some CHANGE_MEASURE_G2W; Some CHANGE_MEASURE_W2G;
   Some CHANGE_DELTA2CONTINUS; Some CHANGE_CONTINUS2DELTA; None; Some JUMP_TO_ORDER0; Some JUMP_BACK_TO_ORDER1]).
  { repeat apply Forall2_cons; try apply Forall2_nil; try reflexivity.
    - exact (sem_any c _ _ _ s (fun p d' r => pr_create c (md s) p d' r) (CreateWorm_sem next c s C HI)).
    - exact (sem_any c _ _ _ s (fun p d' r => pr_delete c (md s) p d' r) (DeleteWorm_sem next c s C HI)).
    - exact (sem_any c _ _ _ s (fun p d' r => pr_moveG c (md s) p d' r) (MoveWormOnG_sem next c s C HI)).
    - exact (sem_any c _ _ _ s (fun p d' r => pr_moveW c (md s) p d' r) (MoveWormOnW_sem next c s C HI)).
    - exact (sem_any c _ _ _ s (fun p d' r => pr_reconnect c (md s) p d' r) (Reconnect_sem next c s C HI)).
    - exact (sem_any c _ _ _ s (fun p d' r => pr_add c (md s) p d' r) (Add_sem next false c s C HI)).
    - exact (sem_any c _ _ _ s (fun p d' r => pr_del c (md s) p d' r) (Del_sem next false c s C HI)).
    - exact (sem_any c _ _ _ s (fun p d' r => pr_add_d c (md s) p d' r) (Add_sem next true c s C HI)).
    - exact (sem_any c _ _ _ s (fun p d' r => pr_del_d c (md s) p d' r) (Del_sem next true c s C HI)).
    - exact (sem_any c _ _ _ s (fun p d' r => pr_tau c (md s) p d' r) (ChangeTau_sem next c s C HI)).
    - exact (sem_any c _ _ _ s (fun p d' r => pr_loop c (md s) p d' r) (ChangeRLoop_sem next c s C HI)).
    - exact (sem_any c _ _ _ s (fun p d' r => pr_g2w c (md s) p d' r) (ChangeG2W_sem next c s C HI)).
    - exact (sem_any c _ _ _ s (fun p d' r => pr_w2g c (md s) p d' r) (ChangeW2G_sem next c s C HI)).
    - exact (sem_any c _ _ _ s (fun p d' r => pr_d2c c (md s) p d' r) (ChangeDelta_sem next false c s C HI)).
    - exact (sem_any c _ _ _ s (fun p d' r => pr_c2d c (md s) p d' r) (ChangeDelta_sem next true c s C HI)).
    - exact (sem_any c _ _ _ s (fun p d' r => pr_to0 c (md s) p d' r) (JumpToOrder0_sem next c s C HI)).
    - exact (sem_any c _ _ _ s (fun p d' r => pr_to1 c (md s) p d' r) (JumpBackToOrder1_sem next c s C HI)).
 }
  destruct (c_gamma3 c) eqn:G3; [|now rewrite app_nil_r].
  apply Forall2_app; auto. repeat apply Forall2_cons; try apply Forall2_nil.
  - exact (sem_any c _ _ _ s (fun p d' r => pr_toGG c (md s) p d' r G3) (JumpToGG_sem next c s C HI G3)).
  - exact (sem_any c _ _ _ s (fun p d' r => pr_fromGG c (md s) p d' r G3) (JumpFromGG_sem next c s C HI)).
  - exact (sem_any c _ _ _ s (fun p d' r => pr_toWW c (md s) p d' r G3) (JumpToWW_sem next c s C HI G3)).
  - exact (sem_any c _ _ _ s (fun p d' r => pr_fromWW c (md s) p d' r G3) (JumpFromWW_sem next c s C HI)).
Qed.

Lemma prop_pres c d op p d' r : cfg_ok c -> Inv c d -> prop_rel c d op p d' r -> Inv c d' /\ Inv c r.
Proof.
  intros C HI H.
  assert (Rej : forall r', r' = d -> Inv c r') by (intros r' ->; exact HI).
  destruct H as [p d' r H|p d' r H|p d' r H|p d' r H|p d' r H|p d' r H|p d' r H|p d' r H|p d' r H|p d' r H|p d' r H|p d' r H|p d' r H|p d' r H|p d' r H|p d' r H|p d' r H|p d' r G3 H|p d' r G3 H|p d' r G3 H|p d' r G3 H].
  - split; [exact (create_pres c d p d' r C HI H)|apply Rej; destruct H; reflexivity].
  - split; [exact (delete_pres c d p d' r C HI H)|apply Rej; destruct H; reflexivity].
  - split; [exact (moveG_pres c d p d' r C HI H)|apply Rej; destruct H; reflexivity].
  - split; [exact (moveW_pres c d p d' r C HI H)|apply Rej; destruct H; reflexivity].
  - split; [exact (reconnect_pres c d p d' r C HI H)|apply Rej; destruct H; reflexivity].
  - split; [exact (add_pres false c d p d' r C HI H)|apply Rej; destruct H; reflexivity].
  - split; [exact (del_pres false c d p d' r C HI H)|apply Rej; destruct H; reflexivity].
  - split; [exact (add_pres true c d p d' r C HI H)|apply Rej; destruct H; reflexivity].
  - split; [exact (del_pres true c d p d' r C HI H)|apply Rej; destruct H; reflexivity].
  - split; [exact (tau_pres c d p d' r C HI H)|apply Rej; destruct H; reflexivity].
  - split; [exact (loop_pres c d p d' r C HI H)|apply Rej; destruct H; reflexivity].
  - split; [exact (g2w_pres c d p d' r C HI H)|apply Rej; destruct H; reflexivity].
  - split; [exact (w2g_pres c d p d' r C HI H)|apply Rej; destruct H; reflexivity].
  - split; [exact (delta_pres false c d p d' r C HI H)|apply Rej; destruct H; reflexivity].
  - split; [exact (delta_pres true c d p d' r C HI H)|apply Rej; destruct H; reflexivity].
  - split; [exact (to0_pres c d p d' r C HI H)|apply Rej; destruct H; reflexivity].
  - split; [exact (to1_pres c d p d' r C HI H)|apply Rej; destruct H; reflexivity].
  - exact (toGG_pres c d p d' r C HI H).
  - split; [exact (fromGG_pres c d p d' r C HI H)|apply Rej; destruct H; reflexivity].
  - exact (toWW_pres c d p d' r C HI H).
  - split; [exact (fromWW_pres c d p d' r C HI H)|apply Rej; destruct H; reflexivity].
Qed.

(** ** One step *)
Definition accepts (p : real) : Prop :=
  rleb (rofZ 1) p = true \/ exists x, 0 <= x < 2^32 /\ rltb (urn_of x) p = true.
Definition rejects (p : real) : Prop :=
  rleb (rofZ 1) p = false /\ exists x, 0 <= x < 2^32 /\ rltb (urn_of x) p = false.
Inductive hstep (c : cfg) (d : diagram) : diagram -> Prop :=
| h_same : hstep c d d
| h_rej op p d' r : prop_rel c d op p d' r -> rejects p -> hstep c d r
| h_acc op p d' r : prop_rel c d op p d' r -> accepts p -> hstep c d d'.
Lemma decided_hstep c s s' op p d' r : prop_rel c (md s) op p d' r -> decided next s s' op p d' r -> hstep c (md s) (md s').
Proof.
  intros P (e & b & D & Em & _). rewrite Em. destruct (rleb (rofZ 1) p) eqn:EP.
  - destruct D as [-> _]. eapply h_acc; eauto. left. auto.
  - destruct D as [-> _]. destruct (rltb (urn_of (u32 (fst (next e)))) p) eqn:EL.
    + eapply h_acc; eauto. right. exists (u32 (fst (next e))). split; auto. apply u32_range.
    + eapply h_rej; eauto. split; auto. exists (u32 (fst (next e))). split; auto. apply u32_range.
Qed.
Lemma hstep_pres c d d' : cfg_ok c -> Inv c d -> hstep c d d' -> Inv c d'.
Proof.
  intros C HI H. destruct H as [|op p d' r H _|op p d' r H _]; [exact HI| |].
  - exact (proj2 (prop_pres c d op p d' r C HI H)).
  - exact (proj1 (prop_pres c d op p d' r C HI H)).
Qed.

Lemma dispatch_wp c x (s0 s : mst) : forall l o, Forall2 (op_sem c s) l o -> forall j (Q : unit -> mst -> Prop),
  (Q tt s) -> (forall s', sil s s' -> Q tt s') ->
  (forall op p d' r s', prop_rel c (md s) op p d' r -> decided next s s' op p d' r -> Q tt s') ->
  wp (dispatch c x j l) s Q.
Proof.
  induction 1 as [|m o l os H1 H2 IH]; intros j Q Q0 Q1 Q2.
  - apply wp_ret, Q0.
  - cbn [dispatch]. destruct (rltb x (SumPc c j)).
    + destruct o as [op|]; cbn [op_sem] in H1.
      * eapply wp_mono; [exact H1|]. intros [] s' [P|(p & d' & r & P & D)]; eauto.
      * subst m. apply wp_ret, Q0.
    + apply IH; auto.
Qed.

Lemma hop1_wp c (s : mst) : cfg_ok c -> Inv c (md s) ->
  wp (hop1 next c) s (fun _ s' => hstep c (md s) (md s') /\ Inv c (md s') /\ mcount s' = mcount s + 1).
Proof.
  intros C HI. unfold hop1. apply wp_bind, wp_urn. intros x s1 Hx (Em & Ec & Ep & Ea).
  apply wp_bind. assert (HI1 : Inv c (md s1)) by now rewrite Em.
  assert (G : forall s2, hstep c (md s) (md s2) -> mcount s2 = mcount s ->
     wp (modify (fun s0 : mst => s_mcount s0 (mcount s0 + 1))) s2
       (fun _ s' => hstep c (md s) (md s') /\ Inv c (md s') /\ mcount s' = mcount s + 1)).
  { intros s2 Hs Hc. apply wp_modify. cbn [md mcount s_mcount]. split; [exact Hs|]. split; [exact (hstep_pres c _ _ C HI Hs)|clear - Hc; lia]. }
  eapply dispatch_wp with (1 := s) (2 := ops_sem c s1 C HI1).
  - apply G; [rewrite Em; constructor|congruence].
  - intros s2 (Em2 & Ec2 & _). apply G; [rewrite Em2, Em; constructor|congruence].
  - intros op p d' r s2 P D. apply G.
    + rewrite <- Em. eapply decided_hstep; eauto.
    + destruct D as (e & b & _ & _ & Ec2 & _). congruence.
Qed.

Inductive hsteps (c : cfg) : nat -> diagram -> diagram -> Prop :=
| hs_O d : hsteps c 0 d d
| hs_S n d1 d2 d3 : hstep c d1 d2 -> hsteps c n d2 d3 -> hsteps c (S n) d1 d3.

Lemma hops_wp c : cfg_ok c -> forall n (s : mst), Inv c (md s) ->
  wp (hops next c n) s (fun _ s' => hsteps c n (md s) (md s') /\ Inv c (md s') /\ mcount s' = mcount s + Z.of_nat n).
Proof.
  intros C. induction n as [|n IH]; intros s HI; cbn [hops].
  - apply wp_ret. split; [constructor|]. split; [auto|lia].
  - apply wp_bind. eapply wp_mono; [apply hop1_wp; auto|]. intros [] s1 (H1 & H2 & H3).
    eapply wp_mono; [apply IH; auto|]. cbv beta. intros [] s2 (H4 & H5 & H6). split; [econstructor; eauto|]. split; [auto|lia].
Qed.

Theorem Hop_ok c n (s : mst) : cfg_ok c -> Inv c (md s) ->
  exists s', Hop next c n s = Ok (tt, s') /\ hsteps c (Z.to_nat n) (md s) (md s') /\ Inv c (md s')
    /\ mcount s' = mcount s + Z.max n 0.
Proof.
  intros C HI. destruct (wp_ok _ _ _ (hops_wp c C (Z.to_nat n) s HI)) as ([] & s' & E1 & H1 & H2 & H3).
  exists s'. repeat (split; auto). lia.
Qed.
End Hop.
