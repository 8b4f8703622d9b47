(** Properties of a single Hop step: C15, C19, C20 *)
From Coq Require Import ZArith List Bool Reals.
From Verif Require Import Base Num NumR NumF RNG Diagram Markov DiagramIO History P_Inv P_WP P_Hop P_History P_Step Prop_Markov Prop_IO Prop_Float.
Import ListNotations.
Open Scope Z_scope.

(** C15. One step either counts an acceptance of some update, or leaves the diagram as it was; with
    no vertex correction present the scratch external point may have been overwritten. *)
Theorem C15_rejected_unchanged :
  forall (N : Num) (E : Type) (next : E -> Z * E) (c : cfg) (s s' : mstate),
  cfg_ok c -> new_ok (c_lat c) -> history next c s -> Hop next c 1 s = Ok (tt, s') ->
  (macc s' = macc s /\ (md s' = md s \/ (gamma (md s) = 0 /\ exists e, md s' = s_uext (md s) e))) \/
  (exists op, macc s' = bump (macc s) op (order (md s)) /\ mprop s' = bump (mprop s) op (order (md s))).
Proof. exact @rejected_same. Qed.
Print Assumptions C15_rejected_unchanged.

Example C15_case : exists s s', cfg_ok ex_cfg /\ new_ok (c_lat ex_cfg) /\ history ex_next ex_cfg s /\ mcount s = 1000 /\ Hop ex_next ex_cfg 1 s = Ok (tt, s').
Proof.
  destruct ex_history as (s & H & Hc). pose proof (history_inv ex_next ex_cfg s ex_cfg_ok ex_new_ok H) as HI.
  destruct (Hop_ok ex_next ex_cfg 1 s ex_cfg_ok HI) as (s' & E' & _). exists s, s'.
  split; [exact ex_cfg_ok|]. split; [exact ex_new_ok|]. auto.
Qed.

(** In exact arithmetic an acceptance always shows in the Accepted statistics. *)
Lemma unseen (E : Type) (next : E -> Z * E) (c : @cfg NumR) (s s' : @mstate NumR E) :
  cfg_ok c -> new_ok (c_lat c) -> history next c s -> Hop next c 1 s = Ok (tt, s') ->
  (forall op o, macc s' op o = macc s op o) ->
  md s' = md s \/ (gamma (md s) = 0 /\ exists e, md s' = s_uext (md s) e).
Proof.
  intros C LK H Q U. destruct (rejected_same next c s s' C LK H Q) as [[_ R]|(op & R & _)]; auto.
  exfalso. apply (accepted_seen (macc s) op (order (md s))). intros a b. rewrite <- R. apply U.
Qed.
Theorem C15_unchanged_unless_counted :
  forall (E : Type) (next : E -> Z * E) (c : @cfg NumR) (s s' : @mstate NumR E),
  cfg_ok c -> new_ok (c_lat c) -> history next c s -> Hop next c 1 s = Ok (tt, s') ->
  (forall op o, macc s' op o = macc s op o) ->
  md s' = md s \/ (gamma (md s) = 0 /\ exists e, md s' = s_uext (md s) e).
Proof. exact @unseen. Qed.
Print Assumptions C15_unchanged_unless_counted.

(** C19. The updates, by number; 10 and 16 are the disabled ones. *)
Definition updates {N : Num} {E : Type} (next : E -> Z * E) (c : cfg) : list (M mstate unit) :=
  [CreateWorm next c; DeleteWorm next c; MoveWormOnG next c; MoveWormOnW next c; Reconnect next c;
   AddInteraction next c; DeleteInteraction next c; AddDeltaInteraction next c; DeleteDeltaInteraction next c;
   ChangeTauOnVertex next c; ret tt; ChangeRLoop next c; ChangeMeasureFromGToW next c; ChangeMeasureFromWToG next c;
   ChangeDeltaToContinuous next c; ChangeContinuousToDelta next c; ret tt; JumpToOrder0 next c; JumpBackToOrder1 next c]
  ++ (if c_gamma3 c then
        [JumpToGGGammaG next c; JumpFromGGGammaGToG next c; JumpToWWGammaW next c; JumpFromWWGammaWToW next c]
      else []).
Lemma updates_ops {N : Num} {E : Type} (next : E -> Z * E) c : updates next c = ops next c.
Proof. unfold updates, ops. destruct (c_gamma3 c); reflexivity. Qed.

Theorem C19_step_count :
  forall (N : Num) (E : Type) (next : E -> Z * E) (c : cfg) (s : mstate) (n : Z) (s' : mstate),
  cfg_ok c -> new_ok (c_lat c) -> history next c s -> Hop next c n s = Ok (tt, s') ->
  mcount s' = mcount s + Z.max n 0 /\
  exists k, Z.max n 0 <= Z.of_nat k /\ mrng s' = outputs next k (mrng s).
Proof. exact @count_engine. Qed.
Print Assumptions C19_step_count.

Lemma step_choice (N : Num) (E : Type) (next : E -> Z * E) (c : cfg) (s : @mstate N E) :
  (forall k, (k < length (updates next c))%nat -> (forall i, (i < k)%nat -> rltb (first_draw next s) (SumPc c i) = false) ->
     rltb (first_draw next s) (SumPc c k) = true ->
     Hop next c 1 s = then_count (nth k (updates next c) (ret tt)) (after_draw next s)) /\
  ((forall i, (i < length (updates next c))%nat -> rltb (first_draw next s) (SumPc c i) = false) ->
     Hop next c 1 s = count_step (after_draw next s)).
Proof. rewrite updates_ops. split; [apply choice|apply choice_none]. Qed.
Theorem C19_step_choice :
  forall (N : Num) (E : Type) (next : E -> Z * E) (c : cfg) (s : mstate),
  (forall k, (k < length (updates next c))%nat -> (forall i, (i < k)%nat -> rltb (first_draw next s) (SumPc c i) = false) ->
     rltb (first_draw next s) (SumPc c k) = true ->
     Hop next c 1 s = then_count (nth k (updates next c) (ret tt)) (after_draw next s)) /\
  ((forall i, (i < length (updates next c))%nat -> rltb (first_draw next s) (SumPc c i) = false) ->
     Hop next c 1 s = count_step (after_draw next s)).
Proof. exact step_choice. Qed.
Print Assumptions C19_step_choice.

(** In exact arithmetic exactly one of the n updates runs: the one whose n-th of the unit interval
    contains the first number drawn. *)
Lemma step_uniform (E : Type) (next : E -> Z * E) (c : @cfg NumR) (s : @mstate NumR E) :
  let n := if c_gamma3 c then 23%R else 19%R in
  exists k, (k < length (updates next c))%nat /\ (INR k / n <= first_draw next s < (INR k + 1) / n)%R /\
    Hop next c 1 s = then_count (nth k (updates next c) (ret tt)) (after_draw next s).
Proof.
  intros n. rewrite updates_ops. assert (En : IZR (nupd c) = n) by (unfold nupd, n; destruct (c_gamma3 c); reflexivity).
  destruct (choice_ex next c s) as (k & L & B). exists k. split; auto.
  pose proof (choice_R next c s k L B) as Q. rewrite plus_IZR, <- INR_IZR_INZ, En in B. auto.
Qed.
Theorem C19_step_uniform :
  forall (E : Type) (next : E -> Z * E) (c : @cfg NumR) (s : @mstate NumR E),
  let n := if c_gamma3 c then 23%R else 19%R in
  exists k, (k < length (updates next c))%nat /\ (INR k / n <= first_draw next s < (INR k + 1) / n)%R /\
    Hop next c 1 s = then_count (nth k (updates next c) (ret tt)) (after_draw next s).
Proof. exact step_uniform. Qed.
Print Assumptions C19_step_uniform.

(** C20. At order 0 every update but number 18 leaves the diagram, the counter and the statistics
    alone; a whole step changes the diagram only by an accepted jump back. *)
Lemma order0 (N : Num) (E : Type) (next : E -> Z * E) (c : cfg) (s : @mstate N E) :
  cfg_ok c -> new_ok (c_lat c) -> history next c s -> order (md s) = 0 ->
  (forall k u, k <> 18%nat -> nth_error (updates next c) k = Some u ->
     exists s', u s = Ok (tt, s') /\ md s' = md s /\ mcount s' = mcount s /\ mprop s' = mprop s /\ macc s' = macc s) /\
  (forall s', Hop next c 1 s = Ok (tt, s') ->
     md s' = md s \/ (order (md s') = 1 /\ macc s' = bump (macc s) JUMP_BACK_TO_ORDER1 0)).
Proof.
  intros C LK H O. rewrite updates_ops. split.
  - exact (order0_ops next c s C LK H O).
  - intros s'. exact (order0_step next c s s' C LK H O).
Qed.
Theorem C20_order0 :
  forall (N : Num) (E : Type) (next : E -> Z * E) (c : cfg) (s : mstate),
  cfg_ok c -> new_ok (c_lat c) -> history next c s -> order (md s) = 0 ->
  (forall k u, k <> 18%nat -> nth_error (updates next c) k = Some u ->
     exists s', u s = Ok (tt, s') /\ md s' = md s /\ mcount s' = mcount s /\ mprop s' = mprop s /\ macc s' = macc s) /\
  (forall s', Hop next c 1 s = Ok (tt, s') ->
     md s' = md s \/ (order (md s') = 1 /\ macc s' = bump (macc s) JUMP_BACK_TO_ORDER1 0)).
Proof. exact order0. Qed.
Print Assumptions C20_order0.
(** a reachable order-0 state of the double-precision program *)
Example C20_case : exists s, cfg_ok cfgF /\ new_ok (c_lat cfgF) /\ history nextF cfgF s /\ order (md s) = 0.
Proof.
  destruct (runF_history w26 1 (fun d => order d =? 0)) as (s & H & T); [vm_compute; reflexivity|].
  exists s. split; [exact cfgF_ok|]. split; [exact newF_ok|]. split; [exact H|]. now apply Z.eqb_eq.
Qed.
