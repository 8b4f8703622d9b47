(** The invariant along lives with annealing *)
From Coq Require Import ZArith List Bool Arith Lia Reals Lra.
From Verif Require Import Base Num NumR RNG Momentum Complex Lattice Bundle IndexMap Weights Diagram Markov DiagramIO History
  P_Bundle P_WP P_Inv P_Hop P_Fix P_IO P_History P_Promises P_IOProm Life.
Open Scope Z_scope.

Section L.
Context {N : Num} {E : Type} (next : E -> Z * E).
Lemma tau_later (c c' : cfg) t : hotter_not c c' -> tau_gen c t -> tau_gen c' t.
Proof.
  intros (_ & _ & _ & H1 & H2 & H3) [->|(b & x & O & Hx & ->)]; [left; reflexivity|right].
  exists b, x. split; [|auto]. exact (older_step _ _ _ O H1 H2 H3).
Qed.
Lemma Pre_later c c' d : hotter_not c c' -> Pre c d -> Pre c' d.
Proof.
  intros H P. pose proof H as (EL & EO & _). destruct P. constructor; auto; rewrite ?EL, ?EO; auto.
  intros v L. eapply tau_later; eauto.
Qed.
Lemma anneal_inv c c' d : hotter_not c c' -> cfg_ok c' -> Inv c d -> gamma d = 0 -> ends_settled d ->
  exists d', DReset (c_tab c') d = Ok d' /\ fixed d d' /\ Inv c' d'.
Proof.
  intros H C HI G S. apply (FixDiagram_inv c' d C (Pre_later c c' d H (Inv_Pre c d HI)) G).
  intros Ex. destruct (S Ex) as [A B]. rewrite <- !live_exist, A, B. split; discriminate.
Qed.
Lemma life_inv c s : life next c s -> cfg_ok c /\ Inv c (md s).
Proof.
  induction 1 as [c s d0 C L K B|c s s1 d0 F H [C IH] T K L|c s s' c' n H [C IH] R HH|c s c' s' H [C IH] A C' G S D].
  - split; [exact C|]. destruct (BuildNew_inv c d0 C (proj1 L) (proj2 L) K) as (co & d1 & d & _ & B' & _ & _ & HI & _). rewrite B in B'. injection B' as ->. exact HI.
  - split; [exact C|]. pose proof (Inv_Pre c _ IH) as P. rewrite (ToDict_spec c _ P) in T. injection T as <-.
    destruct (load_inv c (md s1) d0 C P K) as (d1 & d' & B' & _ & _ & HI & _). rewrite L in B'. injection B' as ->. exact HI.
  - split; [exact C|]. apply (retuned_Inv c c' _ R) in IH. pose proof (retuned_ok c c' C R) as C'.
    destruct (Hop_ok next c' n s C' IH) as (s2 & B & _ & HI). rewrite HH in B. injection B as <-. now apply (retuned_Inv c c' _ R).
  - split; [exact C'|]. destruct (anneal_inv c c' (md s) A C' IH G S) as (d' & E1 & _ & HI). rewrite D in E1. injection E1 as ->. exact HI.
Qed.
Theorem life_structural c s : life next c s -> structural c (md s).
Proof. intros H. destruct (life_inv c s H) as [C HI]. now apply structural_ok. Qed.
Theorem life_goes_on c s : life next c s ->
  (forall c' n, retuned c c' -> exists s', Hop next c' n s = Ok (tt, s') /\ life next c s') /\
  (forall c', hotter_not c c' -> cfg_ok c' -> gamma (md s) = 0 -> ends_settled (md s) ->
     exists d', DReset (c_tab c') (md s) = Ok d' /\ structural c' d' /\
       same_diagram (fun v => v) (fun g => g) (fun w => w) (md s) d' /\ order d' = Z.max 1 (order (md s))).
Proof.
  intros H. destruct (life_inv c s H) as [C HI]. split.
  - intros c' n R. pose proof (proj1 (retuned_Inv c c' _ R) HI) as HI2. pose proof (retuned_ok c c' C R) as C'.
    destruct (Hop_ok next c' n s C' HI2) as (s2 & B & _). exists s2. split; [exact B|]. eapply li_hop; eauto.
  - intros c' A C' G S. destruct (anneal_inv c c' (md s) A C' HI G S) as (d' & E1 & F & HI'). exists d'. split; [exact E1|].
    split; [now apply structural_ok|]. exact (fixed_same c c' (md s) d' HI F HI').
Qed.
Lemma history_life c s : cfg_ok c -> new_ok (c_lat c) -> history next c s -> life next c s.
Proof. intros C L. induction 1; [eapply li_new|eapply li_load|eapply li_hop]; eauto. Qed.
End L.
Lemma life_times {E} (next : E -> Z * E) (c : @cfg NumR) s : (0 < (c_beta c : R))%R -> life next c s ->
  forall v, bexist (vB (md s)) v = true -> (0 <= (v_T (md s) v : R) < c_beta c)%R.
Proof. intros B H v L. destruct (life_inv next c s H) as [C HI]. apply live_exist in L. apply (tau_R c); auto. exact (i_tau _ _ HI v L). Qed.
