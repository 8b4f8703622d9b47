(** * Slot numbers, irreducibility and restarts of the walk (C99, C100, C101) *)
From Coq Require Import ZArith List Bool Lia Reals Lra.
From Verif Require Import Base Num NumR RNG Complex Lattice Bundle Weights Diagram Markov DiagramIO History
  P_Bundle P_Inv P_Sem1 P_IO P_History P_IOProm P_Hop P_Weight Target Alike Walks P_Undo P_Reverse P_Trans2 P_Trans3 Prop_Markov Prop_Weight Prop_Check Prop_Reverse.
Import ListNotations.
Open Scope Z_scope.

(** C99. If [a] and [b] were both reached by single steps from one diagram, then [b] can be reached
    from [a]: [n + m] further steps can lead to a diagram equal to [b] up to slot numbers. The walk
    to [a] must leave no diagram with a delta line between unequal times (C79_without_equal_times_refuted). *)
Theorem C99_irreducible :
  forall (c c' : @cfg NumR) (E1 E2 : Type) (next1 : E1 -> Z * E1) (next2 : E2 -> Z * E2) n m
    (s a : @mstate NumR E1) (t b : @mstate NumR E2),
  cfg_ok c -> new_ok (c_lat c) -> regular_history next1 c s -> retuned c c' -> positive c' -> md t = md s ->
  steps next1 c' equal_delta_times n s a -> steps next2 c' (fun _ => True) m t b ->
  can_reach c' (n + m) (md a) (fun d => exists fv fg fw, alike fv fg fw (md b) d).
Proof. exact irreducible. Qed.
Print Assumptions C99_irreducible.

(** what can be reached is reached by some engine *)
Theorem C99_reach_occurs : forall (c : @cfg NumR) n d (P : @diagram NumR -> Prop),
  can_reach c n d P -> exists d', walk_occurs c n d d' /\ P d'.
Proof. exact can_occurs. Qed.
Print Assumptions C99_reach_occurs.

Lemma ex_steps n : forall s, Inv ex_cfg (md s) -> exists s', steps ex_next ex_cfg (fun _ => True) n s s'.
Proof.
  induction n as [|n IH]; intros s HI; [exists s; constructor|].
  destruct (Hop_ok ex_next ex_cfg 1 s ex_cfg_ok HI) as (s1 & H & _ & HI1 & _). destruct (IH s1 HI1) as (s2 & H2).
  exists s2. now apply (st_S ex_next ex_cfg _ n s s1 s2).
Qed.
Lemma ex_retuned : retuned ex_cfg ex_cfg. Proof. repeat split; cbn; lia. Qed.
Lemma ex_positive : positive ex_cfg.
Proof. split; [repeat constructor; lra|]. cbn. repeat split; try lra. unfold sites. apply (IZR_lt 0). reflexivity. Qed.
Example C99_case : exists s a b, cfg_ok ex_cfg /\ new_ok (c_lat ex_cfg) /\ regular_history ex_next ex_cfg s /\ retuned ex_cfg ex_cfg /\ positive ex_cfg /\
  steps ex_next ex_cfg equal_delta_times 1 s a /\ steps ex_next ex_cfg (fun _ => True) 1000 s b.
Proof.
  destruct C79_case as (s & s' & H1 & H2 & H3 & H4 & H5 & H6 & H7). destruct (regular_w ex_next ex_cfg s H1 H2 H3) as (Hh & _).
  destruct (ex_steps 1000 s (P_History.history_inv ex_next ex_cfg s ex_cfg_ok ex_new_ok Hh)) as (b & Hb). exists s, s', b.
  repeat (split; [assumption|]). split; [|exact Hb]. apply (st_S ex_next ex_cfg _ 0 s s' s'); [exact H6|exact H7|constructor].
Qed.

(** C100. Slot numbers have no influence on what can happen: if two runs are at diagrams equal up to
    slot numbers, every walk of one is possible for the other and ends at the same diagram up to slot
    numbers. No hypothesis on delta lines. *)
Theorem C100_slot_numbers_irrelevant :
  forall (c c' : @cfg NumR) (E1 E2 : Type) (next1 : E1 -> Z * E1) (next2 : E2 -> Z * E2) n
    (s s' : @mstate NumR E1) (t : @mstate NumR E2) fv fg fw,
  cfg_ok c -> new_ok (c_lat c) -> regular_history next1 c s -> regular_history next2 c t -> retuned c c' -> positive c' ->
  alike fv fg fw (md s) (md t) -> steps next1 c' (fun _ => True) n s s' ->
  can_reach c' n (md t) (fun d => exists fv fg fw, alike fv fg fw (md s') d).
Proof. exact slots_free. Qed.
Print Assumptions C100_slot_numbers_irrelevant.

(** equality up to slot numbers is an equivalence on the diagrams of runs *)
Theorem C100_equivalence : forall (c : @cfg NumR) (E : Type) (next : E -> Z * E) (s t u : @mstate NumR E),
  cfg_ok c -> new_ok (c_lat c) -> regular_history next c s ->
  (exists fv fg fw, alike fv fg fw (md s) (md s)) /\
  ((exists fv fg fw, alike fv fg fw (md s) (md t)) -> exists fv fg fw, alike fv fg fw (md t) (md s)) /\
  ((exists fv fg fw, alike fv fg fw (md s) (md t)) -> (exists fv fg fw, alike fv fg fw (md t) (md u)) ->
    exists fv fg fw, alike fv fg fw (md s) (md u)).
Proof. exact alike_equivalence. Qed.
Print Assumptions C100_equivalence.

(** C101. A restart does not change what the walk can do: the diagram loaded from the file of a saved
    diagram (Order at least 1, no vertex correction) is the saved one up to slot numbers, every walk
    the run could have made without the restart is possible after it, and conversely. *)
Theorem C101_restart_transparent :
  forall (c c' : @cfg NumR) (E : Type) (next : E -> Z * E) (s t u : @mstate NumR E) F d0 n,
  cfg_ok c -> new_ok (c_lat c) -> regular_history next c s -> gamma (md s) = 0 -> order (md s) <> 0 ->
  ToDict (md s) = Ok F -> constructed d0 -> FromDict4 (c_tab c) F d0 = Ok (md t) -> retuned c c' -> positive c' ->
  (steps next c' (fun _ => True) n s u -> can_reach c' n (md t) (fun d => exists fv fg fw, alike fv fg fw (md u) d)) /\
  (steps next c' (fun _ => True) n t u -> can_reach c' n (md s) (fun d => exists fv fg fw, alike fv fg fw (md u) d)).
Proof. exact @restart_free. Qed.
Print Assumptions C101_restart_transparent.

Theorem C101_reload_same : forall (c : @cfg NumR) (E : Type) (next : E -> Z * E) (s t : @mstate NumR E) F d0,
  cfg_ok c -> new_ok (c_lat c) -> regular_history next c s -> gamma (md s) = 0 -> order (md s) <> 0 ->
  ToDict (md s) = Ok F -> constructed d0 -> FromDict4 (c_tab c) F d0 = Ok (md t) ->
  exists fv fg fw, alike fv fg fw (md s) (md t).
Proof. exact @reload_alike. Qed.
Print Assumptions C101_reload_same.

Lemma ex_fresh : exists s, regular_history ex_next ex_cfg s /\ order (md s) = 1 /\ gamma (md s) = 0.
Proof.
  destruct (BuildNew_inv ex_cfg (@diagram_new NumR) ex_cfg_ok (proj1 ex_new_ok) (proj2 ex_new_ok)) as (co & d1 & d & _ & B & Y & F & HI & Ga & _).
  { repeat split. }
  set (s0 := mkS d 7 0 (fun _ _ => 0%R) (fun _ _ => 0%R)). exists s0. split; [|split].
  - apply (rh_new ex_next ex_cfg s0 diagram_new); [repeat split|exact B| |]; change (md s0) with d; intros x Lx; apply live_exist in Lx.
    + pose proof (i_sG _ _ HI x Lx) as Q. rewrite (f_gg0 HI x Lx Ga) in Q. exact (ex_G_nz _ _ _ _ _ _ _ _ _ Q).
    + pose proof (i_sW _ _ HI x Lx) as Q. rewrite (f_ww0 HI x Lx Ga) in Q. exact (ex_W_nz _ _ _ _ _ _ _ _ _ _ _ Q).
  - change (order d = 1). destruct F as (F1 & _). rewrite F1, (y_aw _ _ Y). reflexivity.
  - exact Ga.
Qed.
(** the hypotheses of C100 and C101: a fresh diagram, its reloaded copy and a walk of 1000 steps *)
Example C101_case : exists s t u F, cfg_ok ex_cfg /\ new_ok (c_lat ex_cfg) /\ regular_history ex_next ex_cfg s /\ gamma (md s) = 0 /\ order (md s) <> 0 /\
  ToDict (md s) = Ok F /\ constructed (@diagram_new NumR) /\ FromDict4 (c_tab ex_cfg) F diagram_new = Ok (md t) /\ retuned ex_cfg ex_cfg /\ positive ex_cfg /\
  regular_history ex_next ex_cfg t /\ (exists fv fg fw, alike fv fg fw (md s) (md t)) /\ steps ex_next ex_cfg (fun _ => True) 1000 s u.
Proof.
  destruct ex_fresh as (s & H3 & O1 & Ga). pose proof ex_cfg_ok as H1. pose proof ex_new_ok as H2.
  destruct (regular_w ex_next ex_cfg s H1 H2 H3) as (Hh & _).
  pose proof (P_History.history_inv ex_next ex_cfg s ex_cfg_ok ex_new_ok Hh) as HI.
  assert (K : constructed (@diagram_new NumR)) by (repeat split).
  destruct (save_load ex_cfg (md s) diagram_new H1 HI K) as (F & d' & _ & _ & _ & T & L & _).
  destruct (ex_steps 1000 s HI) as (u & Hu).
  set (t := mkS d' (mrng s) (mcount s) (mprop s) (macc s)).
  assert (Ho : order (md s) <> 0) by (rewrite O1; discriminate).
  exists s, t, u, F. repeat (split; [assumption|]). split; [exact ex_retuned|]. split; [exact ex_positive|].
  split; [exact (rh_load ex_next ex_cfg t s diagram_new F H3 Ga T K L)|]. split; [|exact Hu].
  exact (C101_reload_same ex_cfg Z ex_next s t F diagram_new H1 H2 H3 Ga Ho T K L).
Qed.
