(** * Fresh, saved, reloaded and reset diagrams (C10, C21, C24, C25, C26) *)
From Coq Require Import ZArith List Bool Arith Lia.
From Verif Require Import Base Num NumF NumR RNG Momentum Complex Lattice Bundle IndexMap Weights Diagram Markov DiagramIO DiagramCheck History
  P_Bundle P_IndexMap P_WP P_Inv P_Hop P_Fix P_IO P_History P_Promises P_IOProm Prop_Markov.
Import ListNotations.
Open Scope Z_scope.

(** ** C21 *)
(** [structural] (P_Promises.v) is the conjunction of the conclusions of C01-C03, C05-C09,
    C11, C17, C18 and C50. *)
Theorem C21_fresh_diagram :
  forall (N : Num) (c : @cfg N) (d0 : diagram), cfg_ok c -> new_ok (c_lat c) -> constructed d0 ->
  exists d, BuildNew (c_tab c) (c_lat c) d0 = Ok d /\ structural c d /\
    order d = 1 /\ wm_ex d = false /\ gamma d = 0 /\ measG d = true.
Proof. exact @fresh_structural. Qed.
Print Assumptions C21_fresh_diagram.
Example C21_case : cfg_ok ex_cfg /\ new_ok (c_lat ex_cfg) /\ constructed (@diagram_new NumR).
Proof. split; [exact ex_cfg_ok|]. split; [exact ex_new_ok|]. repeat split. Qed.

(** ** C24: saving any reachable diagram and loading the result into a constructed object *)
Theorem C24_save_load :
  forall (N : Num) (E : Type) (next : E -> Z * E) (c : @cfg N) (s : mstate) (d0 : diagram),
  cfg_ok c -> new_ok (c_lat c) -> history next c s -> constructed d0 ->
  let d := md s in
  exists F d' fv fg fw, ToDict d = Ok F /\ FromDict4 (c_tab c) F d0 = Ok d' /\
    same_diagram fv fg fw d d' /\ structural c d' /\ gamma d' = 0 /\
    (order d <> 0 -> order d' = order d) /\ (order d = 0 -> order d' = 1) /\
    (gamma d = 0 -> (forall g, bexist (gB d) g = true -> g_W d' (fg g) = g_W d g) /\
                    (forall w, bexist (wB d) w = true -> w_W d' (fw w) = w_W d w)).
Proof. exact @history_save_load. Qed.
Print Assumptions C24_save_load.
Example C24_case : exists s, cfg_ok ex_cfg /\ new_ok (c_lat ex_cfg) /\ history ex_next ex_cfg s /\ mcount s = 1000 /\ constructed (@diagram_new NumR).
Proof.
  destruct ex_history as (s & H & Hc). exists s. split; [exact ex_cfg_ok|]. split; [exact ex_new_ok|].
  split; [exact H|]. split; [exact Hc|]. repeat split.
Qed.

(** ** Concrete runs in IEEE arithmetic
    A 4 x 4 lattice, beta = 1, 8 time slices, all table entries 1, orders up to 3. The engine
    reads its words from a list. *)
Definition fz : Z -> F64 := f_ofZ.
Definition one := @mkC NumF (fz 1) (fz 0).
Definition latF := mkLat [4; 4] 1.
Definition tabF : @tables NumF :=
  @mkTab NumF (@mkIM NumF (fz 1) 8 latF (-1) 2) (@mkIM NumF (fz 1) 8 latF 1 4)
    (fun _ => one) (fun _ => one) (fun _ => one) (fun _ => one) (fun _ => one) None None (fz 1).
Definition cfgF : @cfg NumF := mkCfg tabF latF (fz 1) 3 false [fz 1; fz 1; fz 1; fz 1] (fz 1) (fz 1) (fz 1) (fz 1).
Definition nextF (l : list Z) : Z * list Z := (hd 0 l, tl l).
(** a word that selects update number [k] of 19; a word whose uniform number is 0 *)
Definition opw (k : Z) : Z := ((2 * k + 1) * 2 ^ 31 / 19 - 2 ^ 31) mod 2 ^ 32.
Definition accw := 2 ^ 31.
Definition startF (w : list Z) (d : @diagram NumF) : @mstate NumF (list Z) := mkS d w 0 (fun _ _ => fz 0) (fun _ _ => fz 0).
(** run [n] steps from the fresh diagram and apply a test to the result *)
Definition runF (w : list Z) (n : Z) (test : @diagram NumF -> bool) : bool :=
  match BuildNew tabF latF diagram_new with
  | Ok d => match Hop nextF cfgF n (startF w d) with Ok (_, s) => test (md s) | _ => false end
  | _ => false
  end.
Lemma runF_history w n test : runF w n test = true ->
  exists s, history nextF cfgF s /\ test (md s) = true.
Proof.
  unfold runF. destruct (BuildNew tabF latF diagram_new) as [d| |] eqn:B; [|discriminate|discriminate].
  destruct (Hop nextF cfgF n (startF w d)) as [[[] s]| |] eqn:H; [|discriminate|discriminate].
  intros T. exists s. split; [|exact T].
  apply (hi_hop nextF cfgF (startF w d) s cfgF n); [|repeat split; cbn; lia|exact H].
  apply (hi_new nextF cfgF (startF w d) diagram_new); [repeat split|exact B].
Qed.

(** ** C10 is false: CreateWorm, AddDeltaInteraction, DeleteWorm, CreateWorm on the delta line,
    DeleteInteraction of the other line, DeleteWorm, JumpToOrder0, JumpBackToOrder1 leaves a
    delta line whose ends have two different random times, and the built-in check fails. *)
Definition w10 : list Z :=
  [opw 0; 0; 10100; 0] ++ [opw 7; 10500; 1; 0; 7] ++ [opw 1; accw] ++ [opw 0; 1; 10200; 0] ++
  [opw 6; 0] ++ [opw 1; accw] ++ [opw 17; accw] ++ [opw 18; 1; 1; 0; 0; 2 ^ 30; 1; 1].
Definition bad_delta (d : @diagram NumF) : bool :=
  existsb (fun w => bexist (wB d) w && w_delta d w && negb (reqb (v_T d (w_ver d w IN)) (v_T d (w_ver d w OUT)))) (seq 0 20)
  && match CheckDiagram tabF d with Ok true => false | _ => true end.
Theorem C10_delta_equal_times_refuted :
  exists (s : @mstate NumF (list Z)) (w : nat), history nextF cfgF s /\
    bexist (wB (md s)) w = true /\ w_delta (md s) w = true /\
    reqb (v_T (md s) (w_ver (md s) w IN)) (v_T (md s) (w_ver (md s) w OUT)) = false /\
    CheckDiagram (c_tab cfgF) (md s) <> Ok true.
Proof.
  destruct (runF_history w10 8 bad_delta) as (s & H & T); [vm_compute; reflexivity|].
  unfold bad_delta in T. apply andb_prop in T as [T T2]. apply existsb_exists in T as (w & _ & T).
  apply andb_prop in T as [T T3]. apply andb_prop in T as [T1 T4]. apply negb_true_iff in T3.
  exists s, w. split; [exact H|]. split; [exact T1|]. split; [exact T4|]. split; [exact T3|].
  change (c_tab cfgF) with tabF. destruct (CheckDiagram tabF (md s)) as [[]| |]; [discriminate T2| | |]; intros X; inversion X.
Qed.
Print Assumptions C10_delta_equal_times_refuted.

(** ** C25 is false: CreateWorm, DeleteWorm, then Reset: the W line at the vertices the deleted worm
    pointed to is marked again. *)
Definition w25 : list Z := [opw 0; 0; 10100; 0] ++ [opw 1; accw].
Definition bad_worm (d : @diagram NumF) : bool :=
  negb (wm_ex d) &&
  match DReset tabF d with
  | Ok d' => negb (wm_ex d') && existsb (fun w => bexist (wB d') w && w_worm d' w) (seq 0 20)
  | _ => false
  end.
Theorem C25_reset_worm_free_refuted :
  exists (s : @mstate NumF (list Z)) (d' : diagram) (w : nat), history nextF cfgF s /\
    wm_ex (md s) = false /\ DReset (c_tab cfgF) (md s) = Ok d' /\ wm_ex d' = false /\
    bexist (wB d') w = true /\ w_worm d' w = true.
Proof.
  destruct (runF_history w25 2 bad_worm) as (s & H & T); [vm_compute; reflexivity|].
  unfold bad_worm in T. apply andb_prop in T as [T T2]. apply negb_true_iff in T.
  change (c_tab cfgF) with tabF. destruct (DReset tabF (md s)) as [d'| |] eqn:DR; [|discriminate T2|discriminate T2].
  apply andb_prop in T2 as [T2 T3]. apply negb_true_iff in T2. apply existsb_exists in T3 as (w & _ & T3).
  apply andb_prop in T3 as [T3 T4]. exists s, d', w. auto 10.
Qed.
Print Assumptions C25_reset_worm_free_refuted.

(** What does hold: if neither remembered worm end still exists, or the worm exists, Reset keeps
    every structural promise and, away from order 0, the order. *)
Theorem C25_reset_when_ends_are_gone :
  forall (N : Num) (E : Type) (next : E -> Z * E) (c : @cfg N) (s : mstate),
  cfg_ok c -> new_ok (c_lat c) -> history next c s ->
  let d := md s in
  gamma d = 0 ->
  (wm_ex d = false -> bexist (vB d) (ira d) = false /\ bexist (vB d) (masha d) = false) ->
  exists d', DReset (c_tab c) d = Ok d' /\ structural c d' /\
    same_diagram (fun v => v) (fun g => g) (fun w => w) d d' /\ order d' = Z.max 1 (order d).
Proof. exact @history_reset. Qed.
Print Assumptions C25_reset_when_ends_are_gone.
Example C25_case : exists s : @mstate NumR Z, cfg_ok ex_cfg /\ new_ok (c_lat ex_cfg) /\ history ex_next ex_cfg s /\
  gamma (md s) = 0 /\ (wm_ex (md s) = false -> bexist (vB (md s)) (ira (md s)) = false /\ bexist (vB (md s)) (masha (md s)) = false).
Proof. exact (fresh_reset_case ex_next ex_cfg 7 ex_cfg_ok ex_new_ok). Qed.

(** ** C26 is false: JumpToOrder0, then Reset gives order 1; reloading does too. *)
Definition w26 : list Z := [opw 17; accw].
Definition bad_order (d : @diagram NumF) : bool :=
  (order d =? 0) &&
  match DReset tabF d with Ok d' => order d' =? 1 | _ => false end &&
  match ToDict d with
  | Ok F => match FromDict4 tabF F diagram_new with Ok d' => order d' =? 1 | _ => false end
  | _ => false end.
Theorem C26_reset_keeps_order_refuted :
  exists (s : @mstate NumF (list Z)) (d1 d2 : diagram) F, history nextF cfgF s /\
    order (md s) = 0 /\ DReset (c_tab cfgF) (md s) = Ok d1 /\ order d1 = 1 /\
    ToDict (md s) = Ok F /\ FromDict4 (c_tab cfgF) F diagram_new = Ok d2 /\ order d2 = 1.
Proof.
  destruct (runF_history w26 1 bad_order) as (s & H & T); [vm_compute; reflexivity|].
  unfold bad_order in T. apply andb_prop in T as [T T3]. apply andb_prop in T as [T1 T2].
  change (c_tab cfgF) with tabF.
  destruct (DReset tabF (md s)) as [d1| |] eqn:D1; [|discriminate T2|discriminate T2].
  destruct (ToDict (md s)) as [F| |] eqn:D2; [|discriminate T3|discriminate T3].
  destruct (FromDict4 tabF F diagram_new) as [d2| |] eqn:D3; [|discriminate T3|discriminate T3].
  apply Z.eqb_eq in T1, T2, T3. exists s, d1, d2, F. auto 10.
Qed.
Print Assumptions C26_reset_keeps_order_refuted.
