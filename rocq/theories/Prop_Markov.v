(** * Promises kept by every simulation history (C01-C09, C11, C17, C18, C50)

    [history next c s]: [s] is reached from a freshly built (or saved and reloaded) diagram by
    any sequence of Hop calls (History.v). Existence of an object is the code's own
    [Bundle::Exist] ([bexist]). [g_ver g IN] is the vertex line [g] leaves and [g_ver g OUT] the
    vertex it enters; [v_G v IN] is the line entering [v], [v_G v OUT] the line leaving it.

    The hypothesis [cfg_ok c] (P_Inv.v) lists what the program must be configured with:
    order 1..9, a reweighting factor for every order, positive lattice extents, tables
    for that lattice with 2 and 4 spin components whose size fits 32 bits, and the
    time-bin condition, which is proved from beta > 0 in exact arithmetic ([setup_exact],
    used by the Examples). [new_ok]: the lattice is one BuildNew supports. *)
From Coq Require Import ZArith List Bool Arith Lia Reals Lra.
From Verif Require Import Base Num NumR RNG Momentum Complex Lattice Bundle IndexMap Weights Diagram Markov DiagramIO History
  P_Momentum P_Bundle P_IndexMap P_WP P_Inv P_Sem1 P_Hop P_Fix P_IO P_History P_Promises.
Import ListNotations.
Open Scope Z_scope.

(** A concrete setup and history used to show that the hypotheses can be met: a 4 x 4 lattice
    with two sublattices, 64 time slices, beta = 2, order up to 3, with Gamma3 updates. *)
Definition ex_lat : lattice := mkLat [4; 4] 2.
Definition ex_tab : @tables NumR :=
  @mkTab NumR (@mkIM NumR 2%R 64 ex_lat (-1) 2) (@mkIM NumR 2%R 64 ex_lat 1 4)
    (fun i => @mkC NumR (IZR i + 1)%R 1%R) (fun _ => @mkC NumR 1%R 0%R) (fun i => @mkC NumR (IZR i - 3)%R 1%R)
    (fun _ => @mkC NumR 2%R 1%R) (fun _ => @mkC NumR 1%R 0%R)
    (Some (fun _ _ _ _ _ _ _ _ _ => @mkC NumR 1%R 1%R)) (Some (fun _ _ _ _ _ _ _ _ _ => @mkC NumR 1%R 2%R)) 1%R.
Definition ex_cfg : @cfg NumR := mkCfg ex_tab ex_lat 2%R 3 true [1%R; 2%R; 3%R; 4%R] 1%R 2%R 1%R 1%R.
Definition ex_next (x : Z) : Z * Z := let y := (1664525 * x + 1013904223) mod 2^32 in (y, y).
Lemma ex_cfg_ok : cfg_ok ex_cfg.
Proof.
  apply setup_exact; cbn; try lia; try discriminate; try lra; try reflexivity; auto.
  - repeat constructor; lia.
  - split; discriminate.
Qed.
Lemma ex_new_ok : new_ok (c_lat ex_cfg).
Proof. split; cbn; auto. lia. Qed.
Lemma ex_history : exists s, history ex_next ex_cfg s /\ mcount s = 1000.
Proof.
  destruct (BuildNew_inv ex_cfg (@diagram_new NumR) ex_cfg_ok (proj1 ex_new_ok) (proj2 ex_new_ok)) as (co & d1 & d & _ & B & _ & _ & HI & _).
  { repeat split. }
  set (s0 := mkS d 7 0 (fun _ _ => 0%R) (fun _ _ => 0%R)).
  destruct (Hop_ok ex_next ex_cfg 1000 s0 ex_cfg_ok HI) as (s & H & _ & _ & Hc).
  exists s. split; [|exact Hc]. apply (hi_hop ex_next ex_cfg s0 s ex_cfg 1000); [|repeat split; cbn; lia|exact H].
  apply (hi_new ex_next ex_cfg s0 diagram_new); [repeat split|exact B].
Qed.

Section Results.
Context {N : Num} {E : Type}.
Variable next : E -> Z * E.
Variable c : @cfg N.
Variable s : @mstate N E.
Hypothesis Setup : cfg_ok c.
Hypothesis New : new_ok (c_lat c).
Hypothesis Hist : history next c s.
Let d := md s.
Let HI : Inv c d := history_inv next c s Setup New Hist.

Theorem C01_closed_graph :
  (forall g e, bexist (gB d) g = true -> bexist (vB d) (g_ver d g e) = true /\ v_G d (g_ver d g e) (inv e) = g) /\
  (forall w e, bexist (wB d) w = true ->
     bexist (vB d) (w_ver d w e) = true /\ v_W d (w_ver d w e) = w /\ v_D d (w_ver d w e) = e) /\
  (forall v e, bexist (vB d) v = true ->
     bexist (gB d) (v_G d v e) = true /\ (forall g, bexist (gB d) g = true -> (g_ver d g (inv e) = v <-> g = v_G d v e))) /\
  (forall v, bexist (vB d) v = true ->
     bexist (wB d) (v_W d v) = true /\
     (forall w e, bexist (wB d) w = true -> (w_ver d w e = v <-> w = v_W d v /\ e = v_D d v))).
Proof. exact (promise_C01 c d HI). Qed.

Theorem C02_momentum_conserved :
  forall v, bexist (vB d) v = true ->
    (g_K d (v_G d v IN) - g_K d (v_G d v OUT)
     - (match v_D d v with IN => w_K d (v_W d v) | OUT => - w_K d (v_W d v) end)
     + (if wm_ex d then (if Nat.eqb v (ira d) then - wm_K d else if Nat.eqb v (masha d) then wm_K d else 0) else 0)) mod 20001 = 0.
Proof. exact (promise_C02 c d HI). Qed.

Theorem C03_momentum_tables :
  (forall g, bexist (gB d) g = true -> -10000 <= g_K d g <= 10000) /\
  (forall w, bexist (wB d) w = true -> -10000 <= w_K d w <= 10000 /\ w_K d w <> 0) /\
  (forall k, -10000 <= k <= 10000 -> (ghash d (k + 10000) = true <-> exists g, bexist (gB d) g = true /\ g_K d g = k)) /\
  (forall k, 0 <= k <= 10000 -> (whash d k = true <-> exists w, bexist (wB d) w = true /\ Z.abs (w_K d w) = k)) /\
  (forall g g', bexist (gB d) g = true -> bexist (gB d) g' = true -> g_K d g = g_K d g' -> g = g') /\
  (forall w w', bexist (wB d) w = true -> bexist (wB d) w' = true -> Z.abs (w_K d w) = Z.abs (w_K d w') -> w = w').
Proof. exact (promise_C03 c d HI). Qed.

(** [Ok] excludes every ABORT, exception and undefined access the model represents. *)
Theorem C04_hop_never_fails :
  forall (c' : cfg) (n : Z), retuned c c' -> exists s', Hop next c' n s = Ok (tt, s').
Proof.
  intros c' n R. destruct (Hop_ok next c' n s (retuned_ok c c' Setup R) (proj1 (retuned_Inv c c' d R) HI)) as (s' & H & _). eauto.
Qed.

Theorem C05_counts :
  0 <= order d <= c_order c /\
  (order d <> 0 -> Z.of_nat (avail (wB d)) = order d /\ Z.of_nat (avail (gB d)) = 2 * order d /\ Z.of_nat (avail (vB d)) = 2 * order d) /\
  (order d = 0 -> avail (wB d) = 1%nat /\ avail (gB d) = 2%nat /\ avail (vB d) = 2%nat) /\
  (forall b, (b = gB d \/ b = wB d \/ b = vB d) ->
     (avail b <= 18)%nat /\ exists l, NoDup l /\ length l = avail b /\ forall x, In x l <-> bexist b x = true).
Proof. exact (promise_C05 c d HI Setup). Qed.

Theorem C06_spin_continuous :
  forall g, bexist (gB d) g = true -> v_S d (g_ver d g IN) OUT = v_S d (g_ver d g OUT) IN.
Proof. exact (promise_C06 c d HI). Qed.

Theorem C07_one_measuring_line :
  if measG d
  then bexist (gB d) (gmeas d) = true /\ (forall g, bexist (gB d) g = true -> (g_meas d g = true <-> g = gmeas d)) /\
       (forall w, bexist (wB d) w = true -> w_meas d w = false)
  else bexist (wB d) (wmeas d) = true /\ (forall w, bexist (wB d) w = true -> (w_meas d w = true <-> w = wmeas d)) /\
       (forall g, bexist (gB d) g = true -> g_meas d g = false).
Proof. exact (promise_C07 c d HI). Qed.

Theorem C08_worm :
  (wm_ex d = true ->
     order d <> 0 /\ bexist (vB d) (ira d) = true /\ bexist (vB d) (masha d) = true /\ ira d <> masha d /\
     w_ver d (v_W d (masha d)) OUT = masha d /\ (wm_ds d = 1 \/ wm_ds d = -1) /\
     forall w, bexist (wB d) w = true ->
       (w_worm d w = true <-> exists e, w_ver d w e = ira d \/ w_ver d w e = masha d)) /\
  (wm_ex d = false -> forall w, bexist (wB d) w = true -> w_worm d w = false).
Proof. exact (promise_C08 c d HI). Qed.

Theorem C09_vertex_correction :
  (gamma d = 0 \/ gamma d = 1 \/ gamma d = 2) /\
  (gamma d <> 0 -> order d <> 0 /\ c_gamma3 c = true) /\
  (gamma d = 1 -> exists g, bexist (gB d) g = true /\ g_meas d g = false /\ vin d = VG g IN /\ vout d = VG g OUT /\
      forall g', bexist (gB d) g' = true -> (g_gg d g' = true <-> g' = g)) /\
  (gamma d = 2 -> exists w, bexist (wB d) w = true /\ w_meas d w = false /\ w_delta d w = false /\
      vin d = VW w IN /\ vout d = VW w OUT /\
      forall w', bexist (wB d) w' = true -> (w_ww d w' = true <-> w' = w)) /\
  (gamma d <> 1 -> forall g, bexist (gB d) g = true -> g_gg d g = false) /\
  (gamma d <> 2 -> forall w, bexist (wB d) w = true -> w_ww d w = false).
Proof. exact (promise_C09 c d HI). Qed.

(** Holds for every arithmetic [N]: the stored value is the very result of evaluating the table. *)
Theorem C11_stored_weights :
  (forall g, bexist (gB d) g = true ->
     GWeight (c_tab c) (v_R d (g_ver d g IN)) (v_R d (g_ver d g OUT)) (v_T d (g_ver d g IN)) (v_T d (g_ver d g OUT))
       (v_S d (g_ver d g IN) OUT) (v_S d (g_ver d g OUT) IN) (g_meas d g) (g_gg d g) (uext d) = Ok (g_W d g)) /\
  (forall w, bexist (wB d) w = true ->
     WWeight (c_tab c) (v_R d (w_ver d w IN)) (v_R d (w_ver d w OUT)) (v_T d (w_ver d w IN)) (v_T d (w_ver d w OUT))
       (v_S d (w_ver d w IN)) (v_S d (w_ver d w OUT)) (w_worm d w) (w_meas d w) (w_delta d w) (w_ww d w) (uext d) = Ok (w_W d w)).
Proof. exact (promise_C11 c d HI). Qed.

(** [nxt]: the vertex the outgoing line of [v] enters; a loop is an orbit of it. *)
Theorem C17_loop_on_one_site :
  (forall g, bexist (gB d) g = true -> v_R d (g_ver d g IN) = v_R d (g_ver d g OUT)) /\
  (forall v k, bexist (vB d) v = true ->
     v_R d (Nat.iter k (fun x => g_ver d (v_G d x OUT) OUT) v) = v_R d v) /\
  (forall v, bexist (vB d) v = true ->
     0 <= sub (v_R d v) < SublatVol (c_lat c) /\ Forall2 (fun z x => 0 <= x < z) (Size (c_lat c)) (coord (v_R d v))).
Proof. exact (promise_C17 c d HI). Qed.

Theorem C18_no_tadpole :
  (forall g, bexist (gB d) g = true -> g_ver d g IN = g_ver d g OUT ->
     wm_ex d = true /\ (g_ver d g IN = ira d \/ g_ver d g IN = masha d)) /\
  (order d <= 1 -> wm_ex d = false -> exists v1 v2 g1 g2 w,
     v1 <> v2 /\ g1 <> g2 /\
     (forall v, bexist (vB d) v = true <-> v = v1 \/ v = v2) /\
     (forall g, bexist (gB d) g = true <-> g = g1 \/ g = g2) /\
     (forall x, bexist (wB d) x = true <-> x = w) /\
     g_ver d g1 IN = v1 /\ g_ver d g1 OUT = v2 /\ g_ver d g2 IN = v2 /\ g_ver d g2 OUT = v1 /\
     w_ver d w IN = v1 /\ w_ver d w OUT = v2).
Proof. exact (promise_C18 c d HI). Qed.

Theorem C50_spin_current :
  forall w, bexist (wB d) w = true ->
    let out v := spinZ (v_S d v OUT) in let into v := spinZ (v_S d v IN) in
    let a := w_ver d w IN in let b := w_ver d w OUT in
    (out a - into a) + (out b - into b) =
      (if wm_ex d then (if Nat.eqb (masha d) a || Nat.eqb (masha d) b then wm_ds d else 0)
                     - (if Nat.eqb (ira d) a || Nat.eqb (ira d) b then wm_ds d else 0) else 0).
Proof. exact (promise_C50 c d HI). Qed.
End Results.

Print Assumptions C01_closed_graph.
Print Assumptions C02_momentum_conserved.
Print Assumptions C03_momentum_tables.
Print Assumptions C04_hop_never_fails.
Print Assumptions C05_counts.
Print Assumptions C06_spin_continuous.
Print Assumptions C07_one_measuring_line.
Print Assumptions C08_worm.
Print Assumptions C09_vertex_correction.
Print Assumptions C11_stored_weights.
Print Assumptions C17_loop_on_one_site.
Print Assumptions C18_no_tadpole.
Print Assumptions C50_spin_current.

(** The hypotheses of all of the above are met by the concrete setup, after 1000 steps. *)
Example history_case : exists s, cfg_ok ex_cfg /\ new_ok (c_lat ex_cfg) /\ history ex_next ex_cfg s /\ mcount s = 1000.
Proof. destruct ex_history as (s & H & Hc). exists s. split; [exact ex_cfg_ok|]. split; [exact ex_new_ok|]. auto. Qed.
