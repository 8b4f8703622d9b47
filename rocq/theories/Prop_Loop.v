(** * C14: the fermion-loop sign counts the closed G loops

    The loops are the cycles of the map that sends a vertex to the vertex its outgoing G line
    enters. The theorem holds for every number type whose signs multiply exactly;
    both exact and IEEE arithmetic do. *)
From Coq Require Import ZArith List Bool Arith Lia Reals Lra.
From Verif Require Import Base Num NumR NumF RNG Momentum Complex Lattice Bundle IndexMap Weights Diagram Markov DiagramIO History
  P_Bundle P_Inv P_Hop P_History P_Loop Prop_Markov Prop_IO.
Import ListNotations.
Open Scope Z_scope.

Theorem C14_loop_sign :
  forall (N : Num) (E : Type) (next : E -> Z * E) (c : @cfg N) (s : mstate),
  rmul (rofZ 1) (rofZ (-1)) = rofZ (-1) -> rmul (rofZ (-1)) (rofZ (-1)) = rofZ 1 ->
  cfg_ok c -> new_ok (c_lat c) -> history next c s ->
  let d := md s in
  exists loops : list (list nat),
    (** every existing vertex is in exactly one loop *)
    NoDup (concat loops) /\ (forall v, In v (concat loops) <-> bexist (vB d) v = true) /\
    (** in a loop each vertex is followed by the head of its outgoing G line, the last by the first *)
    (forall l, In l loops -> l <> [] /\ forall i, (i < length l)%nat ->
       g_ver d (v_G d (nth i l 0%nat) OUT) OUT = nth (S i mod length l) l 0%nat) /\
    (** the sign is (-1)^(number of loops - 1) *)
    sfl d = if Nat.odd (length loops) then rofZ 1 else rofZ (-1).
Proof. exact @history_loops. Qed.
Print Assumptions C14_loop_sign.

Example C14_case_exact : @rmul NumR (rofZ 1) (rofZ (-1)) = rofZ (-1) /\ @rmul NumR (rofZ (-1)) (rofZ (-1)) = rofZ 1 /\
  exists s, cfg_ok ex_cfg /\ new_ok (c_lat ex_cfg) /\ history ex_next ex_cfg s /\ mcount s = 1000.
Proof.
  split; [cbn; lra|]. split; [cbn; lra|]. destruct ex_history as (s & H & Hc). exists s. split; [exact ex_cfg_ok|]. split; [exact ex_new_ok|]. auto.
Qed.
Example C14_case_ieee : @rmul NumF (rofZ 1) (rofZ (-1)) = rofZ (-1) /\ @rmul NumF (rofZ (-1)) (rofZ (-1)) = rofZ 1.
Proof. split; vm_compute; reflexivity. Qed.
(** both signs occur: CreateWorm then Reconnect from the fresh one-loop diagram gives two loops *)
Example C14_case_two_loops : runF ([opw 0; 0; 10100; 0] ++ [opw 4; 0; accw]) 2 (fun d => reqb (sfl d) (fz (-1))) = true.
Proof. vm_compute. reflexivity. Qed.
