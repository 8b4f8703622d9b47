(** * Two diagrams that differ only by the numbering of their slots (specification)

    Nothing here is part of the program. [alike fv fg fw d d'] says that [d'] is [d] with vertex
    slot v renamed to [fv v], G line slot g to [fg g] and W line slot w to [fw w], and that every
    quantity the program goes on to use is the same. It leaves out only
    - site, time, spins and line weights while Order is 0 (JumpBackToOrder1 overwrites them before
      they are read, markov.cpp:1607-1670);
    - the worm's fields while no worm exists (CreateWorm overwrites them, markov.cpp:396-401);
    - the external point and the two external vertex slots while there is no vertex correction
      (gamma3_updates.cpp:48-50, 77-78, 159-161, 188-189 overwrite them on entry). *)
From Coq Require Import ZArith List.
From Verif Require Import Base Num RNG Momentum Complex Lattice Bundle Weights Diagram P_IOProm.
Import ListNotations.
Open Scope Z_scope.

Definition rename_slot (fg fw : nat -> nat) (s : vslot) : vslot :=
  match s with VG g e => VG (fg g) e | VW w e => VW (fw w) e | x => x end.

Record alike {N : Num} (fv fg fw : nat -> nat) (d d' : diagram) : Prop := {
  al_v : bijection (vB d) (vB d') fv;
  al_g : bijection (gB d) (gB d') fg;
  al_w : bijection (wB d) (wB d') fw;
  al_order : order d' = order d;
  al_weight : dweight d' = dweight d;
  al_phase : dphase d' = dphase d;
  al_sfl : sfl d' = sfl d;
  (* diagram structure *)
  al_gv : forall g e, bexist (gB d) g = true -> g_ver d' (fg g) e = fv (g_ver d g e);
  al_wv : forall w e, bexist (wB d) w = true -> w_ver d' (fw w) e = fv (w_ver d w e);
  al_vG : forall v e, bexist (vB d) v = true -> v_G d' (fv v) e = fg (v_G d v e);
  al_vW : forall v, bexist (vB d) v = true -> v_W d' (fv v) = fw (v_W d v);
  al_vD : forall v, bexist (vB d) v = true -> v_D d' (fv v) = v_D d v;
  (* lines *)
  al_gK : forall g, bexist (gB d) g = true -> g_K d' (fg g) = g_K d g;
  al_gm : forall g, bexist (gB d) g = true -> g_meas d' (fg g) = g_meas d g;
  al_gg : forall g, bexist (gB d) g = true -> g_gg d' (fg g) = g_gg d g;
  al_wK : forall w, bexist (wB d) w = true -> w_K d' (fw w) = w_K d w;
  al_wm : forall w, bexist (wB d) w = true -> w_meas d' (fw w) = w_meas d w;
  al_wd : forall w, bexist (wB d) w = true -> w_delta d' (fw w) = w_delta d w;
  al_ww : forall w, bexist (wB d) w = true -> w_ww d' (fw w) = w_ww d w;
  al_wo : forall w, bexist (wB d) w = true -> w_worm d' (fw w) = w_worm d w;
  al_gh : forall k, 0 <= k <= 2 * MAX_K -> ghash d' k = ghash d k;
  al_wh : forall k, 0 <= k <= MAX_K -> whash d' k = whash d k;
  (* vertex variables and weights *)
  al_R : order d <> 0 -> forall v, bexist (vB d) v = true -> v_R d' (fv v) = v_R d v;
  al_T : order d <> 0 -> forall v, bexist (vB d) v = true -> v_T d' (fv v) = v_T d v;
  al_S : order d <> 0 -> forall v e, bexist (vB d) v = true -> v_S d' (fv v) e = v_S d v e;
  al_gW : order d <> 0 -> forall g, bexist (gB d) g = true -> g_W d' (fg g) = g_W d g;
  al_wW : order d <> 0 -> forall w, bexist (wB d) w = true -> w_W d' (fw w) = w_W d w;
  (* worm, measuring line, vertex correction *)
  al_ex : wm_ex d' = wm_ex d;
  al_worm : wm_ex d = true ->
    ira d' = fv (ira d) /\ masha d' = fv (masha d) /\ wm_K d' = wm_K d /\ wm_ds d' = wm_ds d /\ wm_W d' = wm_W d;
  al_mG : measG d' = measG d;
  al_meas : if measG d then gmeas d' = fg (gmeas d) else wmeas d' = fw (wmeas d);
  al_gamma : gamma d' = gamma d;
  al_ext : gamma d <> 0 ->
    uext d' = uext d /\ vin d' = rename_slot fg fw (vin d) /\ vout d' = rename_slot fg fw (vout d) }.

(** the engine in state [e] yields the 32-bit words [ws] next *)
Fixpoint emits {E} (next : E -> Z * E) (e : E) (ws : list Z) : Prop :=
  match ws with
  | [] => True
  | x :: r => u32 (fst (next e)) = x /\ emits next (snd (next e)) r
  end.
