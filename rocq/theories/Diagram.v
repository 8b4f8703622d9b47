(** * Memory of a diagram. /repo/src/module/diagram/component.h, diagram.h, diagram.cpp

    The arrays of structs [G], [W], [Ver] are represented as one map per struct field,
    indexed by the slot of the object in its bundle's pool (see Bundle.v); the slot
    [NULLP] = 20 stands for null/uninitialised pointers. [Vin]/[Vout] point to an element
    of some line's [nVer] array; they are represented by that line and index. *)
From Coq Require Import ZArith List Bool Arith.
From Verif Require Import Base Num Complex Lattice IndexMap Weights Bundle Momentum.
Import ListNotations.
Open Scope Z_scope.

(** A pointer to [nVer[dir]] of a G or W line (type [vertex*], diagram.h:63). *)
Inductive vslot := VNone | VG (g : nat) (e : dir) | VW (w : nat) (e : dir).

Section Diagram.
Context {N : Num}.

Record diagram := mkD {
  order : Z  (* Order, diagram.h:42 *);
  dphase : cplx  (* Phase, diagram.h:43 *);
  dweight : cplx  (* Weight, diagram.h:43 *);
  sfl : real  (* SignFermiLoop, diagram.h:44 *);
  gB : bundle  (* names and pool of Bundle<GLine> G, diagram.h:46 *);
  wB : bundle  (* Bundle<WLine> W, diagram.h:47 *);
  vB : bundle  (* Bundle<Vertex> Ver, diagram.h:48 *);
  g_meas : nat -> bool  (* GLine::IsMeasure, component.h:32 *);
  g_gg : nat -> bool  (* GLine::IsGGGammaG, component.h:33 *);
  g_ver : nat -> dir -> nat  (* GLine::nVer, component.h:34 *);
  g_K : nat -> Z  (* GLine::K, component.h:35 *);
  g_W : nat -> cplx  (* GLine::Weight, component.h:36 *);
  w_worm : nat -> bool  (* WLine::IsWorm, component.h:50 *);
  w_delta : nat -> bool  (* WLine::IsDelta, component.h:51 *);
  w_meas : nat -> bool  (* WLine::IsMeasure, component.h:52 *);
  w_ww : nat -> bool  (* WLine::IsWWGammaW, component.h:53 *);
  w_ver : nat -> dir -> nat  (* WLine::nVer, component.h:54 *);
  w_K : nat -> Z  (* WLine::K, component.h:55 *);
  w_W : nat -> cplx  (* WLine::Weight, component.h:56 *);
  v_G : nat -> dir -> nat  (* Vertex::nG, component.h:69 *);
  v_W : nat -> nat  (* Vertex::nW, component.h:70 *);
  v_R : nat -> site  (* Vertex::R, component.h:71 *);
  v_S : nat -> dir -> spin  (* Vertex::_spin, component.h:72 *);
  v_T : nat -> real  (* Vertex::Tau, component.h:73 *);
  v_D : nat -> dir  (* Vertex::Dir, component.h:74 *);
  ghash : Z -> bool  (* GHash[2*MAX_K+1], diagram.h:50 *);
  whash : Z -> bool  (* WHash[MAX_K+1], diagram.h:51 *);
  wm_ex : bool  (* Worm.Exist, component.h:88 *);
  ira : nat  (* Worm.Ira, component.h:89 *);
  masha : nat  (* Worm.Masha, component.h:89 *);
  wm_K : Z  (* Worm.K, component.h:90 *);
  wm_ds : Z  (* Worm.dSpin, component.h:91 *);
  wm_W : real  (* Worm.Weight, component.h:92 *);
  measG : bool  (* MeasureGLine, diagram.h:56 *);
  gmeas : nat  (* GMeasure, diagram.h:57 *);
  wmeas : nat  (* WMeasure, diagram.h:58 *);
  gamma : Z  (* HasGammaGW, diagram.h:61 *);
  uext : extpt  (* UExt, diagram.h:62 *);
  vin : vslot  (* Vin, diagram.h:63 *);
  vout : vslot  (* Vout, diagram.h:63 *)
}.

(** Field updates of the record (one per field, no repository counterpart). *)
Definition s_order (d : diagram) (x : Z) : diagram := mkD x (dphase d) (dweight d) (sfl d) (gB d) (wB d) (vB d) (g_meas d) (g_gg d) (g_ver d) (g_K d) (g_W d) (w_worm d) (w_delta d) (w_meas d) (w_ww d) (w_ver d) (w_K d) (w_W d) (v_G d) (v_W d) (v_R d) (v_S d) (v_T d) (v_D d) (ghash d) (whash d) (wm_ex d) (ira d) (masha d) (wm_K d) (wm_ds d) (wm_W d) (measG d) (gmeas d) (wmeas d) (gamma d) (uext d) (vin d) (vout d).
Definition s_dphase (d : diagram) (x : cplx) : diagram := mkD (order d) x (dweight d) (sfl d) (gB d) (wB d) (vB d) (g_meas d) (g_gg d) (g_ver d) (g_K d) (g_W d) (w_worm d) (w_delta d) (w_meas d) (w_ww d) (w_ver d) (w_K d) (w_W d) (v_G d) (v_W d) (v_R d) (v_S d) (v_T d) (v_D d) (ghash d) (whash d) (wm_ex d) (ira d) (masha d) (wm_K d) (wm_ds d) (wm_W d) (measG d) (gmeas d) (wmeas d) (gamma d) (uext d) (vin d) (vout d).
Definition s_dweight (d : diagram) (x : cplx) : diagram := mkD (order d) (dphase d) x (sfl d) (gB d) (wB d) (vB d) (g_meas d) (g_gg d) (g_ver d) (g_K d) (g_W d) (w_worm d) (w_delta d) (w_meas d) (w_ww d) (w_ver d) (w_K d) (w_W d) (v_G d) (v_W d) (v_R d) (v_S d) (v_T d) (v_D d) (ghash d) (whash d) (wm_ex d) (ira d) (masha d) (wm_K d) (wm_ds d) (wm_W d) (measG d) (gmeas d) (wmeas d) (gamma d) (uext d) (vin d) (vout d).
Definition s_sfl (d : diagram) (x : real) : diagram := mkD (order d) (dphase d) (dweight d) x (gB d) (wB d) (vB d) (g_meas d) (g_gg d) (g_ver d) (g_K d) (g_W d) (w_worm d) (w_delta d) (w_meas d) (w_ww d) (w_ver d) (w_K d) (w_W d) (v_G d) (v_W d) (v_R d) (v_S d) (v_T d) (v_D d) (ghash d) (whash d) (wm_ex d) (ira d) (masha d) (wm_K d) (wm_ds d) (wm_W d) (measG d) (gmeas d) (wmeas d) (gamma d) (uext d) (vin d) (vout d).
Definition s_gB (d : diagram) (x : bundle) : diagram := mkD (order d) (dphase d) (dweight d) (sfl d) x (wB d) (vB d) (g_meas d) (g_gg d) (g_ver d) (g_K d) (g_W d) (w_worm d) (w_delta d) (w_meas d) (w_ww d) (w_ver d) (w_K d) (w_W d) (v_G d) (v_W d) (v_R d) (v_S d) (v_T d) (v_D d) (ghash d) (whash d) (wm_ex d) (ira d) (masha d) (wm_K d) (wm_ds d) (wm_W d) (measG d) (gmeas d) (wmeas d) (gamma d) (uext d) (vin d) (vout d).
Definition s_wB (d : diagram) (x : bundle) : diagram := mkD (order d) (dphase d) (dweight d) (sfl d) (gB d) x (vB d) (g_meas d) (g_gg d) (g_ver d) (g_K d) (g_W d) (w_worm d) (w_delta d) (w_meas d) (w_ww d) (w_ver d) (w_K d) (w_W d) (v_G d) (v_W d) (v_R d) (v_S d) (v_T d) (v_D d) (ghash d) (whash d) (wm_ex d) (ira d) (masha d) (wm_K d) (wm_ds d) (wm_W d) (measG d) (gmeas d) (wmeas d) (gamma d) (uext d) (vin d) (vout d).
Definition s_vB (d : diagram) (x : bundle) : diagram := mkD (order d) (dphase d) (dweight d) (sfl d) (gB d) (wB d) x (g_meas d) (g_gg d) (g_ver d) (g_K d) (g_W d) (w_worm d) (w_delta d) (w_meas d) (w_ww d) (w_ver d) (w_K d) (w_W d) (v_G d) (v_W d) (v_R d) (v_S d) (v_T d) (v_D d) (ghash d) (whash d) (wm_ex d) (ira d) (masha d) (wm_K d) (wm_ds d) (wm_W d) (measG d) (gmeas d) (wmeas d) (gamma d) (uext d) (vin d) (vout d).
Definition s_g_meas (d : diagram) (x : nat -> bool) : diagram := mkD (order d) (dphase d) (dweight d) (sfl d) (gB d) (wB d) (vB d) x (g_gg d) (g_ver d) (g_K d) (g_W d) (w_worm d) (w_delta d) (w_meas d) (w_ww d) (w_ver d) (w_K d) (w_W d) (v_G d) (v_W d) (v_R d) (v_S d) (v_T d) (v_D d) (ghash d) (whash d) (wm_ex d) (ira d) (masha d) (wm_K d) (wm_ds d) (wm_W d) (measG d) (gmeas d) (wmeas d) (gamma d) (uext d) (vin d) (vout d).
Definition s_g_gg (d : diagram) (x : nat -> bool) : diagram := mkD (order d) (dphase d) (dweight d) (sfl d) (gB d) (wB d) (vB d) (g_meas d) x (g_ver d) (g_K d) (g_W d) (w_worm d) (w_delta d) (w_meas d) (w_ww d) (w_ver d) (w_K d) (w_W d) (v_G d) (v_W d) (v_R d) (v_S d) (v_T d) (v_D d) (ghash d) (whash d) (wm_ex d) (ira d) (masha d) (wm_K d) (wm_ds d) (wm_W d) (measG d) (gmeas d) (wmeas d) (gamma d) (uext d) (vin d) (vout d).
Definition s_g_ver (d : diagram) (x : nat -> dir -> nat) : diagram := mkD (order d) (dphase d) (dweight d) (sfl d) (gB d) (wB d) (vB d) (g_meas d) (g_gg d) x (g_K d) (g_W d) (w_worm d) (w_delta d) (w_meas d) (w_ww d) (w_ver d) (w_K d) (w_W d) (v_G d) (v_W d) (v_R d) (v_S d) (v_T d) (v_D d) (ghash d) (whash d) (wm_ex d) (ira d) (masha d) (wm_K d) (wm_ds d) (wm_W d) (measG d) (gmeas d) (wmeas d) (gamma d) (uext d) (vin d) (vout d).
Definition s_g_K (d : diagram) (x : nat -> Z) : diagram := mkD (order d) (dphase d) (dweight d) (sfl d) (gB d) (wB d) (vB d) (g_meas d) (g_gg d) (g_ver d) x (g_W d) (w_worm d) (w_delta d) (w_meas d) (w_ww d) (w_ver d) (w_K d) (w_W d) (v_G d) (v_W d) (v_R d) (v_S d) (v_T d) (v_D d) (ghash d) (whash d) (wm_ex d) (ira d) (masha d) (wm_K d) (wm_ds d) (wm_W d) (measG d) (gmeas d) (wmeas d) (gamma d) (uext d) (vin d) (vout d).
Definition s_g_W (d : diagram) (x : nat -> cplx) : diagram := mkD (order d) (dphase d) (dweight d) (sfl d) (gB d) (wB d) (vB d) (g_meas d) (g_gg d) (g_ver d) (g_K d) x (w_worm d) (w_delta d) (w_meas d) (w_ww d) (w_ver d) (w_K d) (w_W d) (v_G d) (v_W d) (v_R d) (v_S d) (v_T d) (v_D d) (ghash d) (whash d) (wm_ex d) (ira d) (masha d) (wm_K d) (wm_ds d) (wm_W d) (measG d) (gmeas d) (wmeas d) (gamma d) (uext d) (vin d) (vout d).
Definition s_w_worm (d : diagram) (x : nat -> bool) : diagram := mkD (order d) (dphase d) (dweight d) (sfl d) (gB d) (wB d) (vB d) (g_meas d) (g_gg d) (g_ver d) (g_K d) (g_W d) x (w_delta d) (w_meas d) (w_ww d) (w_ver d) (w_K d) (w_W d) (v_G d) (v_W d) (v_R d) (v_S d) (v_T d) (v_D d) (ghash d) (whash d) (wm_ex d) (ira d) (masha d) (wm_K d) (wm_ds d) (wm_W d) (measG d) (gmeas d) (wmeas d) (gamma d) (uext d) (vin d) (vout d).
Definition s_w_delta (d : diagram) (x : nat -> bool) : diagram := mkD (order d) (dphase d) (dweight d) (sfl d) (gB d) (wB d) (vB d) (g_meas d) (g_gg d) (g_ver d) (g_K d) (g_W d) (w_worm d) x (w_meas d) (w_ww d) (w_ver d) (w_K d) (w_W d) (v_G d) (v_W d) (v_R d) (v_S d) (v_T d) (v_D d) (ghash d) (whash d) (wm_ex d) (ira d) (masha d) (wm_K d) (wm_ds d) (wm_W d) (measG d) (gmeas d) (wmeas d) (gamma d) (uext d) (vin d) (vout d).
Definition s_w_meas (d : diagram) (x : nat -> bool) : diagram := mkD (order d) (dphase d) (dweight d) (sfl d) (gB d) (wB d) (vB d) (g_meas d) (g_gg d) (g_ver d) (g_K d) (g_W d) (w_worm d) (w_delta d) x (w_ww d) (w_ver d) (w_K d) (w_W d) (v_G d) (v_W d) (v_R d) (v_S d) (v_T d) (v_D d) (ghash d) (whash d) (wm_ex d) (ira d) (masha d) (wm_K d) (wm_ds d) (wm_W d) (measG d) (gmeas d) (wmeas d) (gamma d) (uext d) (vin d) (vout d).
Definition s_w_ww (d : diagram) (x : nat -> bool) : diagram := mkD (order d) (dphase d) (dweight d) (sfl d) (gB d) (wB d) (vB d) (g_meas d) (g_gg d) (g_ver d) (g_K d) (g_W d) (w_worm d) (w_delta d) (w_meas d) x (w_ver d) (w_K d) (w_W d) (v_G d) (v_W d) (v_R d) (v_S d) (v_T d) (v_D d) (ghash d) (whash d) (wm_ex d) (ira d) (masha d) (wm_K d) (wm_ds d) (wm_W d) (measG d) (gmeas d) (wmeas d) (gamma d) (uext d) (vin d) (vout d).
Definition s_w_ver (d : diagram) (x : nat -> dir -> nat) : diagram := mkD (order d) (dphase d) (dweight d) (sfl d) (gB d) (wB d) (vB d) (g_meas d) (g_gg d) (g_ver d) (g_K d) (g_W d) (w_worm d) (w_delta d) (w_meas d) (w_ww d) x (w_K d) (w_W d) (v_G d) (v_W d) (v_R d) (v_S d) (v_T d) (v_D d) (ghash d) (whash d) (wm_ex d) (ira d) (masha d) (wm_K d) (wm_ds d) (wm_W d) (measG d) (gmeas d) (wmeas d) (gamma d) (uext d) (vin d) (vout d).
Definition s_w_K (d : diagram) (x : nat -> Z) : diagram := mkD (order d) (dphase d) (dweight d) (sfl d) (gB d) (wB d) (vB d) (g_meas d) (g_gg d) (g_ver d) (g_K d) (g_W d) (w_worm d) (w_delta d) (w_meas d) (w_ww d) (w_ver d) x (w_W d) (v_G d) (v_W d) (v_R d) (v_S d) (v_T d) (v_D d) (ghash d) (whash d) (wm_ex d) (ira d) (masha d) (wm_K d) (wm_ds d) (wm_W d) (measG d) (gmeas d) (wmeas d) (gamma d) (uext d) (vin d) (vout d).
Definition s_w_W (d : diagram) (x : nat -> cplx) : diagram := mkD (order d) (dphase d) (dweight d) (sfl d) (gB d) (wB d) (vB d) (g_meas d) (g_gg d) (g_ver d) (g_K d) (g_W d) (w_worm d) (w_delta d) (w_meas d) (w_ww d) (w_ver d) (w_K d) x (v_G d) (v_W d) (v_R d) (v_S d) (v_T d) (v_D d) (ghash d) (whash d) (wm_ex d) (ira d) (masha d) (wm_K d) (wm_ds d) (wm_W d) (measG d) (gmeas d) (wmeas d) (gamma d) (uext d) (vin d) (vout d).
Definition s_v_G (d : diagram) (x : nat -> dir -> nat) : diagram := mkD (order d) (dphase d) (dweight d) (sfl d) (gB d) (wB d) (vB d) (g_meas d) (g_gg d) (g_ver d) (g_K d) (g_W d) (w_worm d) (w_delta d) (w_meas d) (w_ww d) (w_ver d) (w_K d) (w_W d) x (v_W d) (v_R d) (v_S d) (v_T d) (v_D d) (ghash d) (whash d) (wm_ex d) (ira d) (masha d) (wm_K d) (wm_ds d) (wm_W d) (measG d) (gmeas d) (wmeas d) (gamma d) (uext d) (vin d) (vout d).
Definition s_v_W (d : diagram) (x : nat -> nat) : diagram := mkD (order d) (dphase d) (dweight d) (sfl d) (gB d) (wB d) (vB d) (g_meas d) (g_gg d) (g_ver d) (g_K d) (g_W d) (w_worm d) (w_delta d) (w_meas d) (w_ww d) (w_ver d) (w_K d) (w_W d) (v_G d) x (v_R d) (v_S d) (v_T d) (v_D d) (ghash d) (whash d) (wm_ex d) (ira d) (masha d) (wm_K d) (wm_ds d) (wm_W d) (measG d) (gmeas d) (wmeas d) (gamma d) (uext d) (vin d) (vout d).
Definition s_v_R (d : diagram) (x : nat -> site) : diagram := mkD (order d) (dphase d) (dweight d) (sfl d) (gB d) (wB d) (vB d) (g_meas d) (g_gg d) (g_ver d) (g_K d) (g_W d) (w_worm d) (w_delta d) (w_meas d) (w_ww d) (w_ver d) (w_K d) (w_W d) (v_G d) (v_W d) x (v_S d) (v_T d) (v_D d) (ghash d) (whash d) (wm_ex d) (ira d) (masha d) (wm_K d) (wm_ds d) (wm_W d) (measG d) (gmeas d) (wmeas d) (gamma d) (uext d) (vin d) (vout d).
Definition s_v_S (d : diagram) (x : nat -> dir -> spin) : diagram := mkD (order d) (dphase d) (dweight d) (sfl d) (gB d) (wB d) (vB d) (g_meas d) (g_gg d) (g_ver d) (g_K d) (g_W d) (w_worm d) (w_delta d) (w_meas d) (w_ww d) (w_ver d) (w_K d) (w_W d) (v_G d) (v_W d) (v_R d) x (v_T d) (v_D d) (ghash d) (whash d) (wm_ex d) (ira d) (masha d) (wm_K d) (wm_ds d) (wm_W d) (measG d) (gmeas d) (wmeas d) (gamma d) (uext d) (vin d) (vout d).
Definition s_v_T (d : diagram) (x : nat -> real) : diagram := mkD (order d) (dphase d) (dweight d) (sfl d) (gB d) (wB d) (vB d) (g_meas d) (g_gg d) (g_ver d) (g_K d) (g_W d) (w_worm d) (w_delta d) (w_meas d) (w_ww d) (w_ver d) (w_K d) (w_W d) (v_G d) (v_W d) (v_R d) (v_S d) x (v_D d) (ghash d) (whash d) (wm_ex d) (ira d) (masha d) (wm_K d) (wm_ds d) (wm_W d) (measG d) (gmeas d) (wmeas d) (gamma d) (uext d) (vin d) (vout d).
Definition s_v_D (d : diagram) (x : nat -> dir) : diagram := mkD (order d) (dphase d) (dweight d) (sfl d) (gB d) (wB d) (vB d) (g_meas d) (g_gg d) (g_ver d) (g_K d) (g_W d) (w_worm d) (w_delta d) (w_meas d) (w_ww d) (w_ver d) (w_K d) (w_W d) (v_G d) (v_W d) (v_R d) (v_S d) (v_T d) x (ghash d) (whash d) (wm_ex d) (ira d) (masha d) (wm_K d) (wm_ds d) (wm_W d) (measG d) (gmeas d) (wmeas d) (gamma d) (uext d) (vin d) (vout d).
Definition s_ghash (d : diagram) (x : Z -> bool) : diagram := mkD (order d) (dphase d) (dweight d) (sfl d) (gB d) (wB d) (vB d) (g_meas d) (g_gg d) (g_ver d) (g_K d) (g_W d) (w_worm d) (w_delta d) (w_meas d) (w_ww d) (w_ver d) (w_K d) (w_W d) (v_G d) (v_W d) (v_R d) (v_S d) (v_T d) (v_D d) x (whash d) (wm_ex d) (ira d) (masha d) (wm_K d) (wm_ds d) (wm_W d) (measG d) (gmeas d) (wmeas d) (gamma d) (uext d) (vin d) (vout d).
Definition s_whash (d : diagram) (x : Z -> bool) : diagram := mkD (order d) (dphase d) (dweight d) (sfl d) (gB d) (wB d) (vB d) (g_meas d) (g_gg d) (g_ver d) (g_K d) (g_W d) (w_worm d) (w_delta d) (w_meas d) (w_ww d) (w_ver d) (w_K d) (w_W d) (v_G d) (v_W d) (v_R d) (v_S d) (v_T d) (v_D d) (ghash d) x (wm_ex d) (ira d) (masha d) (wm_K d) (wm_ds d) (wm_W d) (measG d) (gmeas d) (wmeas d) (gamma d) (uext d) (vin d) (vout d).
Definition s_wm_ex (d : diagram) (x : bool) : diagram := mkD (order d) (dphase d) (dweight d) (sfl d) (gB d) (wB d) (vB d) (g_meas d) (g_gg d) (g_ver d) (g_K d) (g_W d) (w_worm d) (w_delta d) (w_meas d) (w_ww d) (w_ver d) (w_K d) (w_W d) (v_G d) (v_W d) (v_R d) (v_S d) (v_T d) (v_D d) (ghash d) (whash d) x (ira d) (masha d) (wm_K d) (wm_ds d) (wm_W d) (measG d) (gmeas d) (wmeas d) (gamma d) (uext d) (vin d) (vout d).
Definition s_ira (d : diagram) (x : nat) : diagram := mkD (order d) (dphase d) (dweight d) (sfl d) (gB d) (wB d) (vB d) (g_meas d) (g_gg d) (g_ver d) (g_K d) (g_W d) (w_worm d) (w_delta d) (w_meas d) (w_ww d) (w_ver d) (w_K d) (w_W d) (v_G d) (v_W d) (v_R d) (v_S d) (v_T d) (v_D d) (ghash d) (whash d) (wm_ex d) x (masha d) (wm_K d) (wm_ds d) (wm_W d) (measG d) (gmeas d) (wmeas d) (gamma d) (uext d) (vin d) (vout d).
Definition s_masha (d : diagram) (x : nat) : diagram := mkD (order d) (dphase d) (dweight d) (sfl d) (gB d) (wB d) (vB d) (g_meas d) (g_gg d) (g_ver d) (g_K d) (g_W d) (w_worm d) (w_delta d) (w_meas d) (w_ww d) (w_ver d) (w_K d) (w_W d) (v_G d) (v_W d) (v_R d) (v_S d) (v_T d) (v_D d) (ghash d) (whash d) (wm_ex d) (ira d) x (wm_K d) (wm_ds d) (wm_W d) (measG d) (gmeas d) (wmeas d) (gamma d) (uext d) (vin d) (vout d).
Definition s_wm_K (d : diagram) (x : Z) : diagram := mkD (order d) (dphase d) (dweight d) (sfl d) (gB d) (wB d) (vB d) (g_meas d) (g_gg d) (g_ver d) (g_K d) (g_W d) (w_worm d) (w_delta d) (w_meas d) (w_ww d) (w_ver d) (w_K d) (w_W d) (v_G d) (v_W d) (v_R d) (v_S d) (v_T d) (v_D d) (ghash d) (whash d) (wm_ex d) (ira d) (masha d) x (wm_ds d) (wm_W d) (measG d) (gmeas d) (wmeas d) (gamma d) (uext d) (vin d) (vout d).
Definition s_wm_ds (d : diagram) (x : Z) : diagram := mkD (order d) (dphase d) (dweight d) (sfl d) (gB d) (wB d) (vB d) (g_meas d) (g_gg d) (g_ver d) (g_K d) (g_W d) (w_worm d) (w_delta d) (w_meas d) (w_ww d) (w_ver d) (w_K d) (w_W d) (v_G d) (v_W d) (v_R d) (v_S d) (v_T d) (v_D d) (ghash d) (whash d) (wm_ex d) (ira d) (masha d) (wm_K d) x (wm_W d) (measG d) (gmeas d) (wmeas d) (gamma d) (uext d) (vin d) (vout d).
Definition s_wm_W (d : diagram) (x : real) : diagram := mkD (order d) (dphase d) (dweight d) (sfl d) (gB d) (wB d) (vB d) (g_meas d) (g_gg d) (g_ver d) (g_K d) (g_W d) (w_worm d) (w_delta d) (w_meas d) (w_ww d) (w_ver d) (w_K d) (w_W d) (v_G d) (v_W d) (v_R d) (v_S d) (v_T d) (v_D d) (ghash d) (whash d) (wm_ex d) (ira d) (masha d) (wm_K d) (wm_ds d) x (measG d) (gmeas d) (wmeas d) (gamma d) (uext d) (vin d) (vout d).
Definition s_measG (d : diagram) (x : bool) : diagram := mkD (order d) (dphase d) (dweight d) (sfl d) (gB d) (wB d) (vB d) (g_meas d) (g_gg d) (g_ver d) (g_K d) (g_W d) (w_worm d) (w_delta d) (w_meas d) (w_ww d) (w_ver d) (w_K d) (w_W d) (v_G d) (v_W d) (v_R d) (v_S d) (v_T d) (v_D d) (ghash d) (whash d) (wm_ex d) (ira d) (masha d) (wm_K d) (wm_ds d) (wm_W d) x (gmeas d) (wmeas d) (gamma d) (uext d) (vin d) (vout d).
Definition s_gmeas (d : diagram) (x : nat) : diagram := mkD (order d) (dphase d) (dweight d) (sfl d) (gB d) (wB d) (vB d) (g_meas d) (g_gg d) (g_ver d) (g_K d) (g_W d) (w_worm d) (w_delta d) (w_meas d) (w_ww d) (w_ver d) (w_K d) (w_W d) (v_G d) (v_W d) (v_R d) (v_S d) (v_T d) (v_D d) (ghash d) (whash d) (wm_ex d) (ira d) (masha d) (wm_K d) (wm_ds d) (wm_W d) (measG d) x (wmeas d) (gamma d) (uext d) (vin d) (vout d).
Definition s_wmeas (d : diagram) (x : nat) : diagram := mkD (order d) (dphase d) (dweight d) (sfl d) (gB d) (wB d) (vB d) (g_meas d) (g_gg d) (g_ver d) (g_K d) (g_W d) (w_worm d) (w_delta d) (w_meas d) (w_ww d) (w_ver d) (w_K d) (w_W d) (v_G d) (v_W d) (v_R d) (v_S d) (v_T d) (v_D d) (ghash d) (whash d) (wm_ex d) (ira d) (masha d) (wm_K d) (wm_ds d) (wm_W d) (measG d) (gmeas d) x (gamma d) (uext d) (vin d) (vout d).
Definition s_gamma (d : diagram) (x : Z) : diagram := mkD (order d) (dphase d) (dweight d) (sfl d) (gB d) (wB d) (vB d) (g_meas d) (g_gg d) (g_ver d) (g_K d) (g_W d) (w_worm d) (w_delta d) (w_meas d) (w_ww d) (w_ver d) (w_K d) (w_W d) (v_G d) (v_W d) (v_R d) (v_S d) (v_T d) (v_D d) (ghash d) (whash d) (wm_ex d) (ira d) (masha d) (wm_K d) (wm_ds d) (wm_W d) (measG d) (gmeas d) (wmeas d) x (uext d) (vin d) (vout d).
Definition s_uext (d : diagram) (x : extpt) : diagram := mkD (order d) (dphase d) (dweight d) (sfl d) (gB d) (wB d) (vB d) (g_meas d) (g_gg d) (g_ver d) (g_K d) (g_W d) (w_worm d) (w_delta d) (w_meas d) (w_ww d) (w_ver d) (w_K d) (w_W d) (v_G d) (v_W d) (v_R d) (v_S d) (v_T d) (v_D d) (ghash d) (whash d) (wm_ex d) (ira d) (masha d) (wm_K d) (wm_ds d) (wm_W d) (measG d) (gmeas d) (wmeas d) (gamma d) x (vin d) (vout d).
Definition s_vin (d : diagram) (x : vslot) : diagram := mkD (order d) (dphase d) (dweight d) (sfl d) (gB d) (wB d) (vB d) (g_meas d) (g_gg d) (g_ver d) (g_K d) (g_W d) (w_worm d) (w_delta d) (w_meas d) (w_ww d) (w_ver d) (w_K d) (w_W d) (v_G d) (v_W d) (v_R d) (v_S d) (v_T d) (v_D d) (ghash d) (whash d) (wm_ex d) (ira d) (masha d) (wm_K d) (wm_ds d) (wm_W d) (measG d) (gmeas d) (wmeas d) (gamma d) (uext d) x (vout d).
Definition s_vout (d : diagram) (x : vslot) : diagram := mkD (order d) (dphase d) (dweight d) (sfl d) (gB d) (wB d) (vB d) (g_meas d) (g_gg d) (g_ver d) (g_K d) (g_W d) (w_worm d) (w_delta d) (w_meas d) (w_ww d) (w_ver d) (w_K d) (w_W d) (v_G d) (v_W d) (v_R d) (v_S d) (v_T d) (v_D d) (ghash d) (whash d) (wm_ex d) (ira d) (masha d) (wm_K d) (wm_ds d) (wm_W d) (measG d) (gmeas d) (wmeas d) (gamma d) (uext d) (vin d) x.

(** Uninitialised C++ fields: the model gives them a definite but irrelevant value
    (pointers: [NULLP]); reading an uninitialised pointer is caught as UB. *)
Definition ext0 : extpt := mkExt (mkSite 0 []) r0 DOWN.

(** Diagram::Diagram(), diagram.cpp:27-37, with WormClass(), component.h:95-98, and
    Bundle constructors. The hash arrays are uninitialised in C++ until ClearDiagram. *)
Definition diagram_new : diagram :=
  mkD 0 (mkC r1 r0) (mkC r1 r0) r0
      bundle_new bundle_new bundle_new
      (fun _ => false) (fun _ => false) (fun _ _ => NULLP) (fun _ => 0) (fun _ => c0)
      (fun _ => false) (fun _ => false) (fun _ => false) (fun _ => false)
      (fun _ _ => NULLP) (fun _ => 0) (fun _ => c0)
      (fun _ _ => NULLP) (fun _ => NULLP) (fun _ => mkSite 0 []) (fun _ _ => DOWN)
      (fun _ => r0) (fun _ => IN)
      (fun _ => false) (fun _ => false)
      false NULLP NULLP 0 0 r0
      false NULLP NULLP 0 ext0 VNone VNone.

(** Diagram::IsWorm(vertex), diagram.cpp:19-25 *)
Definition IsWorm (d : diagram) (v : nat) : bool :=
  wm_ex d && (Nat.eqb (ira d) v || Nat.eqb (masha d) v).

(** Monadic operations on a diagram. *)
Definition DM := M diagram.
Local Open Scope monad_scope.

(** dereference check: the slot must be a real object *)
Definition rd {S} (p : nat) : M S nat := if (p <? MAX_BUNDLE)%nat then ret p else ub.

(** hash arrays: an index outside the array is UB *)
Definition gidx_ok (i : Z) : bool := (0 <=? i) && (i <=? 2 * MAX_K).
Definition widx_ok (i : Z) : bool := (0 <=? i) && (i <=? MAX_K).

(** GHashCheck, diagram.cpp:39-42 *)
Definition GHashCheck (d : diagram) (k : Z) : outcome bool :=
  if gidx_ok (kindex k) then Ok (ghash d (kindex k)) else UB.
(** AddGHash, diagram.cpp:44-49 *)
Definition AddGHash (k : Z) (d : diagram) : outcome diagram :=
  if negb (gidx_ok (kindex k)) then UB
  else if ghash d (kindex k) then Abort
  else Ok (s_ghash d (updZ (ghash d) (kindex k) true)).
(** RemoveGHash, diagram.cpp:51-56 *)
Definition RemoveGHash (k : Z) (d : diagram) : outcome diagram :=
  if negb (gidx_ok (kindex k)) then UB
  else if negb (ghash d (kindex k)) then Abort
  else Ok (s_ghash d (updZ (ghash d) (kindex k) false)).
(** ReplaceGHash, diagram.cpp:58-62 *)
Definition ReplaceGHash (kold k : Z) (d : diagram) : outcome diagram :=
  obind (RemoveGHash kold d) (AddGHash k).

(** WHashCheck, diagram.cpp:64-67 *)
Definition WHashCheck (d : diagram) (k : Z) : outcome bool :=
  if k =? 0 then Ok true
  else if widx_ok (kabs k) then Ok (whash d (kabs k)) else UB.
(** AddWHash, diagram.cpp:69-74 *)
Definition AddWHash (k : Z) (d : diagram) : outcome diagram :=
  if negb (widx_ok (kabs k)) then UB
  else if whash d (kabs k) then Abort
  else Ok (s_whash d (updZ (whash d) (kabs k) true)).
(** RemoveWHash, diagram.cpp:76-81 *)
Definition RemoveWHash (k : Z) (d : diagram) : outcome diagram :=
  if negb (widx_ok (kabs k)) then UB
  else if negb (whash d (kabs k)) then Abort
  else Ok (s_whash d (updZ (whash d) (kabs k) false)).
(** ReplaceWHash, diagram.cpp:83-87 *)
Definition ReplaceWHash (kold k : Z) (d : diagram) : outcome diagram :=
  obind (RemoveWHash kold d) (AddWHash k).

(** spins of a G line: Spin(dir), Spin(), component.cpp:22-30 (the vertex pointer is
    dereferenced) *)
Definition gspin_dir {S} (d : diagram) (g : nat) (e : dir) : M S spin :=
  v <- rd (g_ver d g e) ;; ret (v_S d v (inv e)).
Definition gspin {S} (d : diagram) (g : nat) : M S spin :=
  v <- rd (g_ver d g IN) ;; ret (v_S d v OUT).

(** ** FixDiagram, diagram.cpp:114-169 *)
(** body of the loop over G lines, diagram.cpp:131-142 *)
Definition fix_g (T : tables) (index : nat) (d : diagram) : outcome diagram :=
  obind (bat (gB d) index) (fun g =>
  let vi := g_ver d g IN in
  let vo := g_ver d g OUT in
  if negb ((vi <? MAX_BUNDLE)%nat && (vo <? MAX_BUNDLE)%nat && (g <? MAX_BUNDLE)%nat) then UB else
  let d := s_v_G d (upd2 (v_G d) vi OUT g) in
  let d := s_v_G d (upd2 (v_G d) vo IN g) in
  let d := s_g_gg d (upd (g_gg d) g false) in
  obind (GWeight T (v_R d vi) (v_R d vo) (v_T d vi) (v_T d vo) (v_S d vi OUT) (v_S d vo IN)
           (g_meas d g) false (uext d)) (fun wt =>
  let d := s_g_W d (upd (g_W d) g wt) in
  Ok (s_dweight d (cmul (dweight d) wt)))).
(** body of the loop over W lines, diagram.cpp:144-160. The worm flag is computed from
    the worm's end pointers without asking whether a worm exists. *)
Definition fix_w (T : tables) (index : nat) (d : diagram) : outcome diagram :=
  obind (bat (wB d) index) (fun w =>
  let vi := w_ver d w IN in
  let vo := w_ver d w OUT in
  if negb ((vi <? MAX_BUNDLE)%nat && (vo <? MAX_BUNDLE)%nat && (w <? MAX_BUNDLE)%nat) then UB else
  let iw := Nat.eqb vi (ira d) || Nat.eqb vi (masha d) || Nat.eqb vo (ira d) || Nat.eqb vo (masha d) in
  let d := s_w_worm d (upd (w_worm d) w iw) in
  let d := s_v_W d (upd (v_W d) vi w) in
  let d := s_v_D d (upd (v_D d) vi IN) in
  let d := s_v_W d (upd (v_W d) vo w) in
  let d := s_v_D d (upd (v_D d) vo OUT) in
  let d := s_w_ww d (upd (w_ww d) w false) in
  obind (WWeight T (v_R d vi) (v_R d vo) (v_T d vi) (v_T d vo) (v_S d vi) (v_S d vo)
           (w_worm d w) (w_meas d w) (w_delta d w) false (uext d)) (fun wt =>
  let d := s_w_W d (upd (w_W d) w wt) in
  Ok (s_dweight d (cmul (dweight d) wt)))).
(** [for (index = 0; index < n; index++) body] *)
Fixpoint for_upto {A} (body : nat -> A -> outcome A) (i n : nat) (d : A) : outcome A :=
  match n with
  | O => Ok d
  | S n' => obind (body i d) (for_upto body (S i) n')
  end.
(** diagram.cpp:114-169. The null checks on Lat, GWeight and WWeight are taken as passed
    (the callers set them just before). *)
Definition FixDiagram (T : tables) (d : diagram) : outcome diagram :=
  if negb (gamma d =? 0) then Abort else
  let d := s_order d (Z.of_nat (bhowmany (wB d))) in
  let d := s_wm_W d r1 in
  (if wm_ex d && negb ((ira d <? MAX_BUNDLE)%nat && (masha d <? MAX_BUNDLE)%nat) then UB else
   let d := if wm_ex d then s_wm_W d WormWeight else d in
   let d := s_dweight d (mkC r1 r0) in
   obind (for_upto (fix_g T) 0 (bhowmany (gB d)) d) (fun d =>
   obind (for_upto (fix_w T) 0 (bhowmany (wB d)) d) (fun d =>
   let d := s_dweight d (cmul_assign_r (dweight d)
              (rmul (sfl d) (rofZ (if Z.rem (order d) 2 =? 0 then 1 else -1)))) in
   Ok (s_dphase d (phase (dweight d)))))).

(** Diagram::Reset, diagram.cpp:89-96 (the tables are the new ones) *)
Definition DReset (T : tables) (d : diagram) : outcome diagram := FixDiagram T d.

(** Diagram::ClearDiagram, diagram.cpp:98-113 *)
Fixpoint bclear (fuel : nat) (b : bundle) : outcome bundle :=
  match fuel with
  | O => Ok b
  | S f => if (avail b =? 0)%nat then Ok b
           else obind (bremove_name b (avail b - 1)) (bclear f)
  end.
Definition ClearDiagram (d : diagram) : outcome diagram :=
  let d := s_ghash d (fun _ => false) in
  let d := s_whash d (fun _ => false) in
  obind (bclear (avail (gB d)) (gB d)) (fun bg =>
  obind (bclear (avail (wB d)) (wB d)) (fun bw =>
  obind (bclear (avail (vB d)) (vB d)) (fun bv =>
  Ok (s_vB (s_wB (s_gB d bg) bw) bv)))).
End Diagram.
