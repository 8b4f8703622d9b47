(** * Building, saving and loading a diagram. /repo/src/module/diagram/diagram_IO.cpp

    The Python dictionaries that carry a diagram between memory and file are records here:
    a key that is always written is a field, an optional key is an [option]. Conversion
    between a C++ value and a Python object (type_cast.cpp) is the identity on int, bool,
    double, Momentum::K and lists of int (see the trusted base in DESIGN.md); names are
    non-negative. *)
From Coq Require Import ZArith List Bool Arith.
From Verif Require Import Base Num Complex Lattice IndexMap Weights Bundle Momentum Diagram.
Import ListNotations.
Open Scope Z_scope.

Section IO.
Context {N : Num}.

(** keys of a vertex dictionary, diagram_IO.cpp:99-109; SpinIn/SpinOut are the casts of
    the two-valued enum to int and back *)
Record vdict := mkVD { vd_name : nat; vd_R : site; vd_T : real; vd_in : spin; vd_out : spin }.
(** keys of a G dictionary, diagram_IO.cpp:38-47 *)
Record gdict := mkGD { gd_in : nat; gd_out : nat; gd_K : Z; gd_meas : bool; gd_gg : bool }.
(** keys of a W dictionary, diagram_IO.cpp:68-78 *)
Record wdict := mkWD { wd_in : nat; wd_out : nat; wd_K : Z; wd_delta : bool; wd_meas : bool; wd_ww : bool }.
(** keys of the worm dictionary, diagram_IO.cpp:19-27 *)
Record wormdict := mkWoD { wo_ira : nat; wo_masha : nat; wo_ds : Z; wo_K : Z }.
(** keys of the configuration, diagram_IO.cpp:126-146 *)
Record config := mkConf { cf_v : list vdict; cf_g : list gdict; cf_w : list wdict;
                          cf_worm : option wormdict; cf_sfl : real }.

(** ** ToDict *)
(** [->Name] of a pointer *)
Definition name_of (b : bundle) (p : nat) : outcome nat := if (p <? MAX_BUNDLE)%nat then Ok (nm b p) else UB.
(** _ToDict(vertex), diagram_IO.cpp:99-109 *)
Definition to_v (d : diagram) (v : nat) : outcome vdict :=
  Ok (mkVD (nm (vB d) v) (v_R d v) (v_T d v) (v_S d v IN) (v_S d v OUT)).
(** _ToDict(gLine), diagram_IO.cpp:38-47 *)
Definition to_g (d : diagram) (g : nat) : outcome gdict :=
  obind (name_of (vB d) (g_ver d g IN)) (fun a =>
  obind (name_of (vB d) (g_ver d g OUT)) (fun b =>
  Ok (mkGD a b (g_K d g) (g_meas d g) (g_gg d g)))).
(** _ToDict(wLine), diagram_IO.cpp:68-78 *)
Definition to_w (d : diagram) (w : nat) : outcome wdict :=
  obind (name_of (vB d) (w_ver d w IN)) (fun a =>
  obind (name_of (vB d) (w_ver d w OUT)) (fun b =>
  Ok (mkWD a b (w_K d w) (w_delta d w) (w_meas d w) (w_ww d w)))).
(** [for (index = 0; index < HowMany(); index++) List.push_back(_ToDict(B(index)))] *)
Fixpoint to_list {A} (b : bundle) (f : nat -> outcome A) (i n : nat) : outcome (list A) :=
  match n with
  | O => Ok []
  | S n' => obind (bat b i) (fun x => obind (f x) (fun a =>
            obind (to_list b f (S i) n') (fun r => Ok (a :: r))))
  end.
(** _ToDict(WormClass), diagram_IO.cpp:19-27 *)
Definition to_worm (d : diagram) : outcome wormdict :=
  obind (name_of (vB d) (ira d)) (fun a =>
  obind (name_of (vB d) (masha d)) (fun b => Ok (mkWoD a b (wm_ds d) (wm_K d)))).
(** ToDict, diagram_IO.cpp:126-146 *)
Definition ToDict (d : diagram) : outcome config :=
  obind (to_list (vB d) (to_v d) 0 (bhowmany (vB d))) (fun vs =>
  obind (to_list (gB d) (to_g d) 0 (bhowmany (gB d))) (fun gs =>
  obind (to_list (wB d) (to_w d) 0 (bhowmany (wB d))) (fun ws =>
  if wm_ex d then obind (to_worm d) (fun wo => Ok (mkConf vs gs ws (Some wo) (sfl d)))
  else Ok (mkConf vs gs ws None (sfl d))))).

(** ** FromDict *)
(** [_FromDict(dict, Ver.Add())], diagram_IO.cpp:110-124,155-156: the name in the
    dictionary overwrites the one given by Add *)
Definition from_v (x : vdict) (d : diagram) : outcome diagram :=
  obind (badd (vB d)) (fun vb =>
  let (v, b) := vb in
  let d := s_vB d (mkB (names b) (upd (nm b) v (vd_name x)) (avail b)) in
  let d := s_v_R d (upd (v_R d) v (vd_R x)) in
  let d := s_v_T d (upd (v_T d) v (vd_T x)) in
  Ok (s_v_S d (upd2 (upd2 (v_S d) v IN (vd_in x)) v OUT (vd_out x)))).
(** [_FromDict(dict, W.Add())], diagram_IO.cpp:79-98,157-158 *)
Definition from_w (x : wdict) (d : diagram) : outcome diagram :=
  obind (badd (wB d)) (fun wb =>
  let (w, b) := wb in
  let d := s_wB d b in
  obind (bat (vB d) (wd_in x)) (fun vi =>
  let d := s_w_ver d (upd2 (w_ver d) w IN vi) in
  obind (bat (vB d) (wd_out x)) (fun vo =>
  let d := s_w_ver d (upd2 (w_ver d) w OUT vo) in
  let d := s_w_K d (upd (w_K d) w (wd_K x)) in
  obind (AddWHash (wd_K x) d) (fun d =>
  let d := s_w_delta d (upd (w_delta d) w (wd_delta x)) in
  let d := s_w_meas d (upd (w_meas d) w (wd_meas x)) in
  let d := s_w_ww d (upd (w_ww d) w (wd_ww x)) in
  Ok (if wd_meas x then s_wmeas (s_gmeas (s_measG d false) NULLP) w else d))))).
(** [_FromDict(dict, G.Add())], diagram_IO.cpp:48-66,159-160 *)
Definition from_g (x : gdict) (d : diagram) : outcome diagram :=
  obind (badd (gB d)) (fun gb =>
  let (g, b) := gb in
  let d := s_gB d b in
  obind (bat (vB d) (gd_in x)) (fun vi =>
  let d := s_g_ver d (upd2 (g_ver d) g IN vi) in
  obind (bat (vB d) (gd_out x)) (fun vo =>
  let d := s_g_ver d (upd2 (g_ver d) g OUT vo) in
  let d := s_g_K d (upd (g_K d) g (gd_K x)) in
  obind (AddGHash (gd_K x) d) (fun d =>
  let d := s_g_meas d (upd (g_meas d) g (gd_meas x)) in
  let d := s_g_gg d (upd (g_gg d) g (gd_gg x)) in
  Ok (if gd_meas x then s_wmeas (s_gmeas (s_measG d true) g) NULLP else d))))).
(** range-based for over a list of dictionaries *)
Fixpoint for_each {A} (f : A -> diagram -> outcome diagram) (l : list A) (d : diagram) : outcome diagram :=
  match l with
  | [] => Ok d
  | x :: r => obind (f x d) (for_each f r)
  end.
(** _FromDict(worm), diagram_IO.cpp:28-37 *)
Definition from_worm (x : wormdict) (d : diagram) : outcome diagram :=
  obind (bat (vB d) (wo_ira x)) (fun i =>
  let d := s_ira d i in
  obind (bat (vB d) (wo_masha x)) (fun m =>
  let d := s_masha d m in
  let d := s_wm_ds d (wo_ds x) in
  Ok (s_wm_K d (wo_K x)))).
(** FromDict(Config), diagram_IO.cpp:154-172 *)
Definition FromDict (T : tables) (F : config) (d : diagram) : outcome diagram :=
  obind (ClearDiagram d) (fun d =>
  obind (for_each from_v (cf_v F) d) (fun d =>
  obind (for_each from_w (cf_w F) d) (fun d =>
  obind (for_each from_g (cf_g F) d) (fun d =>
  let d := s_wm_ex d (match cf_worm F with Some _ => true | None => false end) in
  obind (match cf_worm F with Some x => from_worm x d | None => Ok d end) (fun d =>
  FixDiagram T (s_sfl d (cf_sfl F))))))).
(** FromDict(Config, lat, g, w), diagram_IO.cpp:148-152 *)
Definition FromDict4 (T : tables) (F : config) (d : diagram) : outcome diagram :=
  obind (DReset T d) (FromDict T F).

(** ** BuildNew, diagram_IO.cpp:174-201 (SetTest, 203-228, is the same) *)
Definition new_coord (L : lattice) : outcome (list Z) :=
  if (length (Size L) =? 2)%nat then Ok [1; 0]
  else if (length (Size L) =? 3)%nat then Ok [1; 0; 0]
  else Abort.
Definition new_config (co : list Z) : config :=
  mkConf [mkVD 0 (mkSite 0 co) (rofZ 0) UP UP; mkVD 1 (mkSite 0 co) (rofZ 0) UP UP]
         [mkGD 0 1 1 true false; mkGD 1 0 2 false false]
         [mkWD 0 1 1 false false false] None (rofZ 1).
Definition BuildNew (T : tables) (L : lattice) (d : diagram) : outcome diagram :=
  obind (DReset T d) (fun d =>
  obind (new_coord L) (fun co => FromDict T (new_config co) d)).

(** A [Diagram] object just after its constructor ran (diagram.cpp:27-37): the bundles are
    empty, there is no worm and no vertex correction; every other member is whatever the
    memory held. *)
Definition constructed (d : diagram) : Prop :=
  gB d = bundle_new /\ wB d = bundle_new /\ vB d = bundle_new /\
  wm_ex d = false /\ ira d = NULLP /\ masha d = NULLP /\ gamma d = 0.
End IO.
