(** * The measurement module. /repo/src/module/markov/markov_monitor.cpp

    [mon] holds MarkovMonitor's own counters (markov_monitor.h:29-37) and the objects of
    weight::Weight it writes to (weight.h). [Para] and [Diag] are the model's [cfg] and
    [diagram]. Logging is left out. *)
From Coq Require Import ZArith List Bool String DecimalString DecimalNat.
From Verif Require Import Base Num Complex Lattice IndexMap Weights Bundle Diagram Markov Estimator WeightEstimator Gamma3.
Import ListNotations.
Open Scope Z_scope.

Section Monitor.
Context {N : Num}.

(** [m_S], [m_P]: the estimators of Weight->Sigma and Weight->Polar; their index maps are built from
    the same parameters as those of G and W (weight.cpp:152-172), so the maps of [c_tab] are used.
    [m_GG], [m_GW]: the pointers Weight->GammaG and Weight->GammaW. *)
Record mon := mkMon {
  m_worm : ebundle; m_phy : ebundle;
  m_sig : est; m_pol : est; m_gg : est; m_gw : est;
  m_S : west; m_P : west; m_GG : ptr ggam; m_GW : ptr gwam }.
Definition s_m_worm (m : mon) x := mkMon x (m_phy m) (m_sig m) (m_pol m) (m_gg m) (m_gw m) (m_S m) (m_P m) (m_GG m) (m_GW m).
Definition s_m_phy (m : mon) x := mkMon (m_worm m) x (m_sig m) (m_pol m) (m_gg m) (m_gw m) (m_S m) (m_P m) (m_GG m) (m_GW m).
Definition s_m_sig (m : mon) x := mkMon (m_worm m) (m_phy m) x (m_pol m) (m_gg m) (m_gw m) (m_S m) (m_P m) (m_GG m) (m_GW m).
Definition s_m_pol (m : mon) x := mkMon (m_worm m) (m_phy m) (m_sig m) x (m_gg m) (m_gw m) (m_S m) (m_P m) (m_GG m) (m_GW m).
Definition s_m_gg (m : mon) x := mkMon (m_worm m) (m_phy m) (m_sig m) (m_pol m) x (m_gw m) (m_S m) (m_P m) (m_GG m) (m_GW m).
Definition s_m_gw (m : mon) x := mkMon (m_worm m) (m_phy m) (m_sig m) (m_pol m) (m_gg m) x (m_S m) (m_P m) (m_GG m) (m_GW m).
Definition s_m_S (m : mon) x := mkMon (m_worm m) (m_phy m) (m_sig m) (m_pol m) (m_gg m) (m_gw m) x (m_P m) (m_GG m) (m_GW m).
Definition s_m_P (m : mon) x := mkMon (m_worm m) (m_phy m) (m_sig m) (m_pol m) (m_gg m) (m_gw m) (m_S m) x (m_GG m) (m_GW m).
Definition s_m_GG (m : mon) x := mkMon (m_worm m) (m_phy m) (m_sig m) (m_pol m) (m_gg m) (m_gw m) (m_S m) (m_P m) x (m_GW m).
Definition s_m_GW (m : mon) x := mkMon (m_worm m) (m_phy m) (m_sig m) (m_pol m) (m_gg m) (m_gw m) (m_S m) (m_P m) (m_GG m) x.

(** ["Order" + ToString(i)] *)
Definition oname (i : nat) : string := ("Order" ++ NilZero.string_of_uint (Nat.to_uint i))%string.
(** the loop of BuildNew, markov_monitor.cpp:32-35, for i = 0 .. Order *)
Fixpoint addOrders (l : list nat) (b : ebundle) : outcome ebundle :=
  match l with [] => Ok b | i :: r => obind (ebAdd (oname i) b) (addOrders r) end.
(** BuildNew, markov_monitor.cpp:27-45, on default-constructed counters; the weight objects are
    the caller's *)
Definition monBuildNew (c : cfg) (eS eP : west) (G : ptr ggam) (W : ptr gwam) : outcome mon :=
  obind (addOrders (seq 0 (S (Z.to_nat (c_order c)))) eb_new) (fun wb =>
  obind (addOrders (seq 0 (S (Z.to_nat (c_order c)))) eb_new) (fun pb =>
  Ok (mkMon (ebClear wb) (ebClear pb) (Clear est_new) (Clear est_new)
     (if c_gamma3 c then Clear est_new else est_new) (if c_gamma3 c then Clear est_new else est_new) eS eP G W))).

(** ** ToDict and FromDict, markov_monitor.cpp:46-92. [mf_worm] and [mf_phy] are dictionaries keyed
    by estimator name; the other entries are single estimators, the last two absent without Gamma3. *)
Record mfile := mkMF { mf_worm : string -> option edict; mf_phy : string -> option edict;
  mf_sig : edict; mf_pol : edict; mf_gg : option edict; mf_gw : option edict }.
(** EstimatorBundle::ToDict, estimator.cpp:308-316: a later member of the same name would overwrite an earlier one *)
Definition ebToDict (b : ebundle) : string -> option edict :=
  fold_left (fun d p => upds d (fst p) (eToDict (snd p))) (eb_vec b) (fun _ => None).
Definition monToDict (c : cfg) (m : mon) : mfile :=
  mkMF (ebToDict (m_worm m)) (ebToDict (m_phy m)) (eToDict (m_sig m)) (eToDict (m_pol m))
    (if c_gamma3 c then Some (eToDict (m_gg m)) else None) (if c_gamma3 c then Some (eToDict (m_gw m)) else None).
(** EstimatorBundle::FromDict with AllowFailure, estimator.cpp:296-306 *)
Definition ebFromDict (d : string -> option edict) (b : ebundle) : outcome ebundle :=
  obind (mapo (fun p : string * est => match d (fst p) with None => Ok p | Some f => obind (eFromDict f (snd p)) (fun e => Ok (fst p, e)) end) (eb_vec b))
    (fun v => Ok (mkEB v (eb_map b))).
(** FromDict on default-constructed counters; the weight objects are the caller's *)
Definition monFromDict (c : cfg) (f : mfile) (eS eP : west) (G : ptr ggam) (W : ptr gwam) : outcome mon :=
  obind (addOrders (seq 0 (S (Z.to_nat (c_order c)))) eb_new) (fun b =>
  obind (ebFromDict (mf_worm f) b) (fun wb => obind (ebFromDict (mf_phy f) b) (fun pb =>
  obind (eFromDict (mf_sig f) est_new) (fun es => obind (eFromDict (mf_pol f) est_new) (fun ep =>
  obind (match mf_gg f with Some x => if c_gamma3 c then eFromDict x est_new else Ok est_new | None => Ok est_new end) (fun eg =>
  obind (match mf_gw f with Some x => if c_gamma3 c then eFromDict x est_new else Ok est_new | None => Ok est_new end) (fun ew =>
  Ok (mkMon wb pb es ep eg ew eS eP G W)))))))).

(** dereferencing; std::vector<real>::operator[] *)
Definition pderef {A} (p : ptr A) : outcome A := match p with PAt a => Ok a | _ => UB end.
Definition drf (p : nat) : outcome nat := if (p <? MAX_BUNDLE)%nat then Ok p else UB.
Definition rat (l : list real) (i : Z) : outcome real :=
  if i <? 0 then UB else match nth_error l (Z.to_nat i) with Some x => Ok x | None => UB end.

(** the counters of the worm-free branch, markov_monitor.cpp:230-243 *)
Definition phyCount (c : cfg) (d : diagram) (m : mon) : mon :=
  if 0 <? order d then
    if measG d then
      if negb (c_gamma3 c) || (gamma d =? 0) then s_m_sig m (eMeasure (rofZ 1) (m_sig m)) else s_m_gg m (eMeasure (rofZ 1) (m_gg m))
    else
      if negb (c_gamma3 c) || (gamma d =? 0) then s_m_pol m (eMeasure (rofZ 1) (m_pol m)) else s_m_gw m (eMeasure (rofZ 1) (m_gw m))
  else m.
(** normalisation at order 0, markov_monitor.cpp:248-258 *)
Definition measureNorm0 (c : cfg) (d : diagram) (ow : real) (m : mon) : outcome mon :=
  if order d =? 0 then
    if measG d then
      let m := s_m_S m (weMeasureNorm ow (m_S m)) in
      if c_gamma3 c then obind (pderef (m_GG m)) (fun g => Ok (s_m_GG m (PAt (ggMeasureNorm ow g)))) else Ok m
    else
      let m := s_m_P m (weMeasureNorm ow (m_P m)) in
      if c_gamma3 c then obind (pderef (m_GW m)) (fun g => obind (gwMeasureNorm ow g) (fun g => Ok (s_m_GW m (PAt g)))) else Ok m
  else Ok m.
(** Sigma, markov_monitor.cpp:262-268; g->Spin(dir) is the spin of the vertex at that end on the
    side of the line (line.h) *)
Definition measSigma (c : cfg) (d : diagram) (ow : real) (m : mon) : outcome mon :=
  obind (drf (gmeas d)) (fun g => obind (drf (g_ver d g OUT)) (fun vi => obind (drf (g_ver d g IN)) (fun vo =>
  obind (sigmaMeasure (gmap (c_tab c)) (spinZ (v_S d vi IN)) (spinZ (v_S d vo OUT)) (v_R d vi) (v_R d vo) (v_T d vi) (v_T d vo)
           (order d) (cmul_r (dphase d) ow) (m_S m)) (fun e => Ok (s_m_S m e))))).
(** Polar, markov_monitor.cpp:271-277 *)
Definition measPolar (c : cfg) (d : diagram) (ow : real) (m : mon) : outcome mon :=
  obind (drf (wmeas d)) (fun w => obind (drf (w_ver d w OUT)) (fun vi => obind (drf (w_ver d w IN)) (fun vo =>
  obind (polarMeasure (wmap (c_tab c)) (spin4 (v_S d vi)) (spin4 (v_S d vo)) (v_R d vi) (v_R d vo) (v_T d vi) (v_T d vo)
           (order d) (cmul_r (rmul_c (rofZ (-1)) (dphase d)) ow) (m_P m)) (fun e => Ok (s_m_P m e))))).
(** GammaG, markov_monitor.cpp:279-286. GammaGClass::Measure does not use Gr_out, Gspin_out, Uspin. *)
Definition measGammaG (c : cfg) (d : diagram) (ow : real) (m : mon) : outcome mon :=
  obind (drf (gmeas d)) (fun g => obind (drf (g_ver d g OUT)) (fun vi => obind (drf (g_ver d g IN)) (fun vo =>
  obind (pderef (m_GG m)) (fun G =>
  obind (ggMeasure (v_R d vi) (ex_R (uext d)) (v_T d vi) (v_T d vo) (ex_T (uext d)) (v_S d vi IN)
           (cdiv_r (cmul_r (dphase d) ow) (c_ggr c)) G) (fun G => Ok (s_m_GG m (PAt G))))))).
(** GammaW, markov_monitor.cpp:288-295 *)
Definition measGammaW (c : cfg) (d : diagram) (ow : real) (m : mon) : outcome mon :=
  obind (drf (wmeas d)) (fun w => obind (drf (w_ver d w IN)) (fun vi => obind (drf (w_ver d w OUT)) (fun vo =>
  obind (pderef (m_GW m)) (fun G =>
  obind (gwMeasure (v_R d vi) (v_R d vo) (ex_R (uext d)) (v_T d vi) (v_T d vo) (ex_T (uext d)) (v_S d vi) (v_S d vo)
           (cdiv_r (cmul_r (dphase d) ow) (c_gwr c)) G) (fun G => Ok (s_m_GW m (PAt G))))))).
(** Measure, markov_monitor.cpp:214-299 *)
Definition monMeasure (c : cfg) (d : diagram) (m : mon) : outcome mon :=
  obind (rat (c_orw c) (order d)) (fun orw =>
  if wm_ex d then
    obind (ebMeasure (order d) (rofZ 1) (m_worm m)) (fun b =>
    let m := s_m_worm m b in
    Ok (if gamma d =? 0 then
          if measG d then s_m_sig m (eMeasure (rofZ 1) (m_sig m)) else s_m_pol m (eMeasure (rofZ 1) (m_pol m))
        else m))
  else
    obind (ebMeasure (order d) (rofZ 1) (m_phy m)) (fun b =>
    let m := phyCount c d (s_m_phy m b) in
    let ow := rdiv (rofZ 1) orw in
    obind (measureNorm0 c d ow m) (fun m =>
    if order d =? 0 then Ok m
    else if negb (c_gamma3 c) || (gamma d =? 0) then (if measG d then measSigma c d ow m else measPolar c d ow m)
    else if measG d then measGammaG c d ow m else measGammaW c d ow m))).

(** SqueezeStatistics, markov_monitor.cpp:94-110 *)
Definition monSqueeze (c : cfg) (f : real) (m : mon) : outcome mon :=
  obind (weSqueeze f (m_S m)) (fun eS => obind (weSqueeze f (m_P m)) (fun eP =>
  obind (ebSqueeze f (m_worm m)) (fun wb => obind (ebSqueeze f (m_phy m)) (fun pb =>
  obind (eSqueeze f (m_sig m)) (fun es => obind (eSqueeze f (m_pol m)) (fun ep =>
  if c_gamma3 c then
    obind (pderef (m_GG m)) (fun G => obind (ggSqueeze f G) (fun G =>
    obind (pderef (m_GW m)) (fun W => obind (gwSqueeze f W) (fun W =>
    obind (eSqueeze f (m_gg m)) (fun eg => obind (eSqueeze f (m_gw m)) (fun ew =>
    Ok (mkMon wb pb es ep eg ew eS eP (PAt G) (PAt W))))))))
  else Ok (mkMon wb pb es ep (m_gg m) (m_gw m) eS eP (m_GG m) (m_GW m)))))))).

(** ** Reweighting. Only the five reweighting members of Para change. *)
Definition s_orw (c : cfg) x := mkCfg (c_tab c) (c_lat c) (c_beta c) (c_order c) (c_gamma3 c) x (c_wsr c) (c_pr c) (c_ggr c) (c_gwr c).
Definition s_wsr (c : cfg) x := mkCfg (c_tab c) (c_lat c) (c_beta c) (c_order c) (c_gamma3 c) (c_orw c) x (c_pr c) (c_ggr c) (c_gwr c).
Definition s_pr (c : cfg) x := mkCfg (c_tab c) (c_lat c) (c_beta c) (c_order c) (c_gamma3 c) (c_orw c) (c_wsr c) x (c_ggr c) (c_gwr c).
Definition s_ggr (c : cfg) x := mkCfg (c_tab c) (c_lat c) (c_beta c) (c_order c) (c_gamma3 c) (c_orw c) (c_wsr c) (c_pr c) x (c_gwr c).
Definition s_gwr (c : cfg) x := mkCfg (c_tab c) (c_lat c) (c_beta c) (c_order c) (c_gamma3 c) (c_orw c) (c_wsr c) (c_pr c) (c_ggr c) x.
(** Zero(x), utility.cpp:37-40, with eps0 = 1.0e-9, utility.h:18 *)
Definition eps0 : real := rdiv (rofZ 1) (rofZ (10 ^ 9)).
Definition isZero (x : real) : bool := rltb (e_abs x) eps0.
Definition ebValue (i : Z) (b : ebundle) : outcome real := obind (ebAt i b) (fun e => Ok (eValue e)).
Definition ebNorm (i : Z) (b : ebundle) : outcome real := obind (ebAt i b) (fun e => Ok (eNorm e)).
Definition lset (l : list real) (i : Z) (x : real) : list real := lupd (Z.to_nat i) (fun _ => x) l.

(** the sums of PrintOrderReWeight, markov_monitor.cpp:121-127, over the orders i, i+1, ... *)
Fixpoint sums (l : list nat) (m : mon) (wsum psum : real) : outcome (real * real) :=
  match l with
  | [] => Ok (wsum, psum)
  | i :: r => obind (ebValue (Z.of_nat i) (m_worm m)) (fun a => obind (ebValue (Z.of_nat i) (m_phy m)) (fun b =>
      sums r m (radd wsum a) (radd psum b)))
  end.
(** PrintOrderReWeight, markov_monitor.cpp:112-147: assigns WormSpaceReweight (129) *)
Definition monPrint (c : cfg) (m : mon) : outcome cfg :=
  obind (ebAt 0 (m_worm m)) (fun _ => obind (ebAt 0 (m_phy m)) (fun _ =>
  obind (sums (seq 1 (Z.to_nat (c_order c))) m (rofZ 0) (rofZ 0)) (fun '(w, p) => Ok (s_wsr c (rdiv p w))))).

(** the first test of AdjustOrderReWeight, markov_monitor.cpp:152-155: is some order undersampled *)
Fixpoint tooFew (l : list nat) (m : mon) : outcome bool :=
  match l with
  | [] => Ok false
  | i :: r => obind (ebNorm (Z.of_nat i) (m_phy m)) (fun n => if rltb n (rofZ 1000) then Ok true else tooFew r m)
  end.
(** the main loop, markov_monitor.cpp:177-185; [ratio] is Para->OrderTimeRatio, of any length
    (parameter.cpp:84 does not check it) *)
Fixpoint adjLoop (l : list nat) (ratio : list real) (m : mon) (w0 : real) (orw : list real) (wsum psum : real)
  : outcome (list real * real * real) :=
  match l with
  | [] => Ok (orw, wsum, psum)
  | i :: r =>
      obind (ebValue (Z.of_nat i) (m_worm m)) (fun a => obind (ebValue (Z.of_nat i) (m_phy m)) (fun b =>
      let wi := radd a b in
      obind (if isZero wi then Ok orw
             else obind (rat orw (Z.of_nat i)) (fun o => obind (rat ratio (Z.of_nat i)) (fun t =>
                  Ok (lset orw (Z.of_nat i) (rmul o (rdiv (rmul t w0) wi)))))) (fun orw =>
      adjLoop r ratio m w0 orw (radd wsum a) (radd psum b))))
  end.
(** AdjustOrderReWeight, markov_monitor.cpp:150-212: the returned flag and the changed Para *)
Definition monAdjust (c : cfg) (ratio : list real) (m : mon) : outcome (bool * cfg) :=
  obind (tooFew (seq 0 (S (Z.to_nat (c_order c)))) m) (fun few =>
  if few then Ok (false, c)
  else if rltb (eNorm (m_pol m)) (rofZ 1000) then Ok (false, c)
  else if isZero (eValue (m_pol m)) || isZero (eValue (m_sig m)) then Ok (false, c)
  else if c_gamma3 c && (rltb (eNorm (m_gg m)) (rofZ 1000) || rltb (eNorm (m_gw m)) (rofZ 1000)
                         || isZero (eValue (m_gg m)) || isZero (eValue (m_gw m))) then Ok (false, c)
  else
    obind (ebValue 0 (m_worm m)) (fun a => obind (ebValue 0 (m_phy m)) (fun b =>
    obind (adjLoop (seq 1 (Z.to_nat (c_order c))) ratio m (radd a b) (c_orw c) (rofZ 0) (rofZ 0)) (fun '(orw, w, p) =>
    obind (rat orw 0) (fun _ =>
    let c := s_orw c (lset orw 0 (rofZ 1)) in
    if isZero w then Ok (false, c)
    else
      let c := s_wsr c (rmul (c_wsr c) (rdiv p w)) in
      let c := s_pr c (rmul (c_pr c) (rdiv (eValue (m_sig m)) (eValue (m_pol m)))) in
      Ok (true, if c_gamma3 c then
                  s_gwr (s_ggr c (rmul (c_ggr c) (rdiv (eValue (m_sig m)) (eValue (m_gg m)))))
                        (rmul (c_gwr c) (rdiv (eValue (m_pol m)) (eValue (m_gw m))))
                else c)))))).

End Monitor.
