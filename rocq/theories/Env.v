(** * The environment of a Monte Carlo job and its files. /repo/src/environment/envMonteCarlo.cpp

    A job owns its parameters, the weight tables, the diagram and the monitor, and exchanges files
    with the other processes. Only the contents of files matter here: text files hold a Python
    value (pprint and eval are trusted to be inverse), .hkl files the arrays the code stores in
    them (hickle is trusted likewise). Logging is left out. The C++ functions return bool; the
    value is never used (main.cpp). *)
From Coq Require Import ZArith List Bool String.
From Verif Require Import Base Num Complex Lattice IndexMap Weights Diagram Markov DiagramIO DiagramCheck
  Estimator WeightEstimator Gamma3 Monitor PyDict Param ConfigPy.
Import ListNotations.
Open Scope string_scope.
Open Scope Z_scope.

Section Env.
Context {N : Num} {E : Type} (next : E -> Z * E).
(** see Param.v; [pid] is Job.PID *)
Context (show : E -> string) (read : string -> option E) (seedE : Z -> E) (strOf : @py N -> string) (pid : @py N).

(** ** Files. Dictionary::Load and BigLoad (dictionary.cpp:46-55, 65-73) with PropagatePyError
    (object.cpp:59-75): a missing file makes Python raise IOError, which becomes IOInvalid; text that
    does not evaluate (SyntaxError, NameError) becomes RunTimeException. *)
Inductive file (A : Type) : Type := FMissing | FBroken | FHas (a : A).
(** inside [try ... catch (IOInvalid)]: [None] is the catch branch; any other exception ends the job *)
Definition ftry {A} (f : file A) : outcome (option A) :=
  match f with FMissing _ => Ok None | FBroken _ => Abort | FHas _ a => Ok (Some a) end.
(** outside: every exception ends the job *)
Definition fmust {A} (f : file A) : outcome A := match f with FHas _ a => Ok a | _ => Abort end.

(** Job.WeightFile, written by the Dyson process: G["SmoothT"], W["SmoothT"], W["DeltaT"] as shape and
    entries, GGGammaG["SmoothT"] and WWGammaW if present *)
Record wtfile := mkWT { wt_G : list Z * list cplx; wt_W : list Z * list cplx; wt_D : list Z * list cplx;
  wt_gg : option (list Z * list cplx); wt_gw : option (@gwdict N) }.
(** Job.StatisticsFile. The array of GammaWStatis is converted to complex64 by SaveBigDict
    (IO.py:25-27) and not converted back by LoadBigDict (IO.py:31-39): only its shape matters below. *)
Record sfile := mkSF { sf_S : wfile; sf_P : wfile; sf_gg : option wfile; sf_gw : option (list Z); sf_mon : @mfile N }.
Record disk := mkDisk { k_input : file (@py N); k_para : file (@py N); k_weight : file wtfile; k_stat : file sfile;
  k_msg : file (@py N); k_fermi : file (@py N); k_bose : file (@py N) }.
Definition s_k_para (k : disk) x := mkDisk (k_input k) x (k_weight k) (k_stat k) (k_msg k) (k_fermi k) (k_bose k).
Definition s_k_stat (k : disk) x := mkDisk (k_input k) (k_para k) (k_weight k) x (k_msg k) (k_fermi k) (k_bose k).

(** ** EnvMonteCarlo, environment.h:20-45. [p_rng] and [p_counter] of [e_p] are the engine and the counter
    Markov works on (markov.cpp:91, 106). [e_gs], [e_ws], [e_wd]: the arrays of Weight.G and Weight.W;
    Sigma, Polar, GammaG and GammaW are in [e_m]. *)
Record env := mkEnv { e_p : @para N E; e_gs : warray; e_ws : warray; e_wd : warray; e_d : diagram;
  e_prop : Z -> Z -> real; e_accs : Z -> Z -> real; e_m : mon }.

(** the index maps of GClass and WClass, component.cpp:18-22, 56-60 (and of Sigma and Polar, 95-100, 136-140),
    for IsAllTauSymmetric = false (main.cpp:52) *)
Definition gmapOf (p : @para N E) : imap := mkIM (p_beta p) (p_mtb p) (p_lat p) (-1) 2.
Definition wmapOf (p : @para N E) : imap := mkIM (p_beta p) (p_mtb p) (p_lat p) 1 4.
(** an array as a function of the index; the index is tested before (IndexMap.v) *)
Definition arr (a : warray) (i : Z) : cplx := nth (Z.to_nat i) (wa_data a) c0.
Definition okc (o : outcome cplx) : cplx := match o with Ok c => c | _ => c0 end.
(** NormFactor, weight.cpp:48, 74 (int arithmetic; overflow not modelled) *)
Definition normOf (p : @para N E) : real := rofZ (Vol (p_lat p) * SublatVol (p_lat p)).
(** Weight.G and Weight.W as the tables of Weights.v. The measuring tables are constant 1
    (component.cpp:22-25, 64-67). The three-point functions are evaluated where they are set
    (weight.cpp:98-99, only with runGamma3); an access outside their arrays, which Gamma3.v distinguishes, gives 0 here. *)
Definition tabOf (p : @para N E) (gs ws wd : warray) (GG : ptr ggam) (GW : ptr gwam) : tables :=
  mkTab (gmapOf p) (wmapOf p) (arr gs) (fun _ => c1) (arr ws) (arr wd) (fun _ => c1)
    (match p_g3 p, GG with true, PAt g => Some (fun rin _ ur tin tout ut sin _ _ => okc (ggWeight rin ur tin tout ut sin g)) | _, _ => None end)
    (match p_g3 p, GW with true, PAt g => Some (fun rin rout ur tin tout ut sin sout _ => okc (gwWeight rin rout ur tin tout ut sin sout g)) | _, _ => None end)
    (normOf p).
Definition cfgWith (p : @para N E) (T : tables) : cfg :=
  mkCfg T (p_lat p) (p_beta p) (p_order p) (p_g3 p) (p_orw p) (p_wsr p) (p_pr p) (p_ggr p) (p_gwr p).
Definition e_tab (e : env) : tables := tabOf (e_p e) (e_gs e) (e_ws e) (e_wd e) (m_GG (e_m e)) (m_GW (e_m e)).
(** what Markov::Reset (markov.cpp:87-107) and the monitor see *)
Definition e_cfg (e : env) : cfg := cfgWith (e_p e) (e_tab e).
Definition e_s (e : env) : mstate := mkS (e_d e) (p_rng (e_p e)) (p_counter (e_p e)) (e_prop e) (e_accs e).

(** ** weight::Weight *)
(** _LoadBasis from the two files, weight.cpp:183-201 *)
Definition diskBasis (beta : real) (k : disk) : outcome nat :=
  obind (fmust (k_fermi k)) (fun f => obind (fmust (k_bose k)) (fun b =>
  obind (loadBasis beta f b) (fun '(_, B) => Ok (List.length B)))).
(** FromDict with flag GW, weight.cpp:70-80, with _AllocateGW, 152-161, and WeightArray::FromDict *)
Definition loadGW (p : @para N E) (k : disk) (w : wtfile) : outcome (warray * warray * warray) :=
  obind (diskBasis (p_beta p) k) (fun _ =>
  obind (waLoad (fst (wt_G w)) (snd (wt_G w)) (waAllocate (shape (gmapOf p)))) (fun gs =>
  obind (waLoad (fst (wt_W w)) (snd (wt_W w)) (waAllocate (shape (wmapOf p)))) (fun ws =>
  obind (waLoad (fst (wt_D w)) (snd (wt_D w)) (waAllocate (firstn 5 (shape (wmapOf p))))) (fun wd =>
  Ok (gs, ws, wd))))).
(** FromDict with flag GammaGW, weight.cpp:85-100 *)
Definition loadG3 (p : @para N E) (k : disk) (w : wtfile) (pg : ptr ggam) (pw : ptr gwam) : outcome (ptr ggam * ptr gwam) :=
  obind (diskBasis (p_beta p) k) (fun nb =>
  obind (loadGammaGW (p_lat p) (p_beta p) (p_mtb p) (p_mtbt p) nb (normOf p) (wt_gg w) (wt_gw w) pg pw) (fun '(g, v) =>
  Ok (PAt g, PAt v))).
(** BuildNew(SigmaPolar), weight.cpp:43-60 *)
Definition newSP (p : @para N E) (k : disk) : outcome (west * west) :=
  obind (diskBasis (p_beta p) k) (fun _ =>
  if p_order p =? 0 then Abort else
  obind (weAllocate (gmapOf p) (p_order p) (normOf p)) (fun eS =>
  obind (weAllocate (wmapOf p) (p_order p) (normOf p)) (fun eP => Ok (weClear eS, weClear eP)))).
(** FromDict with flag SigmaPolar, weight.cpp:81-85 *)
Definition loadSP (p : @para N E) (k : disk) (s : sfile) : outcome (west * west) :=
  obind (diskBasis (p_beta p) k) (fun _ =>
  obind (weAllocate (gmapOf p) (p_order p) (normOf p)) (fun eS =>
  obind (weAllocate (wmapOf p) (p_order p) (normOf p)) (fun eP =>
  obind (weFromDict (sf_S s) eS) (fun eS => obind (weFromDict (sf_P s) eP) (fun eP => Ok (eS, eP)))))).
(** GammaWClass::StatisFromDict, gamma3.cpp:519-529, of an array of complex64: the 8-byte entries are read
    as 16-byte ones, past the end of the buffer unless there are none *)
Definition gwStatis64 (shp : list Z) (g : gwam) : outcome gwam :=
  match gw_accu g with
  | None => UB
  | Some a => obind (eq_upto 2 (tl shp) (tl (wa_shape a))) (fun b =>
      if b then (if prod32 shp =? 0 then Ok (s_gw_accu g (Some (waFill c0 a))) else UB) else Abort)
  end.
(** FromDict with flag GammaGWStatis, weight.cpp:101-113 *)
Definition loadG3S (p : @para N E) (k : disk) (s : sfile) (pg : ptr ggam) (pw : ptr gwam) : outcome (ptr ggam * ptr gwam) :=
  obind (diskBasis (p_beta p) k) (fun _ =>
  match pg, pw with
  | PAt g, PAt w =>
      match sf_gg s, sf_gw s with
      | Some fg, Some fw => obind (ggStatisFromDict fg g) (fun g => obind (gwStatis64 fw w) (fun w => Ok (PAt g, PAt w)))
      | _, _ => obind (clearGammaGW (g, w)) (fun '(g, w) => Ok (PAt g, PAt w))
      end
  | PWild, _ | _, PWild => UB
  | _, _ => Abort
  end).

(** ** BuildNew, envMonteCarlo.cpp:27-52, on a newly constructed environment: the diagram is [d0], the
    pointers GammaG and GammaW are uninitialised (weight.cpp:18-25) *)
Definition zeros : Z -> Z -> real := fun _ _ => rofZ 0.
Definition envBuildNew (d0 : diagram) (k : disk) : outcome (env * disk) :=
  obind (fmust (k_input k)) (fun o => obind (dLoad o []) (fun m =>
  obind (dGet cvDict "Para" m) (fun pm => obind (paraFromDict read seedE strOf pm) (fun p =>
  obind (fmust (k_weight k)) (fun w =>
  obind (loadGW p k w) (fun '(gs, ws, wd) =>
  obind (if p_g3 p then loadG3 p k w PWild PWild else Ok (PWild, PWild)) (fun '(GG, GW) =>
  obind (newSP p k) (fun '(eS, eP) =>
  let T := tabOf p gs ws wd GG GW in
  obind (BuildNew T (p_lat p) d0) (fun d =>
  obind (monBuildNew (cfgWith p T) eS eP GG GW) (fun mn =>
  obind (ToDict d) (fun F =>
  Ok (mkEnv p gs ws wd d zeros zeros mn, s_k_para k (FHas _ (toDict (dset "Config" (toDict (confToPy F)) m))))))))))))))).

(** ** Load, envMonteCarlo.cpp:58-93 *)
Definition envLoad (d0 : diagram) (k : disk) : outcome env :=
  obind (ftry (k_para k)) (fun f =>
  obind (match f with Some o => Ok o | None => fmust (k_input k) end) (fun o =>
  obind (dLoad o []) (fun m =>
  obind (dGet cvDict "Para" m) (fun pm => obind (paraFromDict read seedE strOf pm) (fun p =>
  obind (fmust (k_weight k)) (fun w => obind (fmust (k_stat k)) (fun s =>
  obind (loadGW p k w) (fun '(gs, ws, wd) =>
  obind (loadSP p k s) (fun '(eS, eP) =>
  obind (if p_g3 p then obind (loadG3 p k w PWild PWild) (fun '(GG, GW) => loadG3S p k s GG GW) else Ok (PWild, PWild)) (fun '(GG, GW) =>
  let T := tabOf p gs ws wd GG GW in
  obind (match f with
         | Some _ => obind (dGet cvDict "Config" m) (fun cm => obind (confOfPy cm) (fun F => FromDict4 T F d0))
         | None => BuildNew T (p_lat p) d0
         end) (fun d =>
  obind (monFromDict (cfgWith p T) (sf_mon s) eS eP GG GW) (fun mn =>
  Ok (mkEnv p gs ws wd d zeros zeros mn))))))))))))).

(** ** Save, envMonteCarlo.cpp:95-113: the parameter file is written in place, then the statistics file
    (by renaming, IO.py:28-29). [envSavePara] is the part up to line 103. *)
Definition envSavePara (e : env) (k : disk) : outcome disk :=
  obind (ToDict (e_d e)) (fun F =>
  Ok (s_k_para k (FHas _ (toDict (dOf [("Para", toDict (paraToDict show (e_p e))); ("Config", toDict (confToPy F)); ("PID", pid)]))))).
(** GammaG != nullptr and GammaW != nullptr are evaluated on the pointers, weight.cpp:130-135 *)
Definition envStat (e : env) : outcome sfile :=
  let m := e_m e in
  obind (if p_g3 (e_p e) then
           match m_GG m, m_GW m with
           | PWild, _ | _, PWild => UB
           | g, w => Ok (match g with PAt g => Some (ggStatisToDict g) | _ => None end,
                         match w with PAt w => option_map (fun a => wa_shape a) (gw_accu w) | _ => None end)
           end
         else Ok (None, None)) (fun '(fg, fw) =>
  Ok (mkSF (weToDict (m_S m)) (weToDict (m_P m)) fg fw (monToDict (e_cfg e) m))).
Definition envSave (e : env) (k : disk) : outcome disk :=
  if gamma (e_d e) =? 0 then
    obind (envSavePara e k) (fun k => obind (envStat e) (fun s => Ok (s_k_stat k (FHas _ s))))
  else Ok k.

(** ** The steps of the main loop, main.cpp:70-120 *)
Definition withState (e : env) (s : mstate) : env :=
  let p := e_p e in
  mkEnv (mkPara (p_version p) (p_beta p) (p_mtb p) (p_mtbt p) (p_order p) (p_nsub p) (p_L p) (mcount s) (p_toss p) (p_sweep p) (p_seed p) (mrng s)
           (p_wsr p) (p_pr p) (p_g3 p) (p_ggr p) (p_gwr p) (p_orw p) (p_otr p) (p_tprint p) (p_tdisk p) (p_tmsg p) (p_trew p))
    (e_gs e) (e_ws e) (e_wd e) (md s) (mprop s) (macc s) (e_m e).
Definition withMon (e : env) (m : mon) : env := mkEnv (e_p e) (e_gs e) (e_ws e) (e_wd e) (e_d e) (e_prop e) (e_accs e) m.
(** the five factors of a [cfg] written back to Para *)
Definition withFactors (e : env) (c : cfg) : env :=
  let p := e_p e in
  mkEnv (mkPara (p_version p) (p_beta p) (p_mtb p) (p_mtbt p) (p_order p) (p_nsub p) (p_L p) (p_counter p) (p_toss p) (p_sweep p) (p_seed p) (p_rng p)
           (c_wsr c) (c_pr c) (p_g3 p) (c_ggr c) (c_gwr c) (c_orw c) (p_otr p) (p_tprint p) (p_tdisk p) (p_tmsg p) (p_trew p))
    (e_gs e) (e_ws e) (e_wd e) (e_d e) (e_prop e) (e_accs e) (e_m e).
Definition envHop (n : Z) (e : env) : outcome env := obind (Hop next (e_cfg e) n (e_s e)) (fun '(_, s) => Ok (withState e s)).
Definition envMeasure (e : env) : outcome env := obind (monMeasure (e_cfg e) (e_d e) (e_m e)) (fun m => Ok (withMon e m)).
Definition envPrint (e : env) : outcome env := obind (monPrint (e_cfg e) (e_m e)) (fun c => Ok (withFactors e c)).
(** AdjustOrderReWeight, envMonteCarlo.cpp:122-147 *)
Definition envAdjust (e : env) : outcome env := obind (monAdjust (e_cfg e) (p_otr (e_p e)) (e_m e)) (fun '(_, c) => Ok (withFactors e c)).

(** ** ListenToMessage, envMonteCarlo.cpp:151-205; the flag says whether the message was taken. With
    runGamma3 and a vertex correction the function does nothing (and returns no value). Weight.Anneal
    (weight.cpp:62-68) renews the index maps, which [tabOf] derives from the parameters. Its effect on
    Sigma and Polar is [weAnneal]. *)
Definition annealed (beta : real) (m : mon) (GG : ptr ggam) (GW : ptr gwam) : mon :=
  s_m_GW (s_m_GG (s_m_P (s_m_S m (weAnneal beta (m_S m))) (weAnneal beta (m_P m))) GG) GW.
Definition envListen (k : disk) (e : env) : outcome (bool * env) :=
  if p_g3 (e_p e) && negb (gamma (e_d e) =? 0) then Ok (false, e) else
  obind (ftry (k_msg k)) (fun fm => match fm with None => Ok (false, e) | Some o =>
  obind (msgLoad o) (fun ms =>
  if ms_version ms <=? p_version (e_p e) then Ok (false, e) else
  obind (ftry (k_weight k)) (fun fw => match fw with None => Ok (false, e) | Some w =>
  let p := updateWith ms (e_p e) in
  obind (loadGW p k w) (fun '(gs, ws, wd) =>
  obind (if p_g3 p then loadG3 p k w (m_GG (e_m e)) (m_GW (e_m e)) else Ok (m_GG (e_m e), m_GW (e_m e))) (fun '(GG, GW) =>
  let T := tabOf p gs ws wd GG GW in
  obind (DReset T (e_d e)) (fun d =>
  obind (monSqueeze (cfgWith p T) (ms_squeeze ms) (annealed (p_beta p) (e_m e) GG GW)) (fun m =>
  obind (CheckDiagram T d) (fun b =>
  if b then Ok (true, mkEnv p gs ws wd d (e_prop e) (e_accs e) m) else Abort)))))
  end))
  end).
End Env.
Arguments FMissing {A}. Arguments FBroken {A}. Arguments FHas {A} a.
