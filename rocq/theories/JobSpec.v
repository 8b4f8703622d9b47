(** * What a job is meant to compute with (specification for C102-C107)

    Nothing here is part of the program. *)
From Coq Require Import ZArith List Bool String Reals.
From Coquelicot Require Import Complex.
From Verif Require Import Base Num NumR Complex Lattice Bundle Weights Diagram Markov DiagramIO History Estimator WeightEstimator Monitor PyDict Param Env P_WP P_Env Target.
Import ListNotations.
Open Scope Z_scope.

Section Spec.
Context {N : Num} {E : Type} (next : E -> Z * E).
Context (show : E -> string) (read : string -> option E) (seedE : Z -> E) (strOf : @py N -> string) (pid : @py N).
Notation para := (@para N E).
Notation env := (@env N E).

(** the time bin of the pair [tin], [tout] among [p_mtb p] bins of width Beta/MaxTauBin *)
Definition binOf (p : para) (tin tout : real) : Z :=
  let t := rsub tout tin in
  let x := rfloor (rmul t (rdiv (rofZ 1) (rdiv (p_beta p) (rofZ (p_mtb p))))) in
  if rltb t (rofZ 0) then x + p_mtb p else x.
(** the position, in row-major order, of [spin; sublattice; spin; sublattice; displacement; time bin] *)
Definition place (p : para) (nsp s1 s2 : Z) (r1 r2 : site) : Z :=
  (((s1 * SublatVol (p_lat p) + sub r1) * nsp + s2) * SublatVol (p_lat p) + sub r2) * Vol (p_lat p) + CoordiIndex (p_lat p) r1 r2.
Definition placeT (p : para) (nsp s1 s2 : Z) (r1 r2 : site) (t1 t2 : real) : Z :=
  place p nsp s1 s2 r1 r2 * p_mtb p + binOf p t1 t2.
(** the spins at an end of a W line as one of four; the line the worm sits on counts as up-up *)
Definition pairOf (onworm : bool) (s : dir -> spin) : Z := if onworm then 3 else spinZ (s IN) * 2 + spinZ (s OUT).

(** the entries the job holds are the first entries of the three arrays of the weight file [w] *)
Definition holds (e : env) (w : @wtfile N) : Prop :=
  (forall i, (i < List.length (wa_data (e_gs e)))%nat -> nth_error (wa_data (e_gs e)) i = nth_error (snd (wt_G w)) i) /\
  (forall i, (i < List.length (wa_data (e_ws e)))%nat -> nth_error (wa_data (e_ws e)) i = nth_error (snd (wt_W w)) i) /\
  (forall i, (i < List.length (wa_data (e_wd e)))%nat -> nth_error (wa_data (e_wd e)) i = nth_error (snd (wt_D w)) i).

(** every line of the diagram carries the entry its ends select: a measuring line the constant 1, a G
    line an entry of G with the sign of a fermion that goes back in time, an instantaneous W line an
    entry of the delta part of W, any other W line one of the smooth part *)
Definition selected (e : env) : Prop :=
  let p := e_p e in let d := e_d e in
  (forall g, bexist (gB d) g = true ->
     let i := g_ver d g IN in let o := g_ver d g OUT in
     if g_meas d g then g_W d g = c1 else
     exists x, nth_error (wa_data (e_gs e)) (Z.to_nat (placeT p 2 (spinZ (v_S d i OUT)) (spinZ (v_S d o IN)) (v_R d i) (v_R d o) (v_T d i) (v_T d o))) = Some x /\
       g_W d g = rmul_c (rofZ (if rltb (v_T d i) (v_T d o) then 1 else -1)) x) /\
  (forall w, bexist (wB d) w = true ->
     let i := w_ver d w IN in let o := w_ver d w OUT in
     let a := pairOf (w_worm d w) (v_S d i) in let b := pairOf (w_worm d w) (v_S d o) in
     if w_meas d w then w_W d w = c1 else
     if w_delta d w then nth_error (wa_data (e_wd e)) (Z.to_nat (place p 4 a b (v_R d i) (v_R d o))) = Some (w_W d w)
     else nth_error (wa_data (e_ws e)) (Z.to_nat (placeT p 4 a b (v_R d i) (v_R d o) (v_T d i) (v_T d o))) = Some (w_W d w)).

(** two monitors with the same statistics for the orders up to [o] *)
Definition kept_stats (o : Z) (m m' : @mon N) : Prop :=
  weToDict (m_S m') = weToDict (m_S m) /\ weToDict (m_P m') = weToDict (m_P m) /\
  (forall i, 0 <= i <= o -> exists x x' y y', ebAt i (m_worm m) = Ok x /\ ebAt i (m_worm m') = Ok x' /\
     ebAt i (m_phy m) = Ok y /\ ebAt i (m_phy m') = Ok y' /\
     e_acc x' = e_acc x /\ e_norm x' = e_norm x /\ e_acc y' = e_acc y /\ e_norm y' = e_norm y) /\
  e_acc (m_sig m') = e_acc (m_sig m) /\ e_norm (m_sig m') = e_norm (m_sig m) /\
  e_acc (m_pol m') = e_acc (m_pol m) /\ e_norm (m_pol m') = e_norm (m_pol m).
(** the parameters on which the shape of the statistics depends *)
Definition same_grid (p q : para) : Prop := p_order q = p_order p /\ p_mtb q = p_mtb p /\ p_L q = p_L p /\ p_nsub q = p_nsub p.

(** parameters that differ at most in the engine, the counter and the five factors *)
Definition same_setup (p q : para) : Prop :=
  p_version q = p_version p /\ p_beta q = p_beta p /\ p_mtb q = p_mtb p /\ p_mtbt q = p_mtbt p /\ p_order q = p_order p /\ p_nsub q = p_nsub p /\ p_L q = p_L p /\
  p_toss q = p_toss p /\ p_sweep q = p_sweep p /\ p_seed q = p_seed p /\ p_g3 q = p_g3 p /\ p_otr q = p_otr p /\
  p_tprint q = p_tprint p /\ p_tdisk q = p_tdisk p /\ p_tmsg q = p_tmsg p /\ p_trew q = p_trew p.
Definition same_factors (p q : para) : Prop :=
  p_orw q = p_orw p /\ p_wsr q = p_wsr p /\ p_pr q = p_pr p /\ p_ggr q = p_ggr p /\ p_gwr q = p_gwr p.
Definition same_weights (e e' : env) : Prop := e_gs e' = e_gs e /\ e_ws e' = e_ws e /\ e_wd e' = e_wd e.

(** ** Jobs that take no message. [plain e0 e k s]: as [job] of Job.v, started by StartFromNew in
    state [e0]; the fresh diagram must have non-zero line weights, and at a restart the weight file
    must still hold the arrays in use when the job was saved. *)
Inductive plain (e0 : env) : env -> @disk N -> option env -> Prop :=
| pl_new d0 k0 k : constructed d0 -> envBuildNew read seedE strOf d0 k0 = Ok (e0, k) ->
    usable (e_p e0) -> Z.of_nat (List.length (p_orw (e_p e0))) < 2 ^ 63 ->
    (forall g, bexist (gB (e_d e0)) g = true -> nonzero (g_W (e_d e0) g)) ->
    (forall w, bexist (wB (e_d e0)) w = true -> nonzero (w_W (e_d e0) w)) -> plain e0 e0 k None
| pl_hop n e k s e' : plain e0 e k s -> envHop next n e = Ok e' -> p_counter (e_p e') < 2 ^ 63 -> plain e0 e' k s
| pl_measure e k s e' : plain e0 e k s -> envMeasure e = Ok e' -> plain e0 e' k s
| pl_print e k s e' : plain e0 e k s -> envPrint e = Ok e' -> plain e0 e' k s
| pl_adjust e k s e' : plain e0 e k s -> p_order (e_p e) < Z.of_nat (List.length (p_otr (e_p e))) -> envAdjust e = Ok e' -> plain e0 e' k s
| pl_save e k s k' : plain e0 e k s -> envSave show pid e k = Ok k' -> plain e0 e k' (Some e)
| pl_files e k s k' : plain e0 e k s -> k_para k' = k_para k -> k_stat k' = k_stat k -> plain e0 e k' s
| pl_listen e k s e' : plain e0 e k s -> envListen k e = Ok (false, e') -> plain e0 e' k s
| pl_restart e k s d0 e' : plain e0 e k (Some s) -> constructed d0 -> envLoad read seedE strOf d0 k = Ok e' ->
    e_gs e' = e_gs s -> e_ws e' = e_ws s -> e_wd e' = e_wd s -> plain e0 e' k (Some s).
End Spec.

(** ** What a job with parameters [p] is meant to sample: |Weight| times OrderReWeight of the order,
    WormSpaceReweight in worm space, PolarReweight when the measuring line is a W line, and the
    average over the labels (Target.v) *)
Definition jobTarget {E} (p : @para NumR E) (d : diagramR) : R :=
  (Cmod (re (dweight d), im (dweight d)) * nth (Z.to_nat (order d)) (p_orw p) 0%R *
   (if wm_ex d then p_wsr p else 1) * (if measG d then 1 else p_pr p) * labels d)%R.
(** a proposal is made with one of 19 updates and the draws of that update *)
Definition jobDensity {E} (e : @env NumR E) (op : Z) (d : diagramR) : R :=
  (/ 19 * nth (Z.to_nat op) (draws (e_cfg e) d) 0)%R.
