(** * The Markov chain updates. /repo/src/module/markov/markov.cpp, gamma3_updates.cpp

    Every update is a program in the state monad of Base.v over [mstate]. The part of an
    update that is executed on acceptance is a separate function [*_write] from diagrams
    to [outcome diagram]. In each update the diagram is read once at the beginning: up to
    the acceptance test nothing is written to it (except [UExt] in the Gamma updates,
    which is written explicitly).

    [DEBUGMODE] is taken as true (the assertions are live), /repo/src/utility/abort.h. *)
From Coq Require Import ZArith List Bool Arith.
From Verif Require Import Base Num RNG Momentum Complex Lattice Bundle IndexMap Weights Diagram.
Import ListNotations.
Open Scope Z_scope.

Section Markov.
Context {N : Num}.
(** The random engine: an arbitrary state machine. *)
Context {E : Type} (next : E -> Z * E).

(** What Markov::Reset copies or points to, markov.cpp:87-107 *)
Record cfg := mkCfg {
  c_tab : tables;          (* G, W and the normalisation *)
  c_lat : lattice;         (* Lat *)
  c_beta : real;           (* Beta *)
  c_order : Z;             (* Order *)
  c_gamma3 : bool;         (* runGamma3 *)
  c_orw : list real;       (* OrderReWeight *)
  c_wsr : real;            (* WormSpaceReweight *)
  c_pr : real;             (* PolarReweight *)
  c_ggr : real;            (* GammaGReweight *)
  c_gwr : real             (* GammaWReweight *)
}.

(** The mutable state: diagram, engine, Counter, and the statistics arrays
    Proposed/Accepted (markov.h:100-101). *)
Record mstate := mkS {
  md : diagram; mrng : E; mcount : Z;
  mprop : Z -> Z -> real; macc : Z -> Z -> real }.

Definition s_md (s : mstate) (d : diagram) := mkS d (mrng s) (mcount s) (mprop s) (macc s).
Definition s_mrng (s : mstate) (e : E) := mkS (md s) e (mcount s) (mprop s) (macc s).
Definition s_mcount (s : mstate) (n : Z) := mkS (md s) (mrng s) n (mprop s) (macc s).
Definition s_mprop (s : mstate) f := mkS (md s) (mrng s) (mcount s) f (macc s).
Definition s_macc (s : mstate) f := mkS (md s) (mrng s) (mcount s) (mprop s) f.

Local Open Scope monad_scope.
Notation MM := (M mstate).

Definition getD : MM diagram := gets md.
Definition setD (f : diagram -> diagram) : MM unit := modify (fun s => s_md s (f (md s))).
(** run a fallible write on the diagram *)
Definition updD (f : diagram -> outcome diagram) : MM unit :=
  fun s => match f (md s) with
           | Ok d => Ok (tt, s_md s d)
           | Abort => Abort
           | UB => UB
           end.

(** ** Random draws *)
(** one engine output, in [0,2^32) *)
Definition word : MM Z := fun s => let '(x, e) := next (mrng s) in Ok (u32 x, s_mrng s e).
(** RandomFactory::urn, irn: rng.h:48-57 *)
Definition urn : MM real := x <- word ;; ret (urn_of x).
Definition irn (a b : Z) : MM Z := x <- word ;; lift (irn_of a b x).
(** Bundle::RandomPick, component_bundle.cpp:134-138; the result is dereferenced *)
Definition pick (b : bundle) : MM nat := x <- word ;; p <- lift (bpick b x) ;; rd p.

(** RandomPickK, markov.cpp:1663-1666 *)
Definition RandomPickK : MM Z := x <- irn (- MAX_K) MAX_K ;; ret (mkMom x).
(** RandomPickDeltaSpin, markov.cpp:1668-1671 *)
Definition RandomPickDeltaSpin : MM Z := x <- irn 0 1 ;; ret (x * 2 - 1).
(** RandomPickSpin, markov.cpp:1673-1676 *)
Definition RandomPickSpin : MM spin := x <- irn 0 1 ;; ret (if x =? 0 then DOWN else UP).
(** RandomPickDir, markov.cpp:1678-1681 (the int is 0 or 1, used as an array index;
    [dir] has exactly these two values, see [irn]'s range theorem) *)
Definition RandomPickDir : MM dir := x <- irn 0 1 ;; ret (if x =? 0 then IN else OUT).
(** RandomPickTau, markov.cpp:1683-1686 *)
Definition RandomPickTau (c : cfg) : MM real := u <- urn ;; ret (rmul u (c_beta c)).
(** ProbTau, markov.cpp:1688-1691 *)
Definition ProbTau (c : cfg) : real := rdiv (rofZ 1) (c_beta c).
(** RandomPickSite, markov.cpp:1698-1704 *)
Fixpoint pick_coords (sizes : list Z) : MM (list Z) :=
  match sizes with
  | [] => ret []
  | s :: r => x <- irn 0 (s - 1) ;; l <- pick_coords r ;; ret (x :: l)
  end.
Definition RandomPickSite (c : cfg) : MM site :=
  l <- pick_coords (Size (c_lat c)) ;; b <- irn 0 (SublatVol (c_lat c) - 1) ;; ret (mkSite b l).
(** ProbSite, markov.cpp:1735-1738 *)
Definition ProbSite (c : cfg) : real :=
  rdiv (rofZ 1) (rofZ (Vol (c_lat c) * SublatVol (c_lat c))).

(** CanNotMoveWorm(int,spin,spin), markov.cpp:1750-1757 *)
Definition CanNotMoveV (dspin : Z) (sin sout : spin) : bool :=
  ((dspin =? 1) && spin_eqb sin DOWN && spin_eqb sout UP)
  || ((dspin =? -1) && spin_eqb sin UP && spin_eqb sout DOWN).
(** CanNotMoveWorm(int,spin,int), markov.cpp:1769-1784 *)
Definition CanNotMoveG (dspin : Z) (sg : spin) (d : dir) : bool :=
  if dspin =? 1 then
    (dir_eqb d IN && spin_eqb sg DOWN) || (dir_eqb d OUT && spin_eqb sg UP)
  else
    (dir_eqb d IN && spin_eqb sg UP) || (dir_eqb d OUT && spin_eqb sg DOWN).

(** ** Operations and their call probabilities, markov.h:115-141, markov.cpp:67-83 *)
Definition CREATE_WORM := 0.
Definition DELETE_WORM := 1.
Definition MOVE_WORM_G := 2.
Definition MOVE_WORM_W := 3.
Definition RECONNECT := 4.
Definition ADD_INTERACTION := 5.
Definition DEL_INTERACTION := 6.
Definition ADD_DELTA_INTERACTION := 7.
Definition DEL_DELTA_INTERACTION := 8.
Definition CHANGE_TAU_VERTEX := 9.
Definition CHANGE_R_VERTEX := 10.
Definition CHANGE_R_LOOP := 11.
Definition CHANGE_MEASURE_G2W := 12.
Definition CHANGE_MEASURE_W2G := 13.
Definition CHANGE_DELTA2CONTINUS := 14.
Definition CHANGE_CONTINUS2DELTA := 15.
Definition CHANGE_SPIN_VERTEX := 16.
Definition JUMP_TO_ORDER0 := 17.
Definition JUMP_BACK_TO_ORDER1 := 18.
Definition JUMP_TO_GGGAMMAG := 19.
Definition JUMP_FROM_GGGAMMAG_TO_G := 20.
Definition JUMP_TO_WWGAMMAW := 21.
Definition JUMP_FROM_WWGAMMAW_TO_W := 22.

(** markov.h:39-41 *)
Definition MCUpdates : Z := 19.
Definition NUpdates : Z := 23.
Definition nupd (c : cfg) : Z := if c_gamma3 c then NUpdates else MCUpdates.
(** ProbofCall[op] *)
Definition Pc (c : cfg) (op : Z) : real :=
  if op <? nupd c then rdiv (rofZ 1) (rofZ (nupd c)) else rofZ 0.
(** SumofProbofCall[j]: 0.0 plus j+1 additions, markov.cpp:72-73,80-81 *)
Definition SumPc (c : cfg) (j : nat) : real :=
  Nat.iter (S j) (fun x => radd x (Pc c 0)) (rofZ 0).

(** OrderReWeight[i]: reading past the end of the vector is UB *)
Definition orw (c : cfg) (i : Z) : MM real :=
  if i <? 0 then ub
  else match nth_error (c_orw c) (Z.to_nat i) with Some x => ret x | None => ub end.

(** Proposed[op][order] += 1.0, Accepted[op][order] += 1.0: arrays of MAX_ORDER = 10 columns *)
Definition bump (f : Z -> Z -> real) (op o : Z) : Z -> Z -> real :=
  fun a b => if (a =? op) && (b =? o) then radd (f a b) (rofZ 1) else f a b.
Definition propose (op o : Z) : MM unit :=
  guard_ub ((0 <=? o) && (o <? 10)) ;;; modify (fun s => s_mprop s (bump (mprop s) op o)).
Definition accepted (op o : Z) : MM unit :=
  guard_ub ((0 <=? o) && (o <? 10)) ;;; modify (fun s => s_macc s (bump (macc s) op o)).

(** [prob >= 1.0 || RNG->urn() < prob] *)
Definition accept (prob : real) : MM bool :=
  if rleb (rofZ 1) prob then ret true else u <- urn ;; ret (rltb u prob).

(** The common tail of every update: Proposed++, the acceptance test, Accepted++ and the
    writes. *)
Definition decide (op o : Z) (prob : real) (write : diagram -> outcome diagram) : MM unit :=
  propose op o ;;;
  a <- accept prob ;;
  if a then (accepted op o ;;; updD write) else ret tt.

(** [Diag->Phase *= sgn; Diag->Weight *= weightRatio] *)
Definition mulW (wr sgn : cplx) (d : diagram) : diagram :=
  let d := s_dphase d (cmul (dphase d) sgn) in
  s_dweight d (cmul (dweight d) wr).

Definition is0 (x : Z) : bool := x =? 0.
Definition r2 : real := rofZ 2.
(** the literal 0.5 *)
Definition rhalf : real := rdiv (rofZ 1) (rofZ 2).
(** a two-element array {spin at IN, spin at OUT} *)
Definition mkspin (a b : spin) : dir -> spin := fun e => match e with IN => a | OUT => b end.
(** an array of two spins with element [e] flipped *)
Definition flip_at (s : dir -> spin) (e : dir) : dir -> spin :=
  fun e' => if dir_eqb e' e then flip (s e') else s e'.
(** SetSpin(spin* ), component.cpp:113-117; SetVertex 134-141 *)
Definition set_spin (d : diagram) (v : nat) (sp : dir -> spin) : diagram :=
  s_v_S d (upd (v_S d) v sp).
Definition SetVertex (d : diagram) (v : nat) (r : site) (t : real) (sp : dir -> spin) (e : dir) : diagram :=
  let d := s_v_R d (upd (v_R d) v r) in
  let d := s_v_T d (upd (v_T d) v t) in
  let d := set_spin d v sp in
  s_v_D d (upd (v_D d) v e).
(** SetGLine, component.cpp:48-54; SetWLine, component.cpp:81-89 *)
Definition SetGLine (d : diagram) (g : nat) (k : Z) (wt : cplx) (ismeas isgg : bool) : diagram :=
  let d := s_g_K d (upd (g_K d) g k) in
  let d := s_g_W d (upd (g_W d) g wt) in
  let d := s_g_meas d (upd (g_meas d) g ismeas) in
  s_g_gg d (upd (g_gg d) g isgg).
Definition SetWLine (d : diagram) (w : nat) (k : Z) (wt : cplx) (isworm ismeas isdelta isww : bool) : diagram :=
  let d := s_w_K d (upd (w_K d) w k) in
  let d := s_w_W d (upd (w_W d) w wt) in
  let d := s_w_worm d (upd (w_worm d) w isworm) in
  let d := s_w_meas d (upd (w_meas d) w ismeas) in
  let d := s_w_delta d (upd (w_delta d) w isdelta) in
  s_w_ww d (upd (w_ww d) w isww).

(** ** CreateWorm, markov.cpp:359-408 *)
Definition create_write (w vi vo : nat) (dspin kWorm kW : Z) (wWeight wr sgn : cplx) (wormWeight : real)
  (d : diagram) : outcome diagram :=
  let d := mulW wr sgn d in
  let d := s_wm_ex d true in
  let d := s_ira d vi in
  let d := s_masha d vo in
  let d := s_wm_ds d dspin in
  let d := s_wm_K d kWorm in
  let d := s_wm_W d wormWeight in
  obind (ReplaceWHash (w_K d w) kW d) (fun d =>
  let d := s_w_K d (upd (w_K d) w kW) in
  let d := s_w_worm d (upd (w_worm d) w true) in
  Ok (s_w_W d (upd (w_W d) w wWeight))).

Definition CreateWorm (c : cfg) : MM unit :=
  d <- getD ;;
  if is0 (order d) || wm_ex d then ret tt else
  w <- pick (wB d) ;;
  vi <- rd (w_ver d w IN) ;;
  vo <- rd (w_ver d w OUT) ;;
  kWorm <- RandomPickK ;;
  let kW := ksub (w_K d w) kWorm in
  hk <- lift (WHashCheck d kW) ;;
  if hk : bool then ret tt else
  dspin <- RandomPickDeltaSpin ;;
  if CanNotMoveV dspin (v_S d vi IN) (v_S d vi OUT)
     && CanNotMoveV (- dspin) (v_S d vo IN) (v_S d vo OUT) then ret tt else
  wWeight <- lift (WWeight (c_tab c) (v_R d vi) (v_R d vo) (v_T d vi) (v_T d vo)
                     (v_S d vi) (v_S d vo) true (w_meas d w) (w_delta d w) (w_ww d w) (uext d)) ;;
  let wr := cdiv wWeight (w_W d w) in
  let sgn := phase wr in
  let wormWeight := WormWeight in
  let prob := rmul (cmod wr)
      (rmul (rmul (rmul (rmul (rdiv (Pc c DELETE_WORM) (Pc c CREATE_WORM)) (c_wsr c)) wormWeight)
               (rofZ (order d))) r2) in
  decide CREATE_WORM (order d) prob
    (create_write w vi vo dspin kWorm kW wWeight wr sgn wormWeight).

(** ** DeleteWorm, markov.cpp:413-451 *)
Definition delete_write (w : nat) (k : Z) (wWeight wr sgn : cplx) (d : diagram) : outcome diagram :=
  let d := mulW wr sgn d in
  let d := s_wm_ex d false in
  let d := s_w_worm d (upd (w_worm d) w false) in
  obind (ReplaceWHash (w_K d w) k d) (fun d =>
  let d := s_w_K d (upd (w_K d) w k) in
  Ok (s_w_W d (upd (w_W d) w wWeight))).

Definition DeleteWorm (c : cfg) : MM unit :=
  d <- getD ;;
  if is0 (order d) || negb (wm_ex d) then ret tt else
  I <- rd (ira d) ;;
  Ma <- rd (masha d) ;;
  w <- rd (v_W d I) ;;
  if negb (Nat.eqb w (v_W d Ma)) then ret tt else
  let k := kadd (w_K d w) (kscale (SIGN (v_D d I)) (wm_K d)) in
  hk <- lift (WHashCheck d k) ;;
  if hk : bool then ret tt else
  wWeight <- lift (WWeightDir (c_tab c) (v_D d I) (v_R d I) (v_R d Ma) (v_T d I) (v_T d Ma)
                     (v_S d I) (v_S d Ma) false (w_meas d w) (w_delta d w) (w_ww d w) (uext d)) ;;
  let wr := cdiv wWeight (w_W d w) in
  let sgn := phase wr in
  let prob := rmul (cmod wr)
     (rdiv (Pc c CREATE_WORM)
        (rmul (rmul (rmul (rmul (Pc c DELETE_WORM) (c_wsr c)) (wm_W d)) (rofZ (order d))) r2)) in
  decide DELETE_WORM (order d) prob (delete_write w k wWeight wr sgn).

(** ** MoveWormOnG, markov.cpp:456-532 *)
Definition moveG_write (v1 v2 g w1 w2 : nat) (k : Z) (isWormW1 : bool) (spinV1 spinV2 : dir -> spin)
  (gWeight w1Weight w2Weight wr sgn : cplx) (wormWeight : real) (d : diagram) : outcome diagram :=
  let d := mulW wr sgn d in
  let d := s_g_W d (upd (g_W d) g gWeight) in
  obind (ReplaceGHash (g_K d g) k d) (fun d =>
  let d := s_g_K d (upd (g_K d) g k) in
  let d := s_w_W d (upd (w_W d) w1 w1Weight) in
  let d := s_w_worm d (upd (w_worm d) w1 isWormW1) in
  let d := s_w_W d (upd (w_W d) w2 w2Weight) in
  let d := s_w_worm d (upd (w_worm d) w2 true) in
  let d := set_spin d v1 spinV1 in
  let d := set_spin d v2 spinV2 in
  let d := s_ira d v2 in
  Ok (s_wm_W d wormWeight)).

Definition MoveWormOnG (c : cfg) : MM unit :=
  d <- getD ;;
  if is0 (order d) || negb (wm_ex d) then ret tt else
  I <- rd (ira d) ;;
  dr <- RandomPickDir ;;
  g <- rd (v_G d I dr) ;;
  v2 <- rd (g_ver d g dr) ;;
  if Nat.eqb v2 I || Nat.eqb v2 (masha d) then ret tt else
  sg <- gspin d g ;;
  if CanNotMoveG (wm_ds d) sg dr then ret tt else
  let k := ksub (g_K d g) (kscale (SIGN dr) (wm_K d)) in
  hk <- lift (GHashCheck d k) ;;
  if hk : bool then ret tt else
  w1 <- rd (v_W d I) ;;
  vW1 <- rd (w_ver d w1 (inv (v_D d I))) ;;
  let isWormW1 := if Nat.eqb vW1 v2 then true else IsWorm d vW1 in
  let spinV1 := flip_at (v_S d I) dr in
  w1Weight <- lift (WWeightDir (c_tab c) (v_D d I) (v_R d I) (v_R d vW1) (v_T d I) (v_T d vW1)
                      spinV1 (v_S d vW1) isWormW1 (w_meas d w1) (w_delta d w1) (w_ww d w1) (uext d)) ;;
  w2 <- rd (v_W d v2) ;;
  vW2 <- rd (w_ver d w2 (inv (v_D d v2))) ;;
  let spinV2 := flip_at (v_S d v2) (inv dr) in
  w2Weight <- lift (WWeightDir (c_tab c) (v_D d v2) (v_R d v2) (v_R d vW2) (v_T d v2) (v_T d vW2)
                      spinV2 (v_S d vW2) true (w_meas d w2) (w_delta d w2) (w_ww d w2) (uext d)) ;;
  gWeight <- lift (GWeightDir (c_tab c) (inv dr) (v_R d I) (v_R d v2) (v_T d I) (v_T d v2)
                     (spinV1 dr) (spinV2 (inv dr)) (g_meas d g) (g_gg d g) (uext d)) ;;
  let wr := cdiv (cmul (cmul w1Weight w2Weight) gWeight)
                 (cmul (cmul (g_W d g) (w_W d w1)) (w_W d w2)) in
  let sgn := phase wr in
  _ <- rd (masha d) ;;
  let wormWeight := WormWeight in
  let prob := rmul (cmod wr) (rdiv wormWeight (wm_W d)) in
  decide MOVE_WORM_G (order d) prob
    (moveG_write I v2 g w1 w2 k isWormW1 spinV1 spinV2 gWeight w1Weight w2Weight wr sgn wormWeight).

(** ** MoveWormOnW, markov.cpp:537-576 *)
Definition moveW_write (w v2 : nat) (k : Z) (wWeight wr sgn : cplx) (wormWeight : real)
  (d : diagram) : outcome diagram :=
  let d := mulW wr sgn d in
  let d := s_w_W d (upd (w_W d) w wWeight) in
  obind (ReplaceWHash (w_K d w) k d) (fun d =>
  let d := s_w_K d (upd (w_K d) w k) in
  let d := s_ira d v2 in
  Ok (s_wm_W d wormWeight)).

Definition MoveWormOnW (c : cfg) : MM unit :=
  d <- getD ;;
  if is0 (order d) || negb (wm_ex d) then ret tt else
  I <- rd (ira d) ;;
  w <- rd (v_W d I) ;;
  v2 <- rd (w_ver d w (inv (v_D d I))) ;;
  if Nat.eqb v2 I || Nat.eqb v2 (masha d) then ret tt else
  let k := kadd (w_K d w) (kscale (SIGN (v_D d I)) (wm_K d)) in
  hk <- lift (WHashCheck d k) ;;
  if hk : bool then ret tt else
  wWeight <- lift (WWeightDir (c_tab c) (v_D d I) (v_R d I) (v_R d v2) (v_T d I) (v_T d v2)
                     (v_S d I) (v_S d v2) (w_worm d w) (w_meas d w) (w_delta d w) (w_ww d w) (uext d)) ;;
  let wr := cdiv wWeight (w_W d w) in
  let sgn := phase wr in
  _ <- rd (masha d) ;;
  let wormWeight := WormWeight in
  let prob := rmul (cmod wr) (rdiv wormWeight (wm_W d)) in
  decide MOVE_WORM_W (order d) prob (moveW_write w v2 k wWeight wr sgn wormWeight).

(** ** Reconnect, markov.cpp:581-629 *)
Definition reconnect_write (I Ma : nat) (dr : dir) (GIA GMB : nat) (k : Z)
  (GIAWeight GMBWeight wr sgn : cplx) (d : diagram) : outcome diagram :=
  let d := mulW wr sgn d in
  let d := s_sfl d (rmul (sfl d) (rofZ (-1))) in
  let d := s_wm_K d k in
  let d := s_g_W d (upd (g_W d) GIA GIAWeight) in
  let d := s_g_W d (upd (g_W d) GMB GMBWeight) in
  let d := s_v_G d (upd2 (v_G d) Ma dr GIA) in
  let d := s_g_ver d (upd2 (g_ver d) GIA (inv dr) Ma) in
  let d := s_v_G d (upd2 (v_G d) I dr GMB) in
  Ok (s_g_ver d (upd2 (g_ver d) GMB (inv dr) I)).

Definition Reconnect (c : cfg) : MM unit :=
  d <- getD ;;
  if is0 (order d) || negb (wm_ex d) then ret tt else
  I <- rd (ira d) ;;
  Ma <- rd (masha d) ;;
  if negb (site_eqb (v_R d I) (v_R d Ma)) then ret tt else
  dr <- RandomPickDir ;;
  GIA <- rd (v_G d I dr) ;;
  GMB <- rd (v_G d Ma dr) ;;
  s1 <- gspin d GIA ;;
  s2 <- gspin d GMB ;;
  if negb (spin_eqb s1 s2) then ret tt else
  let k := kadd (wm_K d) (kscale (SIGN dr) (ksub (g_K d GMB) (g_K d GIA))) in
  vA <- rd (g_ver d GIA dr) ;;
  GIAWeight <- lift (GWeightDir (c_tab c) (inv dr) (v_R d Ma) (v_R d vA) (v_T d Ma) (v_T d vA)
                       (v_S d Ma dr) (v_S d vA (inv dr)) (g_meas d GIA) (g_gg d GIA) (uext d)) ;;
  vB <- rd (g_ver d GMB dr) ;;
  GMBWeight <- lift (GWeightDir (c_tab c) (inv dr) (v_R d I) (v_R d vB) (v_T d I) (v_T d vB)
                       (v_S d I dr) (v_S d vB (inv dr)) (g_meas d GMB) (g_gg d GMB) (uext d)) ;;
  let wr := cdiv (cmul (rmul_c (rofZ (-1)) GIAWeight) GMBWeight) (cmul (g_W d GIA) (g_W d GMB)) in
  let prob := cmod wr in
  let sgn := phase wr in
  decide RECONNECT (order d) prob (reconnect_write I Ma dr GIA GMB k GIAWeight GMBWeight wr sgn).

(** ** AddInteraction, markov.cpp:636-750 ([isdelta] = false) and AddDeltaInteraction,
    markov.cpp:844-959 ([isdelta] = true). The two functions differ only in: the second
    time is drawn only in the first; IsDelta of the new line; the operation index; the
    factor ProbTau(tauB). *)
Definition add_write (isdelta : bool) (I Ma : nat) (dr dirW : dir) (GIC GMD : nat)
  (kW kIA kMB kWorm : Z) (RA RB : site) (tauA tauB : real) (spinA spinB : dir -> spin)
  (wWeight GIAWeight GMBWeight GACWeight GBDWeight wr sgn : cplx) (d : diagram) : outcome diagram :=
  let d := s_order d (order d + 1) in
  let d := mulW wr sgn d in
  obind (badd (vB d)) (fun '(vA, b) => let d := s_vB d b in
  obind (badd (vB d)) (fun '(vB', b) => let d := s_vB d b in
  obind (badd (gB d)) (fun '(GIA, b) => let d := s_gB d b in
  obind (badd (gB d)) (fun '(GMB, b) => let d := s_gB d b in
  obind (badd (wB d)) (fun '(WAB, b) => let d := s_wB d b in
  let d := s_v_G d (upd2 (v_G d) vA dr GIC) in
  let d := s_v_G d (upd2 (v_G d) vA (inv dr) GIA) in
  let d := s_v_W d (upd (v_W d) vA WAB) in
  let d := SetVertex d vA RA tauA spinA dirW in
  let d := s_v_G d (upd2 (v_G d) vB' dr GMD) in
  let d := s_v_G d (upd2 (v_G d) vB' (inv dr) GMB) in
  let d := s_v_W d (upd (v_W d) vB' WAB) in
  let d := SetVertex d vB' RB tauB spinB (inv dirW) in
  let d := s_g_ver d (upd2 (g_ver d) GIA (inv dr) I) in
  let d := s_g_ver d (upd2 (g_ver d) GIA dr vA) in
  let d := SetGLine d GIA kIA GIAWeight false false in
  obind (AddGHash kIA d) (fun d =>
  let d := s_g_ver d (upd2 (g_ver d) GMB (inv dr) Ma) in
  let d := s_g_ver d (upd2 (g_ver d) GMB dr vB') in
  let d := SetGLine d GMB kMB GMBWeight false false in
  obind (AddGHash kMB d) (fun d =>
  let d := s_w_ver d (upd2 (w_ver d) WAB dirW vA) in
  let d := s_w_ver d (upd2 (w_ver d) WAB (inv dirW) vB') in
  let d := SetWLine d WAB kW wWeight false false isdelta false in
  obind (AddWHash kW d) (fun d =>
  let d := s_v_G d (upd2 (v_G d) I dr GIA) in
  let d := s_v_G d (upd2 (v_G d) Ma dr GMB) in
  let d := s_g_ver d (upd2 (g_ver d) GIC (inv dr) vA) in
  let d := s_g_ver d (upd2 (g_ver d) GMD (inv dr) vB') in
  let d := s_wm_K d kWorm in
  let d := s_g_W d (upd (g_W d) GIC GACWeight) in
  Ok (s_g_W d (upd (g_W d) GMD GBDWeight)))))))))).

Definition Add_gen (isdelta : bool) (c : cfg) : MM unit :=
  d <- getD ;;
  if negb (wm_ex d) then ret tt else
  if is0 (order d) || (c_order c <=? order d) then ret tt else
  I <- rd (ira d) ;;
  Ma <- rd (masha d) ;;
  kW <- RandomPickK ;;
  hk <- lift (WHashCheck d kW) ;;
  if hk : bool then ret tt else
  dr <- RandomPickDir ;;
  dirW <- RandomPickDir ;;
  GIC <- rd (v_G d I dr) ;;
  GMD <- rd (v_G d Ma dr) ;;
  let kIA := ksub (g_K d GIC) (kscale (SIGN dr * SIGN dirW) kW) in
  let kMB := kadd (g_K d GMD) (kscale (SIGN dr * SIGN dirW) kW) in
  let kWorm := ksub (wm_K d) (kscale (SIGN dirW) kW) in
  h1 <- lift (GHashCheck d kIA) ;;
  if h1 : bool then ret tt else
  h2 <- lift (GHashCheck d kMB) ;;
  if h2 : bool then ret tt else
  if kIA =? kMB then ret tt else
  tauA <- RandomPickTau c ;;
  tauB <- (if isdelta then ret tauA else RandomPickTau c) ;;
  sA <- gspin d GIC ;;
  sB <- gspin d GMD ;;
  let spinA := mkspin sA sA in
  let spinB := mkspin sB sB in
  vC <- rd (g_ver d GIC dr) ;;
  vD <- rd (g_ver d GMD dr) ;;
  let RA := v_R d vC in
  let RB := v_R d vD in
  wWeight <- lift (WWeightDir (c_tab c) dirW RA RB tauA tauB spinA spinB
                     false false isdelta false (uext d)) ;;
  GIAWeight <- lift (GWeightDir (c_tab c) (inv dr) (v_R d I) RA (v_T d I) tauA
                       (v_S d I dr) (spinA (inv dr)) false false (uext d)) ;;
  GMBWeight <- lift (GWeightDir (c_tab c) (inv dr) (v_R d Ma) RB (v_T d Ma) tauB
                       (v_S d Ma dr) (spinB (inv dr)) false false (uext d)) ;;
  GACWeight <- lift (GWeightDir (c_tab c) (inv dr) RA (v_R d vC) tauA (v_T d vC)
                       (spinA dr) (v_S d vC (inv dr)) (g_meas d GIC) (g_gg d GIC) (uext d)) ;;
  GBDWeight <- lift (GWeightDir (c_tab c) (inv dr) RB (v_R d vD) tauB (v_T d vD)
                       (spinB dr) (v_S d vD (inv dr)) (g_meas d GMD) (g_gg d GMD) (uext d)) ;;
  let wr := cdiv (cmul (cmul (cmul (cmul (rmul_c (rofZ (-1)) GIAWeight) GMBWeight) wWeight)
                     GACWeight) GBDWeight)
                 (cmul (g_W d GIC) (g_W d GMD)) in
  let sgn := phase wr in
  o1 <- orw c (order d + 1) ;;
  o0 <- orw c (order d) ;;
  let prob := rmul (cmod wr)
     (if isdelta then
        rdiv (rmul o1 (Pc c DEL_DELTA_INTERACTION))
             (rmul (rmul (Pc c ADD_DELTA_INTERACTION) o0) (ProbTau c))
      else
        rdiv (rmul o1 (Pc c DEL_INTERACTION))
             (rmul (rmul (rmul (Pc c ADD_INTERACTION) o0) (ProbTau c)) (ProbTau c))) in
  decide (if isdelta then ADD_DELTA_INTERACTION else ADD_INTERACTION) (order d) prob
    (add_write isdelta I Ma dr dirW GIC GMD kW kIA kMB kWorm RA RB tauA tauB spinA spinB
       wWeight GIAWeight GMBWeight GACWeight GBDWeight wr sgn).
Definition AddInteraction := Add_gen false.
Definition AddDeltaInteraction := Add_gen true.

(** ** DeleteInteraction, markov.cpp:757-837 ([isdelta] = false) and
    DeleteDeltaInteraction, markov.cpp:966-1046 ([isdelta] = true) *)
Definition del_write (I Ma : nat) (dr : dir) (vA vB' GIA GMB wAB GAC GBD : nat) (kWorm : Z)
  (GICWeight GMDWeight wr sgn : cplx) (d : diagram) : outcome diagram :=
  let d := s_order d (order d - 1) in
  let d := mulW wr sgn d in
  obind (bremove (vB d) vA) (fun b => let d := s_vB d b in
  obind (bremove (vB d) vB') (fun b => let d := s_vB d b in
  obind (RemoveGHash (g_K d GIA) d) (fun d =>
  obind (bremove (gB d) GIA) (fun b => let d := s_gB d b in
  obind (RemoveGHash (g_K d GMB) d) (fun d =>
  obind (bremove (gB d) GMB) (fun b => let d := s_gB d b in
  obind (RemoveWHash (w_K d wAB) d) (fun d =>
  obind (bremove (wB d) wAB) (fun b => let d := s_wB d b in
  let d := s_v_G d (upd2 (v_G d) I dr GAC) in
  let d := s_v_G d (upd2 (v_G d) Ma dr GBD) in
  let d := s_g_ver d (upd2 (g_ver d) GAC (inv dr) I) in
  let d := s_g_ver d (upd2 (g_ver d) GBD (inv dr) Ma) in
  let d := s_wm_K d kWorm in
  let d := s_g_W d (upd (g_W d) GAC GICWeight) in
  Ok (s_g_W d (upd (g_W d) GBD GMDWeight)))))))))).

Definition Del_gen (isdelta : bool) (c : cfg) : MM unit :=
  d <- getD ;;
  if negb (wm_ex d) then ret tt else
  if order d <=? 1 then ret tt else
  I <- rd (ira d) ;;
  Ma <- rd (masha d) ;;
  dr <- RandomPickDir ;;
  GIA <- rd (v_G d I dr) ;;
  GMB <- rd (v_G d Ma dr) ;;
  if g_meas d GIA || g_gg d GIA then ret tt else
  if g_meas d GMB || g_gg d GMB then ret tt else
  vA <- rd (g_ver d GIA dr) ;;
  vB' <- rd (g_ver d GMB dr) ;;
  if negb (spin_eqb (v_S d vA IN) (v_S d vA OUT)) then ret tt else
  if negb (spin_eqb (v_S d vB' IN) (v_S d vB' OUT)) then ret tt else
  if negb (Nat.eqb (v_W d vA) (v_W d vB')) then ret tt else
  wAB <- rd (v_W d vA) ;;
  if w_meas d wAB || w_worm d wAB || xorb isdelta (w_delta d wAB) || w_ww d wAB then ret tt else
  GAC <- rd (v_G d vA dr) ;;
  GBD <- rd (v_G d vB' dr) ;;
  vC <- rd (g_ver d GAC dr) ;;
  vD <- rd (g_ver d GBD dr) ;;
  if negb (site_eqb (v_R d vA) (v_R d vC)) then ret tt else
  if negb (site_eqb (v_R d vB') (v_R d vD)) then ret tt else
  let kWorm := kadd (wm_K d) (kscale (SIGN (v_D d vA)) (w_K d wAB)) in
  GICWeight <- lift (GWeightDir (c_tab c) (inv dr) (v_R d I) (v_R d vC) (v_T d I) (v_T d vC)
                       (v_S d I dr) (v_S d vC (inv dr)) (g_meas d GAC) (g_gg d GAC) (uext d)) ;;
  GMDWeight <- lift (GWeightDir (c_tab c) (inv dr) (v_R d Ma) (v_R d vD) (v_T d Ma) (v_T d vD)
                       (v_S d Ma dr) (v_S d vD (inv dr)) (g_meas d GBD) (g_gg d GBD) (uext d)) ;;
  let wr := cdiv (cmul (rmul_c (rofZ (-1)) GICWeight) GMDWeight)
                 (cmul (cmul (cmul (cmul (g_W d GIA) (g_W d GMB)) (g_W d GAC)) (g_W d GBD)) (w_W d wAB)) in
  let sgn := phase wr in
  om <- orw c (order d - 1) ;;
  o0 <- orw c (order d) ;;
  let prob := rmul (cmod wr)
     (if isdelta then
        rdiv (rmul (rmul om (Pc c ADD_DELTA_INTERACTION)) (ProbTau c))
             (rmul (Pc c DEL_DELTA_INTERACTION) o0)
      else
        rdiv (rmul (rmul (rmul om (Pc c ADD_INTERACTION)) (ProbTau c)) (ProbTau c))
             (rmul (Pc c DEL_INTERACTION) o0)) in
  decide (if isdelta then DEL_DELTA_INTERACTION else DEL_INTERACTION) (order d) prob
    (del_write I Ma dr vA vB' GIA GMB wAB GAC GBD kWorm GICWeight GMDWeight wr sgn).
Definition DeleteInteraction := Del_gen false.
Definition DeleteDeltaInteraction := Del_gen true.

(** ** ChangeTauOnVertex, markov.cpp:1051-1115 *)
Definition tau_write (ver gin gout w : nat) (tau : real) (ginWeight goutWeight wWeight wr sgn : cplx)
  (d : diagram) : outcome diagram :=
  let d := mulW wr sgn d in
  let d := s_v_T d (upd (v_T d) ver tau) in
  let d := s_g_W d (upd (g_W d) gin ginWeight) in
  let d := if negb (Nat.eqb gout gin) then s_g_W d (upd (g_W d) gout goutWeight) else d in
  Ok (s_w_W d (upd (w_W d) w wWeight)).

Definition ChangeTauOnVertex (c : cfg) : MM unit :=
  d <- getD ;;
  if is0 (order d) || wm_ex d then ret tt else
  ver <- pick (vB d) ;;
  w <- rd (v_W d ver) ;;
  if w_delta d w then ret tt else
  tau <- RandomPickTau c ;;
  gin <- rd (v_G d ver IN) ;;
  gout <- rd (v_G d ver OUT) ;;
  vi <- rd (g_ver d gin IN) ;;
  ' (ginWeight, goutWeight) <-
    (if Nat.eqb gin gout then
       a <- lift (GWeight (c_tab c) (v_R d vi) (v_R d ver) tau tau (v_S d vi OUT) (v_S d ver IN)
                    (g_meas d gin) (g_gg d gin) (uext d)) ;;
       ret (a, c0)
     else
       a <- lift (GWeight (c_tab c) (v_R d vi) (v_R d ver) (v_T d vi) tau (v_S d vi OUT) (v_S d ver IN)
                    (g_meas d gin) (g_gg d gin) (uext d)) ;;
       vo <- rd (g_ver d gout OUT) ;;
       b <- lift (GWeight (c_tab c) (v_R d ver) (v_R d vo) tau (v_T d vo) (v_S d ver OUT) (v_S d vo IN)
                    (g_meas d gout) (g_gg d gout) (uext d)) ;;
       ret (a, b)) ;;
  vW <- rd (w_ver d w (inv (v_D d ver))) ;;
  wWeight <- lift (WWeightDir (c_tab c) (v_D d ver) (v_R d ver) (v_R d vW) tau
                     (if Nat.eqb vW ver then tau else v_T d vW) (v_S d ver) (v_S d vW)
                     (w_worm d w) (w_meas d w) (w_delta d w) (w_ww d w) (uext d)) ;;
  let wr := if Nat.eqb gin gout
            then cdiv (cmul ginWeight wWeight) (cmul (g_W d gin) (w_W d w))
            else cdiv (cmul (cmul ginWeight goutWeight) wWeight)
                      (cmul (cmul (g_W d gin) (g_W d gout)) (w_W d w)) in
  let sgn := phase wr in
  let prob := rmul (cmod wr) (rdiv (ProbTau c) (ProbTau c)) in
  decide CHANGE_TAU_VERTEX (order d) prob (tau_write ver gin gout w tau ginWeight goutWeight wWeight wr sgn).

(** ** ChangeRLoop, markov.cpp:1262-1351 *)
(** The while loop, markov.cpp:1276-1284: [v] is v[n], [acc] holds v[0..n-1] in reverse.
    The fuel is the space left in the array [v] (20 entries): writing v[n+1] with
    n+1 = 20 is out of bounds, hence UB. [None]: the function returned because a vertex
    is at another site. *)
Fixpoint loop_walk (d : diagram) (oldR : site) (fuel : nat) (v : nat) (acc : list nat)
  (fV : nat -> bool) (fW : nat -> Z) : MM (option (list nat * (nat -> Z))) :=
  guard_ub (nm (vB d) v <? MAX_BUNDLE)%nat ;;;
  if fV (nm (vB d) v) then ret (Some (rev acc, fW)) else
  let fV := upd fV (nm (vB d) v) true in
  w <- rd (v_W d v) ;;
  guard_ub (nm (wB d) w <? 10)%nat ;;;
  let fW := upd fW (nm (wB d) w) (fW (nm (wB d) w) + 1) in
  match fuel with
  | O => ub
  | S fuel' =>
      g <- rd (v_G d v OUT) ;;
      v' <- rd (g_ver d g OUT) ;;
      if negb (site_eqb (v_R d v') oldR) then ret None else
      loop_walk d oldR fuel' v' (v :: acc) fV fW
  end.

(** The loop computing the new weights, markov.cpp:1299-1330. Returns for each vertex
    of the loop its outgoing line, its interaction line and their new weights. *)
Fixpoint loop_weights (c : cfg) (d : diagram) (newR : site) (vs : list nat) (i : nat) (fW : nat -> Z)
  (newW oldW : cplx) : MM (list (nat * nat * cplx * nat * cplx) * (cplx * cplx)) :=
  match vs with
  | [] => ret ([], (newW, oldW))
  | v :: rest =>
      g <- rd (v_G d v OUT) ;;
      vo <- rd (g_ver d g OUT) ;;
      gw <- lift (GWeight (c_tab c) newR newR (v_T d v) (v_T d vo) (v_S d v OUT) (v_S d vo IN)
                    (g_meas d g) (g_gg d g) (uext d)) ;;
      let newW := cmul newW gw in
      let oldW := cmul oldW (g_W d g) in
      w <- rd (v_W d v) ;;
      vW <- rd (w_ver d w (inv (v_D d v))) ;;
      let f := fW (nm (wB d) w) in
      if f =? 1 then
        ww <- lift (WWeightDir (c_tab c) (v_D d v) newR (v_R d vW) (v_T d v) (v_T d vW)
                      (v_S d v) (v_S d vW) (w_worm d w) (w_meas d w) (w_delta d w) (w_ww d w) (uext d)) ;;
        ' (l, p) <- loop_weights c d newR rest (S i) fW (cmul newW ww) (cmul oldW (w_W d w)) ;;
        ret ((v, g, gw, w, ww) :: l, p)
      else if f =? 2 then
        ww <- lift (WWeightDir (c_tab c) (v_D d v) newR newR (v_T d v) (v_T d vW)
                      (v_S d v) (v_S d vW) (w_worm d w) (w_meas d w) (w_delta d w) (w_ww d w) (uext d)) ;;
        ' (l, p) <- loop_weights c d newR rest (S i) (upd fW (nm (wB d) w) 0)
                      (cmul newW ww) (cmul oldW (w_W d w)) ;;
        ret ((v, g, gw, w, ww) :: l, p)
      else if f =? 0 then
        ww <- lift (WWeightDir (c_tab c) (v_D d v) newR newR (v_T d v) (v_T d vW)
                      (v_S d v) (v_S d vW) (w_worm d w) (w_meas d w) (w_delta d w) (w_ww d w) (uext d)) ;;
        ' (l, p) <- loop_weights c d newR rest (S i) fW newW oldW ;;
        ret ((v, g, gw, w, ww) :: l, p)
      else
        (* WWeight[i] keeps its initialiser, markov.cpp:1294 *)
        ' (l, p) <- loop_weights c d newR rest (S i) fW newW oldW ;;
        ret ((v, g, gw, w, (if (i =? 0)%nat then mkC r1 r0 else c0)) :: l, p)
  end.

(** the writes, markov.cpp:1342-1349 *)
Definition loop_write1 (newR : site) (d : diagram) (x : nat * nat * cplx * nat * cplx) : diagram :=
  let '(v, g, gw, w, ww) := x in
  let d := s_v_R d (upd (v_R d) v newR) in
  let d := s_g_W d (upd (g_W d) g gw) in
  s_w_W d (upd (w_W d) w ww).
Definition loop_write (newR : site) (l : list (nat * nat * cplx * nat * cplx)) (wr sgn : cplx)
  (d : diagram) : outcome diagram :=
  Ok (fold_left (loop_write1 newR) l (mulW wr sgn d)).

Definition ChangeRLoop (c : cfg) : MM unit :=
  d <- getD ;;
  if is0 (order d) || wm_ex d then ret tt else
  guard_abort (c_order c <=? 10) ;;;
  v0 <- pick (vB d) ;;
  let oldR := v_R d v0 in
  r <- loop_walk d oldR 19 v0 [] (fun _ => false) (fun _ => 0) ;;
  match r with
  | None => ret tt
  | Some (vs, fW) =>
      newR <- RandomPickSite c ;;
      ' (l, (newW, oldW)) <- loop_weights c d newR vs 0 fW (mkC r1 r0) (mkC r1 r0) ;;
      let wr := cdiv newW oldW in
      let sgn := phase wr in
      let prob := rmul (cmod wr) (rdiv (ProbSite c) (ProbSite c)) in
      decide CHANGE_R_LOOP (order d) prob (loop_write newR l wr sgn)
  end.

(** ** ChangeMeasureFromGToW, markov.cpp:1356-1403 *)
Definition g2w_write (g w : nat) (gWeight wWeight wr sgn : cplx) (d : diagram) : outcome diagram :=
  let d := mulW wr sgn d in
  let d := s_measG d false in
  let d := s_gmeas d NULLP in
  let d := s_wmeas d w in
  let d := s_g_meas d (upd (g_meas d) g false) in
  let d := s_w_meas d (upd (w_meas d) w true) in
  let d := s_g_W d (upd (g_W d) g gWeight) in
  Ok (s_w_W d (upd (w_W d) w wWeight)).

Definition ChangeMeasureFromGToW (c : cfg) : MM unit :=
  d <- getD ;;
  if is0 (order d) || wm_ex d || negb (measG d) then ret tt else
  if negb (is0 (gamma d)) then ret tt else
  w <- pick (wB d) ;;
  if w_delta d w then ret tt else
  g <- rd (gmeas d) ;;
  vi <- rd (g_ver d g IN) ;;
  vo <- rd (g_ver d g OUT) ;;
  s <- gspin d g ;;
  gWeight <- lift (GWeight (c_tab c) (v_R d vi) (v_R d vo) (v_T d vi) (v_T d vo) s s
                     false false (uext d)) ;;
  wi <- rd (w_ver d w IN) ;;
  wo <- rd (w_ver d w OUT) ;;
  wWeight <- lift (WWeight (c_tab c) (v_R d wi) (v_R d wo) (v_T d wi) (v_T d wo) (v_S d wi) (v_S d wo)
                     (w_worm d w) true (w_delta d w) false (uext d)) ;;
  let wr := cdiv (cmul gWeight wWeight) (cmul (g_W d g) (w_W d w)) in
  let sgn := phase wr in
  let prob := rmul (cmod wr)
     (rdiv (rmul (rmul rhalf (c_pr c)) (Pc c CHANGE_MEASURE_W2G)) (Pc c CHANGE_MEASURE_G2W)) in
  decide CHANGE_MEASURE_G2W (order d) prob (g2w_write g w gWeight wWeight wr sgn).

(** ** ChangeMeasureFromWToG, markov.cpp:1408-1455 *)
Definition w2g_write (g w : nat) (gWeight wWeight wr sgn : cplx) (d : diagram) : outcome diagram :=
  let d := mulW wr sgn d in
  let d := s_measG d true in
  let d := s_gmeas d g in
  let d := s_wmeas d NULLP in
  let d := s_g_meas d (upd (g_meas d) g true) in
  let d := s_w_meas d (upd (w_meas d) w false) in
  let d := s_g_W d (upd (g_W d) g gWeight) in
  Ok (s_w_W d (upd (w_W d) w wWeight)).

Definition ChangeMeasureFromWToG (c : cfg) : MM unit :=
  d <- getD ;;
  if is0 (order d) || wm_ex d || measG d then ret tt else
  if negb (is0 (gamma d)) then ret tt else
  g <- pick (gB d) ;;
  w <- rd (wmeas d) ;;
  if w_delta d w then ret tt else
  vi <- rd (g_ver d g IN) ;;
  vo <- rd (g_ver d g OUT) ;;
  s <- gspin d g ;;
  gWeight <- lift (GWeight (c_tab c) (v_R d vi) (v_R d vo) (v_T d vi) (v_T d vo) s s
                     true false (uext d)) ;;
  wi <- rd (w_ver d w IN) ;;
  wo <- rd (w_ver d w OUT) ;;
  wWeight <- lift (WWeight (c_tab c) (v_R d wi) (v_R d wo) (v_T d wi) (v_T d wo) (v_S d wi) (v_S d wo)
                     (w_worm d w) false (w_delta d w) false (uext d)) ;;
  let wr := cdiv (cmul gWeight wWeight) (cmul (g_W d g) (w_W d w)) in
  let sgn := phase wr in
  let prob := rmul (cmod wr)
     (rdiv (Pc c CHANGE_MEASURE_G2W) (rmul (rmul rhalf (c_pr c)) (Pc c CHANGE_MEASURE_W2G))) in
  decide CHANGE_MEASURE_W2G (order d) prob (w2g_write g w gWeight wWeight wr sgn).

(** ** ChangeDeltaToContinuous, markov.cpp:1460-1514 ([todelta] = false) and
    ChangeContinuousToDelta, markov.cpp:1519-1574 ([todelta] = true). Both compute the
    weights of the line and of the two G lines at vout for a new time of vout: a random
    time in the first, the time of vin in the second. *)
Definition delta_write (todelta : bool) (vo w G1 G2 : nat) (tau : real)
  (wWeight G1Weight G2Weight wr sgn : cplx) (d : diagram) : outcome diagram :=
  let d := mulW wr sgn d in
  let d := s_v_T d (upd (v_T d) vo tau) in
  let d := s_w_delta d (upd (w_delta d) w todelta) in
  let d := s_w_W d (upd (w_W d) w wWeight) in
  let d := s_g_W d (upd (g_W d) G1 G1Weight) in
  Ok (if negb (Nat.eqb G1 G2) then s_g_W d (upd (g_W d) G2 G2Weight) else d).

Definition ChangeDelta_gen (todelta : bool) (c : cfg) : MM unit :=
  d <- getD ;;
  if (order d <? 2) || wm_ex d then ret tt else
  w <- pick (wB d) ;;
  if xorb (negb todelta) (w_delta d w) || w_meas d w || w_ww d w then ret tt else
  vi <- rd (w_ver d w IN) ;;
  vo <- rd (w_ver d w OUT) ;;
  G1 <- rd (v_G d vo IN) ;;
  G2 <- rd (v_G d vo OUT) ;;
  tau <- (if todelta then ret (v_T d vi) else RandomPickTau c) ;;
  wWeight <- lift (WWeight (c_tab c) (v_R d vi) (v_R d vo) (v_T d vi) tau (v_S d vi) (v_S d vo)
                     (w_worm d w) (w_meas d w) todelta (w_ww d w) (uext d)) ;;
  v1 <- rd (g_ver d G1 IN) ;;
  ' (G1Weight, G2Weight) <-
    (if Nat.eqb G1 G2 then
       a <- lift (GWeight (c_tab c) (v_R d v1) (v_R d vo) tau tau (v_S d v1 OUT) (v_S d vo IN)
                    (g_meas d G1) (g_gg d G1) (uext d)) ;;
       ret (a, c0)
     else
       a <- lift (GWeight (c_tab c) (v_R d v1) (v_R d vo) (v_T d v1) tau (v_S d v1 OUT) (v_S d vo IN)
                    (g_meas d G1) (g_gg d G1) (uext d)) ;;
       v2 <- rd (g_ver d G2 OUT) ;;
       b <- lift (GWeightDir (c_tab c) OUT (v_R d v2) (v_R d vo) (v_T d v2) tau
                    (v_S d v2 IN) (v_S d vo OUT) (g_meas d G2) (g_gg d G2) (uext d)) ;;
       ret (a, b)) ;;
  let wr := if Nat.eqb G1 G2
            then cdiv (cmul G1Weight wWeight) (cmul (g_W d G1) (w_W d w))
            else cdiv (cmul (cmul G1Weight G2Weight) wWeight)
                      (cmul (cmul (g_W d G1) (g_W d G2)) (w_W d w)) in
  let sgn := phase wr in
  let prob := rmul (cmod wr)
     (if todelta then
        rdiv (rmul (Pc c CHANGE_DELTA2CONTINUS) (ProbTau c)) (Pc c CHANGE_CONTINUS2DELTA)
      else
        rdiv (Pc c CHANGE_CONTINUS2DELTA) (rmul (Pc c CHANGE_DELTA2CONTINUS) (ProbTau c))) in
  decide (if todelta then CHANGE_CONTINUS2DELTA else CHANGE_DELTA2CONTINUS) (order d) prob
    (delta_write todelta vo w G1 G2 tau wWeight G1Weight G2Weight wr sgn).
Definition ChangeDeltaToContinuous := ChangeDelta_gen false.
Definition ChangeContinuousToDelta := ChangeDelta_gen true.

(** ** JumpToOrder0, markov.cpp:1576-1605 *)
Definition to0_write (c : cfg) (sgn : cplx) (d : diagram) : outcome diagram :=
  let d := s_order d 0 in
  let d := s_dphase d (cmul (dphase d) sgn) in
  Ok (s_dweight d (cofr (normF (c_tab c)))).

Definition JumpToOrder0 (c : cfg) : MM unit :=
  d <- getD ;;
  if wm_ex d || negb (order d =? 1) then ret tt else
  if negb (is0 (gamma d)) then ret tt else
  p1 <- lift (bat (vB d) 0) ;;
  p2 <- lift (bat (vB d) 1) ;;
  Ver1 <- rd p1 ;;
  Ver2 <- rd p2 ;;
  if negb (site_eqb (v_R d Ver1) (v_R d Ver2)) then ret tt else
  let wr := cdiv (cofr (normF (c_tab c))) (dweight d) in
  let sgn := phase wr in
  o0 <- orw c 0 ;;
  o1 <- orw c 1 ;;
  let prob := rmul (cmod wr)
     (rdiv (rmul (rmul (rmul (rmul (rmul (rmul (Pc c JUMP_BACK_TO_ORDER1) (ProbSite c)) (ProbTau c))
                    (ProbTau c)) rhalf) rhalf) o0)
           (rmul (Pc c JUMP_TO_ORDER0) o1)) in
  decide JUMP_TO_ORDER0 (order d) prob (to0_write c sgn).

(** ** JumpBackToOrder1, markov.cpp:1607-1661 *)
Definition to1_write (Ver1 Ver2 G1 G2 W1 : nat) (R : site) (Tau1 Tau2 : real)
  (SpinV1 SpinV2 : dir -> spin) (weightG1 weightG2 weightW wr sgn : cplx) (d : diagram) : outcome diagram :=
  let d := s_order d 1 in
  let d := mulW wr sgn d in
  let d := s_v_R d (upd (v_R d) Ver1 R) in
  let d := s_v_R d (upd (v_R d) Ver2 R) in
  let d := s_v_T d (upd (v_T d) Ver1 Tau1) in
  let d := s_v_T d (upd (v_T d) Ver2 Tau2) in
  let d := set_spin d Ver1 SpinV1 in
  let d := set_spin d Ver2 SpinV2 in
  let d := s_g_W d (upd (g_W d) G1 weightG1) in
  let d := s_g_W d (upd (g_W d) G2 weightG2) in
  Ok (s_w_W d (upd (w_W d) W1 weightW)).

Definition JumpBackToOrder1 (c : cfg) : MM unit :=
  d <- getD ;;
  if negb (is0 (gamma d)) then ret tt else
  if wm_ex d || negb (is0 (order d)) then ret tt else
  R <- RandomPickSite c ;;
  Tau1 <- RandomPickTau c ;;
  Tau2 <- RandomPickTau c ;;
  SpinG1 <- RandomPickSpin ;;
  SpinG2 <- RandomPickSpin ;;
  p1 <- lift (bat (vB d) 0) ;;
  p2 <- lift (bat (vB d) 1) ;;
  Ver1 <- rd p1 ;;
  Ver2 <- rd p2 ;;
  G1 <- rd (v_G d Ver1 OUT) ;;
  G2 <- rd (v_G d Ver2 OUT) ;;
  W1 <- rd (v_W d Ver1) ;;
  let SpinV1 := mkspin SpinG2 SpinG1 in
  let SpinV2 := mkspin SpinG1 SpinG2 in
  weightG1 <- lift (GWeight (c_tab c) R R Tau1 Tau2 SpinG1 SpinG1 (g_meas d G1) false (uext d)) ;;
  weightG2 <- lift (GWeight (c_tab c) R R Tau2 Tau1 SpinG2 SpinG2 (g_meas d G2) false (uext d)) ;;
  weightW <- lift (WWeightDir (c_tab c) (v_D d Ver1) R R Tau1 Tau2 SpinV1 SpinV2
                     false (w_meas d W1) (w_delta d W1) false (uext d)) ;;
  let wr := cdiv (cmul (cmul (rmul_c (rofZ (-1)) weightG1) weightG2) weightW) (dweight d) in
  let sgn := phase wr in
  o1 <- orw c 1 ;;
  o0 <- orw c 0 ;;
  let prob := rmul (cmod wr)
     (rdiv (rmul (Pc c JUMP_TO_ORDER0) o1)
           (rmul (rmul (rmul (rmul (rmul (rmul (Pc c JUMP_BACK_TO_ORDER1) o0) (ProbSite c))
                    (ProbTau c)) (ProbTau c)) rhalf) rhalf)) in
  decide JUMP_BACK_TO_ORDER1 (order d) prob
    (to1_write Ver1 Ver2 G1 G2 W1 R Tau1 Tau2 SpinV1 SpinV2 weightG1 weightG2 weightW wr sgn).

(** ** Gamma updates, gamma3_updates.cpp *)
(** [if(Diag->MeasureGLine) ... ( *GammaGReweight) else ( *GammaWReweight)] *)
Definition gamma_rw (c : cfg) (d : diagram) : real := if measG d then c_ggr c else c_gwr c.

(** ** JumpToGGGammaG, gamma3_updates.cpp:27-83. The external point is written before
    the acceptance test. *)
Definition toGG_write (gAB : nat) (wt wr sgn : cplx) (d : diagram) : outcome diagram :=
  let d := mulW wr sgn d in
  let d := s_gamma d 1 in
  let d := s_vin d (VG gAB IN) in
  let d := s_vout d (VG gAB OUT) in
  let d := s_g_gg d (upd (g_gg d) gAB true) in
  Ok (s_g_W d (upd (g_W d) gAB wt)).

Definition JumpToGGGammaG (c : cfg) : MM unit :=
  d <- getD ;;
  if is0 (order d) || wm_ex d || negb (is0 (gamma d)) then ret tt else
  gAB <- pick (gB d) ;;
  if g_meas d gAB then ret tt else
  vA <- rd (g_ver d gAB IN) ;;
  vB' <- rd (g_ver d gAB OUT) ;;
  s <- gspin d gAB ;;
  tau_u <- RandomPickTau c ;;
  let ext := mkExt (v_R d vA) tau_u UP in
  setD (fun d => s_uext d ext) ;;;
  wt <- lift (GWeight (c_tab c) (v_R d vA) (v_R d vB') (v_T d vA) (v_T d vB') s s false true ext) ;;
  let wr := cdiv wt (g_W d gAB) in
  let sgn := phase wr in
  let prob := rmul (rmul (cmod wr)
     (rdiv (rmul (rmul (Pc c JUMP_FROM_GGGAMMAG_TO_G) r2) (rofZ (order d)))
           (rmul (Pc c JUMP_TO_GGGAMMAG) (ProbTau c)))) (gamma_rw c d) in
  decide JUMP_TO_GGGAMMAG (order d) prob (toGG_write gAB wt wr sgn).

(** [*Diag->Vin], [*Diag->Vout]: reading the vertex pointer stored in the line *)
Definition rdslot (d : diagram) (p : vslot) : MM nat :=
  match p with
  | VNone => ub
  | VG g e => g' <- rd g ;; rd (g_ver d g' e)
  | VW w e => w' <- rd w ;; rd (w_ver d w' e)
  end.

(** ** JumpFromGGGammaGToG, gamma3_updates.cpp:88-139 *)
Definition fromGG_write (gAB : nat) (wt wr sgn : cplx) (d : diagram) : outcome diagram :=
  let d := mulW wr sgn d in
  let d := s_gamma d 0 in
  let d := s_g_W d (upd (g_W d) gAB wt) in
  Ok (s_g_gg d (upd (g_gg d) gAB false)).

Definition JumpFromGGGammaGToG (c : cfg) : MM unit :=
  d <- getD ;;
  if is0 (order d) || wm_ex d || negb (gamma d =? 1) then ret tt else
  vA <- rdslot d (vin d) ;;
  vB' <- rdslot d (vout d) ;;
  gAB <- rd (v_G d vA OUT) ;;
  if negb (site_eqb (v_R d vA) (v_R d vB')) then ret tt else
  if negb (spin_eqb (ex_S (uext d)) UP) then ret tt else
  if negb (site_eqb (v_R d vA) (ex_R (uext d))) then ret tt else
  s <- gspin d gAB ;;
  wt <- lift (GWeight (c_tab c) (v_R d vA) (v_R d vB') (v_T d vA) (v_T d vB') s s false false (uext d)) ;;
  let wr := cdiv wt (g_W d gAB) in
  let sgn := phase wr in
  let prob := rdiv (rmul (cmod wr)
     (rdiv (rmul (Pc c JUMP_TO_GGGAMMAG) (ProbTau c))
           (rmul (rmul (Pc c JUMP_FROM_GGGAMMAG_TO_G) r2) (rofZ (order d))))) (gamma_rw c d) in
  decide JUMP_FROM_GGGAMMAG_TO_G (order d) prob (fromGG_write gAB wt wr sgn).

(** ** JumpToWWGammaW, gamma3_updates.cpp:141-194 *)
Definition toWW_write (wAB : nat) (wt wr sgn : cplx) (d : diagram) : outcome diagram :=
  let d := mulW wr sgn d in
  let d := s_gamma d 2 in
  let d := s_vin d (VW wAB IN) in
  let d := s_vout d (VW wAB OUT) in
  let d := s_w_ww d (upd (w_ww d) wAB true) in
  Ok (s_w_W d (upd (w_W d) wAB wt)).

Definition JumpToWWGammaW (c : cfg) : MM unit :=
  d <- getD ;;
  if is0 (order d) || wm_ex d || negb (is0 (gamma d)) then ret tt else
  wAB <- pick (wB d) ;;
  if w_meas d wAB then ret tt else
  if w_delta d wAB then ret tt else
  vA <- rd (w_ver d wAB IN) ;;
  vB' <- rd (w_ver d wAB OUT) ;;
  tau_u <- RandomPickTau c ;;
  r_u <- RandomPickSite c ;;
  let ext := mkExt r_u tau_u UP in
  setD (fun d => s_uext d ext) ;;;
  wt <- lift (WWeight (c_tab c) (v_R d vA) (v_R d vB') (v_T d vA) (v_T d vB') (v_S d vA) (v_S d vB')
                false false false true ext) ;;
  let wr := cdiv wt (w_W d wAB) in
  let sgn := phase wr in
  let prob := rmul (rmul (cmod wr)
     (rdiv (rmul (Pc c JUMP_FROM_WWGAMMAW_TO_W) (rofZ (order d)))
           (rmul (rmul (Pc c JUMP_TO_WWGAMMAW) (ProbTau c)) (ProbSite c)))) (gamma_rw c d) in
  decide JUMP_TO_WWGAMMAW (order d) prob (toWW_write wAB wt wr sgn).

(** ** JumpFromWWGammaWToW, gamma3_updates.cpp:196-240 *)
Definition fromWW_write (wAB : nat) (wt wr sgn : cplx) (d : diagram) : outcome diagram :=
  let d := mulW wr sgn d in
  let d := s_gamma d 0 in
  let d := s_w_W d (upd (w_W d) wAB wt) in
  Ok (s_w_ww d (upd (w_ww d) wAB false)).

Definition JumpFromWWGammaWToW (c : cfg) : MM unit :=
  d <- getD ;;
  if is0 (order d) || wm_ex d || negb (gamma d =? 2) then ret tt else
  vA <- rdslot d (vin d) ;;
  vB' <- rdslot d (vout d) ;;
  wAB <- rd (v_W d vA) ;;
  if negb (spin_eqb (ex_S (uext d)) UP) then ret tt else
  wt <- lift (WWeight (c_tab c) (v_R d vA) (v_R d vB') (v_T d vA) (v_T d vB') (v_S d vA) (v_S d vB')
                false false false false (uext d)) ;;
  let wr := cdiv wt (w_W d wAB) in
  let sgn := phase wr in
  let prob := rdiv (rmul (cmod wr)
     (rdiv (rmul (rmul (Pc c JUMP_TO_WWGAMMAW) (ProbTau c)) (ProbSite c))
           (rmul (Pc c JUMP_FROM_WWGAMMAW_TO_W) (rofZ (order d))))) (gamma_rw c d) in
  decide JUMP_FROM_WWGAMMAW_TO_W (order d) prob (fromWW_write wAB wt wr sgn).

(** ** Hop, markov.cpp:229-354 *)
(** The chain of [else if]s, in order; CHANGE_R_VERTEX and CHANGE_SPIN_VERTEX have empty
    bodies (markov.cpp:264,281,327,344). *)
Definition mc_ops (c : cfg) : list (MM unit) :=
  [CreateWorm c; DeleteWorm c; MoveWormOnG c; MoveWormOnW c; Reconnect c;
   AddInteraction c; DeleteInteraction c; AddDeltaInteraction c; DeleteDeltaInteraction c;
   ChangeTauOnVertex c; ret tt; ChangeRLoop c; ChangeMeasureFromGToW c; ChangeMeasureFromWToG c;
   ChangeDeltaToContinuous c; ChangeContinuousToDelta c; ret tt; JumpToOrder0 c; JumpBackToOrder1 c].
Definition gamma_ops (c : cfg) : list (MM unit) :=
  [JumpToGGGammaG c; JumpFromGGGammaGToG c; JumpToWWGammaW c; JumpFromWWGammaWToW c].
Definition ops (c : cfg) : list (MM unit) :=
  if c_gamma3 c then mc_ops c ++ gamma_ops c else mc_ops c.

Fixpoint dispatch (c : cfg) (x : real) (j : nat) (l : list (MM unit)) : MM unit :=
  match l with
  | [] => ret tt
  | u :: r => if rltb x (SumPc c j) then u else dispatch c x (S j) r
  end.

Definition hop1 (c : cfg) : MM unit :=
  x <- urn ;;
  dispatch c x 0 (ops c) ;;;
  modify (fun s => s_mcount s (mcount s + 1)).
(** sweep <= 0: no step *)
Fixpoint hops (c : cfg) (n : nat) : MM unit :=
  match n with O => ret tt | S n' => hop1 c ;;; hops c n' end.
Definition Hop (c : cfg) (sweep : Z) : MM unit := hops c (Z.to_nat sweep).
End Markov.
