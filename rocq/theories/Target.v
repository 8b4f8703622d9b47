(** * What the random walk is meant to sample (specification for C16)

    Nothing here is part of the program: [target] is the distribution the acceptance ratios of
    markov.cpp and gamma3_updates.cpp are meant to leave invariant, [density] the probability
    (density) with which an update proposes a given new diagram, read off the draws each update
    makes.

    Every W line carries an arbitrary orientation (2 values), and every independent loop momentum
    and the worm's momentum is a dummy label (2*MAX_K+1 values); [labels] averages over them. *)
From Coq Require Import ZArith List Reals.
From Coquelicot Require Import Complex.
From Verif Require Import Base Num NumR Momentum Complex Lattice Bundle Weights Diagram Markov.
Import ListNotations.
Local Open Scope R_scope.

Notation cfgR := (@cfg NumR).
Notation diagramR := (@diagram NumR).

(** numbers of lines and vertices in use *)
Definition nG (d : diagramR) : R := INR (avail (gB d)).
Definition nW (d : diagramR) : R := INR (avail (wB d)).
Definition nV (d : diagramR) : R := INR (avail (vB d)).

(** number of momentum values; number of lattice sites *)
Definition nK : R := 2 * IZR MAX_K + 1.
Definition sites (c : cfgR) : R := IZR (Vol (c_lat c) * SublatVol (c_lat c)).

Definition labels (d : diagramR) : R :=
  (/ 2) ^ (avail (wB d)) * (/ nK) ^ (avail (wB d) + 1 + (if wm_ex d then 1 else 0)).
(** |Weight| times the reweighting factors of order, worm space, polarisation and vertex
    correction; ParaMC, parameter.h:70-90 *)
Definition target (c : cfgR) (d : diagramR) : R :=
  Cmod (re (dweight d), im (dweight d)) *
  nth (Z.to_nat (order d)) (c_orw c) 0 *
  (if wm_ex d then c_wsr c else 1) *
  (if measG d then 1 else c_pr c) *
  (if (gamma d =? 0)%Z then 1 else if measG d then c_ggr c else c_gwr c) *
  labels d.

(** the update that undoes each update *)
Definition inverse (op : Z) : Z :=
  nth (Z.to_nat op)
    [DELETE_WORM; CREATE_WORM; MOVE_WORM_G; MOVE_WORM_W; RECONNECT; DEL_INTERACTION; ADD_INTERACTION;
     DEL_DELTA_INTERACTION; ADD_DELTA_INTERACTION; CHANGE_TAU_VERTEX; CHANGE_R_VERTEX; CHANGE_R_LOOP;
     CHANGE_MEASURE_W2G; CHANGE_MEASURE_G2W; CHANGE_CONTINUS2DELTA; CHANGE_DELTA2CONTINUS;
     CHANGE_SPIN_VERTEX; JUMP_BACK_TO_ORDER1; JUMP_TO_ORDER0; JUMP_FROM_GGGAMMAG_TO_G; JUMP_TO_GGGAMMAG;
     JUMP_FROM_WWGAMMAW_TO_W; JUMP_TO_WWGAMMAW] 0%Z.

(** the draws of each update in diagram [d]: a line or vertex among those in use, a momentum, a
    direction or spin (1/2), a time (density 1/beta), a site *)
Definition draws (c : cfgR) (d : diagramR) : list R :=
  let beta := c_beta c in
  [ / nW d * / nK * / 2                                (* CreateWorm: W line, momentum, spin *)
  ; 1                                                  (* DeleteWorm *)
  ; / 2                                                (* MoveWormOnG: direction *)
  ; 1                                                  (* MoveWormOnW *)
  ; / 2                                                (* Reconnect: direction *)
  ; / nK * / 2 * / 2 * / beta * / beta                 (* AddInteraction: momentum, two directions, two times *)
  ; / 2                                                (* DeleteInteraction: direction *)
  ; / nK * / 2 * / 2 * / beta                          (* AddDeltaInteraction: one time *)
  ; / 2                                                (* DeleteDeltaInteraction: direction *)
  ; / nV d * / beta                                    (* ChangeTauOnVertex: vertex, time *)
  ; 1
  ; / nV d * / sites c                                 (* ChangeRLoop: vertex, site *)
  ; / nW d                                             (* ChangeMeasureFromGToW: W line *)
  ; / nG d                                             (* ChangeMeasureFromWToG: G line *)
  ; / nW d * / beta                                    (* ChangeDeltaToContinuous: W line, time *)
  ; / nW d                                             (* ChangeContinuousToDelta: W line *)
  ; 1
  ; 1                                                  (* JumpToOrder0 *)
  ; / sites c * / beta * / beta * / 2 * / 2            (* JumpBackToOrder1: site, two times, two spins *)
  ; / nG d * / beta                                    (* JumpToGGGammaG: G line, time *)
  ; 1                                                  (* JumpFromGGGammaGToG *)
  ; / nW d * / beta * / sites c                        (* JumpToWWGammaW: W line, time, site *)
  ; 1 ].                                               (* JumpFromWWGammaWToW *)
Definition density (c : cfgR) (op : Z) (d : diagramR) : R :=
  / (if c_gamma3 c then 23 else 19) * nth (Z.to_nat op) (draws c d) 0.

(** reweighting factors, beta and lattice size are positive *)
Definition positive (c : cfgR) : Prop :=
  Forall (fun x : R => 0 < x) (c_orw c) /\ 0 < c_wsr c /\ 0 < c_pr c /\ 0 < c_ggr c /\ 0 < c_gwr c /\ 0 < c_beta c /\ 0 < sites c.
