(** * Lives with annealing (C87, C88) *)
From Coq Require Import ZArith List Bool Arith Lia Reals Lra.
From Verif Require Import Base Num NumF NumR RNG Momentum Complex Lattice Bundle IndexMap Weights Diagram Markov DiagramIO DiagramCheck History
  P_Bundle P_WP P_Inv P_Hop P_Fix P_History P_Promises P_IOProm P_Float P_FloatTau Life P_Life Prop_Markov Prop_IO Prop_Float.
Import ListNotations.
Open Scope Z_scope.

(** ** C87 Whatever sequence of steps, saves, reloads, reweightings and annealings to a Beta that is
    not smaller: every structural promise (C01-C03, C05-C09, C11, C17, C18, C50) holds, the next
    steps succeed, and the next annealing succeeds and changes neither topology, spins, sites,
    times nor momenta. Annealing is taken where the worm exists or its remembered ends have gone
    (C25 refutes the other case). *)
Theorem C87_annealing_keeps_structure :
  forall (N : Num) (E : Type) (next : E -> Z * E) (c : @cfg N) (s : mstate), life next c s -> structural c (md s).
Proof. exact @life_structural. Qed.
Print Assumptions C87_annealing_keeps_structure.
Theorem C87_annealing_goes_on :
  forall (N : Num) (E : Type) (next : E -> Z * E) (c : @cfg N) (s : mstate), life next c s ->
  (forall c' n, retuned c c' -> exists s', Hop next c' n s = Ok (tt, s') /\ life next c s') /\
  (forall c', hotter_not c c' -> cfg_ok c' -> gamma (md s) = 0 -> ends_settled (md s) ->
     exists d', DReset (c_tab c') (md s) = Ok d' /\ structural c' d' /\
       same_diagram (fun v => v) (fun g => g) (fun w => w) (md s) d' /\ order d' = Z.max 1 (order (md s))).
Proof. exact @life_goes_on. Qed.
Print Assumptions C87_annealing_goes_on.
(** in exact arithmetic all times stay in [0, Beta) of the present Beta *)
Theorem C87_annealing_keeps_times :
  forall (E : Type) (next : E -> Z * E) (c : @cfg NumR) (s : mstate), (0 < (c_beta c : R))%R -> life next c s ->
  forall v, bexist (vB (md s)) v = true -> (0 <= (v_T (md s) v : R) < c_beta c)%R.
Proof. exact @life_times. Qed.
Print Assumptions C87_annealing_keeps_times.

(** A run in doubles: CreateWorm, AddInteraction, annealing from Beta = 1 to Beta = 2, the
    tables rebuilt for the new Beta. *)
Definition tabK (b : F64) : @tables NumF :=
  @mkTab NumF (@mkIM NumF b 8 latF (-1) 2) (@mkIM NumF b 8 latF 1 4)
    (fun _ => one) (fun _ => one) (fun _ => one) (fun _ => one) (fun _ => one) None None (fz 1).
Definition cfgK (b : F64) : @cfg NumF := mkCfg (tabK b) latF b 3 false [fz 1; fz 1; fz 1; fz 1] (fz 1) (fz 1) (fz 1) (fz 1).
Lemma cfgK_ok b r : Fin b r -> moderate r -> cfg_ok (cfgK b).
Proof.
  intros F M. apply (setup_ieee (cfgK b) r); cbn [c_order c_orw c_lat c_tab c_beta c_gamma3 cfgK gmap wmap tabK im_lat im_nsp im_maxtau im_beta latF Size SublatVol];
    try lia; try discriminate; try reflexivity; auto; try (cbn; lia); try (repeat constructor).
Qed.
Lemma two_moderate : moderate 2.
Proof.
  split; change 2%R with (Raux.bpow Zaux.radix2 1); apply Raux.bpow_le; lia.
Qed.
Definition w87 : list Z := [opw 0; 0; 10100; 0] ++ [opw 5; 10500; 1; 0; 7; 2 ^ 30; 1; 1; 1; 1; 1].
Definition worm2 (d : @diagram NumF) : bool :=
  wm_ex d && (order d =? 2) && (gamma d =? 0) && negb (forallb (fun v => negb (bexist (vB d) v) || reqb (v_T d v) (fz 0)) (seq 0 20)).
Lemma life_run w n test b : (forall s, history nextF cfgF s -> test (md s) = true -> hotter_not cfgF (cfgK b) /\ gamma (md s) = 0 /\ ends_settled (md s)) ->
  cfg_ok (cfgK b) -> runF w n test = true -> exists s s', life nextF cfgF s /\ test (md s) = true /\ DReset (tabK b) (md s) = Ok (md s') /\ life nextF (cfgK b) s'.
Proof.
  intros T C R. destruct (runF_history w n test R) as (s & H & Ts). destruct (T s H Ts) as (A & G & S).
  pose proof (history_life nextF cfgF s cfgF_ok newF_ok H) as L.
  destruct (proj2 (life_goes_on nextF cfgF s L) (cfgK b) A C G S) as (d' & D & _).
  exists s, (startF [] d'). split; [exact L|]. split; [exact Ts|]. split; [exact D|].
  exact (li_anneal nextF cfgF s (cfgK b) (startF [] d') L A C G S D).
Qed.
(** a diagram of order 2 with a worm and non-zero times, carried from Beta = 1 to Beta = 2 *)
Example C87_case : exists s s', life nextF cfgF s /\ (wm_ex (md s) = true /\ order (md s) = 2) /\ DReset (tabK (fz 2)) (md s) = Ok (md s') /\ life nextF (cfgK (fz 2)) s'.
Proof.
  destruct (life_run w87 2 worm2 (fz 2)) as (s & s' & H1 & T & H2 & H3).
  - intros s H T. unfold worm2 in T. apply andb_prop in T as [T _]. apply andb_prop in T as [T T2]. apply andb_prop in T as [T0 T1].
    split; [repeat split; vm_compute; reflexivity|]. split; [now apply Z.eqb_eq|]. intros X. congruence.
  - apply (cfgK_ok _ 2); [apply (Fin_Zx 2); lia|exact two_moderate].
  - vm_compute. reflexivity.
  - exists s, s'. unfold worm2 in T. apply andb_prop in T as [T _]. apply andb_prop in T as [T T2]. apply andb_prop in T as [T0 T1].
    apply Z.eqb_eq in T1. auto.
Qed.

(** ** C88 Claim: after annealing every vertex time lies in the range of the new Beta. False when the
    message lowers Beta: times are neither scaled nor checked. One ChangeTauOnVertex, then annealing
    from Beta = 1 to Beta = 1/2: Reset succeeds, the built-in check passes, and a vertex keeps a
    time beyond the new Beta. (For a Beta that is not lowered see C87.) *)
Definition w88 : list Z := [opw 9; 0; 2 ^ 30; accw].
Definition tooLate (b : F64) (d : @diagram NumF) : bool :=
  ((gamma d =? 0) && negb (bexist (vB d) (ira d)) && negb (bexist (vB d) (masha d))) &&
  match DReset (tabK b) d with
  | Ok d' => existsb (fun v => bexist (vB d') v && @rltb NumF b (v_T d' v)) (seq 0 20) &&
      match CheckDiagram (tabK b) d' with Ok true => true | _ => false end
  | _ => false end.
Definition half : F64 := @rdiv NumF (fz 1) (fz 2).
Theorem C88_annealing_times_refuted :
  exists (s : @mstate NumF (list Z)) (b : F64) (d' : @diagram NumF) (v : nat), history nextF cfgF s /\ cfg_ok (cfgK b) /\
    gamma (md s) = 0 /\ ends_settled (md s) /\ DReset (c_tab (cfgK b)) (md s) = Ok d' /\ CheckDiagram (c_tab (cfgK b)) d' = Ok true /\
    bexist (vB d') v = true /\ @rltb NumF b (v_T d' v) = true.
Proof.
  destruct (runF_history w88 1 (tooLate half)) as (s & H & T); [vm_compute; reflexivity|].
  unfold tooLate in T. apply andb_prop in T as [T0 T]. destruct (DReset (tabK half) (md s)) as [d'| |] eqn:DR; [|discriminate T|discriminate T].
  apply andb_prop in T as [T1 T2]. apply existsb_exists in T1 as (v & _ & T1). apply andb_prop in T1 as [T1 T3].
  apply andb_prop in T0 as [T0 T6]. apply andb_prop in T0 as [T4 T5]. apply Z.eqb_eq in T4.
  exists s, half, d', v. split; [exact H|]. split.
  - apply (cfgK_ok _ (/ 2)); [|split; change (/ 2)%R with (Raux.bpow Zaux.radix2 (-1)); apply Raux.bpow_le; lia].
    exists (@BinarySingleNaN.B754_finite 53 1024 false 4503599627370496 (-53) eq_refl). split; [vm_compute; reflexivity|]. split; [reflexivity|].
    cbn [BinarySingleNaN.B2R]. unfold Defs.F2R. cbn [Defs.Fnum Defs.Fexp]. cbn. lra.
  - split; [exact T4|]. split; [intros _; split; [now apply negb_true_iff|now apply negb_true_iff]|]. split; [exact DR|].
    split; [|auto]. change (c_tab (cfgK half)) with (tabK half). destruct (CheckDiagram (tabK half) d') as [[]| |]; [reflexivity|discriminate T2|discriminate T2|discriminate T2].
Qed.
Print Assumptions C88_annealing_times_refuted.
