(** * Every step can be undone (C79) *)
From Coq Require Import ZArith List Bool Lia Reals Lra.
From Verif Require Import Base Num NumR NumF RNG Complex Lattice Bundle Weights Diagram Markov DiagramIO History
  P_Bundle P_Inv P_Sem1 P_IO P_History P_Hop P_Weight Target Alike P_Undo P_Reverse Prop_Markov Prop_Weight Prop_IO Prop_Float Prop_Check.
Import ListNotations.
Open Scope Z_scope.

(** C79. Whatever one step did to the diagram, there are random words with which one further step,
    on any engine that yields them, leads back to the diagram before it, up to the numbering of the
    slots ([alike], Alike.v). Hypothesis: the ends of every delta line have equal times. *)
Theorem C79_step_can_be_undone :
  forall (E : Type) (next : E -> Z * E) (c c' : @cfg NumR) (s s' : @mstate NumR E),
  cfg_ok c -> new_ok (c_lat c) -> regular_history next c s -> retuned c c' -> positive c' ->
  (forall w, bexist (wB (md s)) w = true -> w_delta (md s) w = true ->
     v_T (md s) (w_ver (md s) w IN) = v_T (md s) (w_ver (md s) w OUT)) ->
  Hop next c' 1 s = Ok (tt, s') ->
  exists ws, Forall (fun x => 0 <= x < 2^32) ws /\
    forall (E' : Type) (next' : E' -> Z * E') (t : @mstate NumR E'), md t = md s' -> emits next' (mrng t) ws ->
    exists t', Hop next' c' 1 t = Ok (tt, t') /\ exists fv fg fw, alike fv fg fw (md s) (md t').
Proof. exact @step_back_b. Qed.
Print Assumptions C79_step_can_be_undone.

(** every list of words is the output of some engine, so the conclusion is not void *)
Theorem C79_words_occur : forall ws, Forall (fun x => 0 <= x < 2^32) ws ->
  exists (E : Type) (next : E -> Z * E) (e : E), emits next e ws.
Proof.
  intros ws H. exists (list Z), nextF, ws. induction H as [|x l Hx Hl IH]; [exact I|].
  split; [|exact IH]. apply Z.mod_small. exact Hx.
Qed.
Print Assumptions C79_words_occur.

Example C79_case : exists s s', cfg_ok ex_cfg /\ new_ok (c_lat ex_cfg) /\ regular_history ex_next ex_cfg s /\ retuned ex_cfg ex_cfg /\ positive ex_cfg /\
  (forall w, bexist (wB (md s)) w = true -> w_delta (md s) w = true ->
     v_T (md s) (w_ver (md s) w IN) = v_T (md s) (w_ver (md s) w OUT)) /\
  Hop ex_next ex_cfg 1 s = Ok (tt, s').
Proof.
  destruct C22_accepts_case as (s & H1 & H2 & H3 & _ & H4 & _).
  destruct (regular_w ex_next ex_cfg s H1 H2 H3) as (Hh & _).
  pose proof (P_History.history_inv ex_next ex_cfg s ex_cfg_ok ex_new_ok Hh) as HI.
  destruct (Hop_ok ex_next ex_cfg 1 s ex_cfg_ok HI) as (s' & E' & _). exists s, s'.
  repeat (split; [assumption|]). split; [repeat split; cbn; lia|]. split; [|split; assumption].
  split; [repeat constructor; lra|]. cbn. repeat split; try lra. unfold sites. apply (IZR_lt 0). reflexivity.
Qed.

(** Without that hypothesis it is false. The run of C10 followed by CreateWorm, AddInteraction,
    DeleteWorm gives a reachable order-2 diagram with a delta line between different times; an
    accepted ChangeDeltaToContinuous leaves it, and no step of any engine leads back. *)
Definition w79 : list Z := w10 ++ [opw 0; 0; 10300; 0] ++ [opw 5; 10700; 0; 1; 12345; 54321] ++ [opw 1; accw] ++ [opw 14; 0; 77777; accw].
Definition t79a (d : @diagram NumF) : bool :=
  (order d =? 2) && existsb (fun w => bexist (wB d) w && w_delta d w && reqb (v_T d (w_ver d w IN)) (v_T d (w_ver d w IN)) &&
    negb (reqb (v_T d (w_ver d w IN)) (v_T d (w_ver d w OUT)))) (seq 0 20).
Definition t79b (d : @diagram NumF) : bool := (order d =? 2) && forallb (fun w => implb (bexist (wB d) w) (negb (w_delta d w))) (seq 0 20).
Definition run79 : bool :=
  match BuildNew tabF latF diagram_new with
  | Ok d => match Hop nextF cfgF 11 (startF w79 d) with
            | Ok (_, s) => t79a (md s) && match Hop nextF cfgF 1 s with Ok (_, s') => t79b (md s') | _ => false end
            | _ => false end
  | _ => false
  end.
Theorem C79_without_equal_times_refuted :
  exists (s s' : @mstate NumF (list Z)), history nextF cfgF s /\ Hop nextF cfgF 1 s = Ok (tt, s') /\
    forall (E' : Type) (next' : E' -> Z * E') (t t' : @mstate NumF E') fv fg fw,
    md t = md s' -> Hop next' cfgF 1 t = Ok (tt, t') -> ~ alike fv fg fw (md s) (md t').
Proof.
  assert (T : run79 = true) by (vm_compute; reflexivity). unfold run79 in T.
  destruct (BuildNew tabF latF diagram_new) as [d| |] eqn:B; [|discriminate T|discriminate T].
  destruct (Hop nextF cfgF 11 (startF w79 d)) as [[[] s]| |] eqn:H; [|discriminate T|discriminate T].
  apply andb_prop in T as [Ta Tb]. destruct (Hop nextF cfgF 1 s) as [[[] s']| |] eqn:H'; [|discriminate Tb|discriminate Tb].
  assert (Hh : history nextF cfgF s).
  { apply (hi_hop nextF cfgF (startF w79 d) s cfgF 11); [|repeat split; cbn; lia|exact H].
    apply (hi_new nextF cfgF (startF w79 d) diagram_new); [repeat split|exact B]. }
  assert (Hh' : history nextF cfgF s') by (apply (hi_hop nextF cfgF s s' cfgF 1); [exact Hh|repeat split; cbn; lia|exact H']).
  pose proof (history_inv nextF cfgF s cfgF_ok newF_ok Hh) as HI. pose proof (history_inv nextF cfgF s' cfgF_ok newF_ok Hh') as HI'.
  exists s, s'. split; [exact Hh|]. split; [exact H'|]. intros E' next' t t' fv fg fw Et Ht A.
  apply andb_prop in Ta as [Oa Ta]. apply andb_prop in Tb as [Ob Tb]. apply Z.eqb_eq in Oa, Ob.
  apply existsb_exists in Ta as (w & _ & Ta). apply andb_prop in Ta as [Ta Tne]. apply andb_prop in Ta as [Ta Trf]. apply andb_prop in Ta as [Lw Dw].
  assert (ND : NoDelta (md t)).
  { rewrite Et. intros x Lx. apply live_exist in Lx. rewrite forallb_forall in Tb. specialize (Tb x).
    assert (Ix : In x (seq 0 20)). { apply in_seq. unfold bexist in Lx. apply andb_prop in Lx as [Lx _]. apply Nat.ltb_lt in Lx. unfold MAX_BUNDLE in Lx. lia. }
    apply Tb in Ix. rewrite Lx in Ix. cbn [implb] in Ix. now apply negb_true_iff in Ix. }
  assert (HIt : Inv cfgF (md t)) by now rewrite Et.
  assert (HV : forall x e, bexist (wB (md s)) x = true -> bexist (vB (md s)) (w_ver (md s) x e) = true).
  { intros x e Lx. apply live_exist in Lx. apply live_exist. eauto with inv. }
  destruct (no_delta_step next' cfgF t t' cfgF_ok HIt ND Ht) as [NO|DE].
  - apply NO. rewrite Et, Ob, (al_order _ _ _ _ _ A). exact Oa.
  - assert (O : order (md s) <> 0) by (rewrite Oa; discriminate).
    pose proof (alike_DelEq fv fg fw (md s) (md t') O A DE HV w) as X. apply live_exist in Lw. specialize (X Lw Dw).
    rewrite X, Trf in Tne. discriminate Tne.
Qed.
Print Assumptions C79_without_equal_times_refuted.
