(** * Metropolis-Hastings acceptance (C16) *)
From Coq Require Import ZArith List Bool Lia Reals Lra.
From Verif Require Import Base Num NumR RNG Complex Lattice Bundle Weights Diagram Markov DiagramIO History
  P_Inv P_IO P_History P_Hop P_Weight P_Step P_MH Target Prop_Markov Prop_Weight.
Import ListNotations.
Open Scope Z_scope.

(** C16. [target] and [density] are defined in Target.v from the diagram's fields and the draws of
    each update; [prop_rel c d op p d' r] (P_Hop.v) says that update [op] proposes [d'] from [d] with
    acceptance threshold [p]. One step either proposes nothing, or proposes some [d'] whose threshold
    is the Metropolis-Hastings ratio, and moves to it exactly when the ratio is at least 1 or the
    next number drawn is below it. *)
Theorem C16_metropolis :
  forall (E : Type) (next : E -> Z * E) (c c' : @cfg NumR) (s s' : @mstate NumR E),
  cfg_ok c -> new_ok (c_lat c) -> regular_history next c s -> retuned c c' -> positive c' ->
  Hop next c' 1 s = Ok (tt, s') ->
  (md s' = md s /\ mprop s' = mprop s /\ macc s' = macc s) \/
  exists op d' r e,
    let ratio := ((target c' d' * density c' (inverse op) d') / (target c' (md s) * density c' op (md s)))%R in
    let u := @urn_of NumR (u32 (fst (next e))) in
    prop_rel c' (md s) op ratio d' r /\
    mprop s' = bump (mprop s) op (order (md s)) /\
    (((1 <= ratio)%R /\ mrng s' = e \/ (u < ratio < 1)%R /\ mrng s' = snd (next e)) /\ md s' = d' /\ macc s' = bump (macc s) op (order (md s)) \/
     (ratio < 1)%R /\ (ratio <= u)%R /\ mrng s' = snd (next e) /\ macc s' = macc s /\
       (md s' = md s \/ gamma (md s) = 0 /\ exists x, md s' = s_uext (md s) x)).
Proof. exact @step_mh. Qed.
Print Assumptions C16_metropolis.
Example C16_case : exists s s', cfg_ok ex_cfg /\ new_ok (c_lat ex_cfg) /\ regular_history ex_next ex_cfg s /\ mcount s = 1000 /\
  retuned ex_cfg ex_cfg /\ positive ex_cfg /\ Hop ex_next ex_cfg 1 s = Ok (tt, s').
Proof.
  destruct C12_C13_case as (s & H1 & H2 & H3 & H4).
  destruct (regular_w ex_next ex_cfg s H1 H2 H3) as (Hh & _).
  pose proof (P_History.history_inv ex_next ex_cfg s ex_cfg_ok ex_new_ok Hh) as HI.
  destruct (Hop_ok ex_next ex_cfg 1 s ex_cfg_ok HI) as (s' & E' & _). exists s, s'.
  repeat (split; [assumption|]). split; [repeat split; cbn; lia|]. split; [|assumption].
  split; [repeat constructor; lra|]. cbn. repeat split; try lra. unfold sites. apply (IZR_lt 0). reflexivity.
Qed.
