(* C123: what SigmaDeltaT and Polar are after any number of versions of the
   self-consistency loop.  C124: Polar after versions that fail. *)
Require Import Reals List Arith Bool Lra Lia.
From Coquelicot Require Import Complex.
Require Import Verif.PyWeight Verif.PyWeightSpec Verif.SelfCons Verif.SelfConsSpec
  Verif.P_PyWeight Verif.P_PyWeight2 Verif.P_SelfCons Verif.P_PyWeight3.
Import ListNotations.
Local Open Scope R_scope.

(* However the versions end: SigmaDeltaT is the average of those of the
   successful versions, version n with the ratio n/(n+10). *)
Theorem C123_delta : forall s p l v, proper s -> hasTau s = false ->
  Forall (fun ox => standsFor s (deltaOf (fst ox)) (snd ox)) l ->
  existsb (fun ox => succeeded (fst ox)) l = true ->
  standsFor s (core (wrun s (loopOps deltaOps v (map fst l)) (newWeight p)))
              (average (accepted v [] l)).
Proof. exact delta_law. Qed.
Print Assumptions C123_delta.

(* Polar likewise if no version fails. *)
Theorem C123_polar : forall s p l v, proper s -> pW p = false -> l <> [] ->
  Forall (fun ox => succeeded (fst ox) = true) l ->
  Forall (meant s) l ->
  standsFor s (core (wrun s (loopOps polarOps v (map fst l)) (newWeight p)))
              (average (accepted v [] l)).
Proof. exact polar_law. Qed.
Print Assumptions C123_polar.

(* Polar when versions fail before Polar is merged: every such version takes
   off the last success again. *)
Theorem C123_signed : forall s p l v, proper s -> pW p = false ->
  Forall (meant s) l -> 1e-3 < ratios (signed v [] None l) ->
  standsFor s (core (wrun s (loopOps polarOps v (map fst l)) (newWeight p)))
              (average (signed v [] None l)).
Proof. exact polar_signed. Qed.
Print Assumptions C123_signed.

Example C123_case :
  let s := Shape false false [2%nat] 1 1 in
  let p := Plain (fun _ _ _ => RtoC 1) false false in
  let l := [(VOk p p, pData p); (VWFail p p, pData p); (VOk p p, pData p)] in
  proper s /\ hasTau s = false /\
  Forall (fun ox => standsFor s (deltaOf (fst ox)) (snd ox)) l /\
  existsb (fun ox => succeeded (fst ox)) l = true /\
  accepted 0 [] l = [(ratioOf 3, pData p); (ratioOf 1, pData p)].
Proof.
  cbn zeta. split; [split; [repeat constructor; lia|split; cbn; [lia|lra]]|].
  split; [reflexivity|]. split; [|split; reflexivity].
  repeat constructor; intros i v t _ _; reflexivity.
Qed.

(* That versions which fail leave Polar as if they had not been is false.
   Collected Polars 1 and 0 in a time bin, with two failures to collect in
   between: Polar is -7/15 there. *)
Theorem C124_negative_refuted :
  exists s p0 l y,
    proper s /\ standsFor s p0 dataZero /\ Forall (meant s) l /\
    Forall (fun ox => forall i v t,
      0 <= fst (snd ox i v t) <= 1 /\ snd (snd ox i v t) = 0) l /\
    standsFor s (core (wrun s (loopOps polarOps 0%nat (map fst l)) (newWeight p0))) y /\
    y 0%nat 0%nat 0%nat = RtoC (-7/15).
Proof.
  destruct negative_weight as (F & B & S & E).
  exists tiny, zeroP, fourVersions, (average (signed 0 [] None fourVersions)).
  split; [exact tiny_proper|]. split; [intros i v t _ _; reflexivity|].
  split; [exact F|]. split; [|split; [exact S|exact E]].
  assert (Z : forall i v t : nat, 0 <= fst (dataZero i v t) <= 1 /\ snd (dataZero i v t) = 0)
    by (intros; cbn; lra).
  apply Forall_cons; [exact B|]. apply Forall_cons; [exact Z|].
  apply Forall_cons; [exact Z|]. apply Forall_cons; [exact Z|]. apply Forall_nil.
Qed.
Print Assumptions C124_negative_refuted.

(* A success with Polar zero, then a version that fails in W_Dyson: Polar is
   not zero afterwards. *)
Theorem C124_domain_refuted :
  exists s d p0 p1 p2,
    proper s /\ standsFor s p0 dataZero /\ standsFor s p1 dataZero /\
    ~ standsFor s (core (wrun s (loopOps polarOps 0%nat [VOk d p1; VWFail d p2])
                              (newWeight p0))) dataZero.
Proof.
  exists tiny, zeroP, zeroP, zeroP, bumpP.
  split; [exact tiny_proper|].
  split; [intros i v t _ _; reflexivity|].
  split; [intros i v t _ _; reflexivity|]. apply mixed_domains.
Qed.
Print Assumptions C124_domain_refuted.

(* After a first version that fails in W_Dyson, Polar is the one rejected. *)
Theorem C124_first : forall s p0 d p x v, proper s -> standsFor s p x ->
  standsFor s (core (wrun s (polarOps v (VWFail d p)) (newWeight p0))) x.
Proof. exact first_failure. Qed.
Print Assumptions C124_first.

Theorem C124_first_refuted :
  exists s p0 d p x v,
    proper s /\ standsFor s p0 dataZero /\ standsFor s p x /\
    standsFor s (core (wrun s (polarOps v (VWFail d p)) (newWeight p0))) x /\
    ~ standsFor s (core (wrun s (polarOps v (VWFail d p)) (newWeight p0))) dataZero.
Proof. exact first_rejected. Qed.
Print Assumptions C124_first_refuted.
