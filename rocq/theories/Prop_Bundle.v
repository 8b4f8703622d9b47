(** * Results on Bundle (C27, C28) *)
From Coq Require Import ZArith List Arith Lia.
From Verif Require Import Base Bundle P_Bundle.
Import ListNotations.
Open Scope nat_scope.

(** ** C27 A bundle refines a finite set of slots. [members] (the specification) is the
    list of slots added and not removed since; [replay] runs the history on the code. *)
Theorem C27_bundle_is_a_set : forall (l : list bev) (b : bundle),
  replay bundle_new l = Ok b ->
  let S := members [] l in
  NoDup S /\ (forall x, In x S -> x < 20) /\ bhowmany b = length S /\
  (forall x, bexist b x = true <-> In x S) /\
  (forall x, In x S -> nm b x < length S /\ bat b (nm b x) = Ok x) /\
  (forall i, i < length S -> exists x, In x S /\ bat b i = Ok x /\ nm b x = i) /\
  (length S < 20 -> exists a b', badd b = Ok (a, b') /\ ~ In a S /\ a < 20) /\
  (forall x, In x S -> exists b', bremove b x = Ok b') /\
  (forall x, ~ In x S -> bremove b x = Abort).
Proof. exact bundle_refines_set. Qed.
Print Assumptions C27_bundle_is_a_set.
Example C27_case :
  let l := [EvAdd 0; EvAdd 1; EvAdd 2; EvRem 0; EvAdd 0; EvRem 1] in
  members [] l = [0; 2] /\
  match replay bundle_new l with
  | Ok b => (bexist b 0, bexist b 1, bat b 0, bat b 1, bat b 2) = (true, false, Ok 2, Ok 0, Abort)
  | _ => False
  end.
Proof. split; vm_compute; reflexivity. Qed.

(** ** C28 refuted: adding to a bundle holding exactly 20 elements (a history that the
    code accepts up to there) reads past the end of the array instead of aborting. *)
Theorem C28_full_bundle_add_refuted :
  exists (l : list bev) (b : bundle),
    replay bundle_new l = Ok b /\ length (members [] l) = 20 /\ badd b = UB /\ badd b <> Abort.
Proof. exact full_add_UB. Qed.
Print Assumptions C28_full_bundle_add_refuted.
