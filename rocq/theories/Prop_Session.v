(** * C147-C151: versions sent, statistics collected, what a restart keeps, delayed signals, padding *)
Require Import Reals List Arith ZArith Bool Ascii String Lia Sorting.
Require Import Verif.BareG Verif.Session Verif.SessionSpec Verif.P_Session.
Import ListNotations.
Local Open Scope string_scope.
Local Open Scope list_scope.
Local Open Scope nat_scope.

Definition input0 : para := mkPara 0 ["Z2"] (mkAnneal [1%R] [(-1/2)%R]).

(** C147: the versions sent to the Monte Carlo increase over all sessions of a job. *)
Theorem C147_versions_increase d input name es :
  Forall complete es -> StronglySorted lt (messages (fst (life d input name noFiles es))).
Proof. exact (versions_increase d input name es). Qed.
Print Assumptions C147_versions_increase.

Example C147_example :
  Forall complete [Done 3; Touches; Cut 2; Done 3; Restart; Done 2] /\
  messages (fst (life false input0 "Square" noFiles [Done 3; Touches; Cut 2; Done 3; Restart; Done 2])) = [1; 4; 5].
Proof. split; [repeat constructor|reflexivity]. Qed.

(** It is not so when the parameters cannot be written: a number is sent twice. *)
Theorem C147_parameters_not_written_refuted :
  exists es, messages (fst (life false input0 "Square" noFiles es)) = [1; 1] /\
    Forall (fun e => match e with Done f => 1 <= f | Cut _ => False | _ => True end) es.
Proof. exists [Done 1; Restart; Done 3]. split; [reflexivity|repeat constructor]. Qed.
Print Assumptions C147_parameters_not_written_refuted.

(** C148: a job started without weights never collects statistics, whatever DysonOnly says ... *)
Theorem C148_fresh_job_collects_refuted :
  exists k dysonOnly, dysonOnly = false /\
    forall input name es, Forall stays es ->
      collected (snd (life dysonOnly input name k es)) = 0 /\
      first (snd (life dysonOnly input name k es)) = list_sum (map computed es).
Proof. exists noFiles, false. split; [reflexivity|]. intros; apply fresh_first; assumption. Qed.
Print Assumptions C148_fresh_job_collects_refuted.

Example C148_fresh_example :
  Forall stays (repeat (Done 3) 50) /\ list_sum (map computed (repeat (Done 3) 50)) = 50.
Proof. split; [repeat constructor|reflexivity]. Qed.

(** ... and one that finds weights takes every version from them. *)
Theorem C148_restarted_job_collects input name k v es : weights k = Some v -> Forall stays es ->
  first (snd (life false input name k es)) = 0 /\
  collected (snd (life false input name k es)) = list_sum (map computed es).
Proof. exact (restarted_collects input name k v es). Qed.
Print Assumptions C148_restarted_job_collects.

(** With DysonOnly nothing is collected, restarted or not. *)
Theorem C148_dyson_only input name k es : Forall stays es ->
  collected (snd (life true input name k es)) = 0 /\
  first (snd (life true input name k es)) = list_sum (map computed es).
Proof. exact (only_first input name k es). Qed.
Print Assumptions C148_dyson_only.

Example C148_restarted_example :
  let k := fst (life false input0 "Square" noFiles [Done 3; Done 3]) in
  weights k = Some 2 /\ collected (snd (life false input0 "Square" k [Done 3; NoStatistics; Touches])) = 2.
Proof. split; reflexivity. Qed.

(** C149: a restart resumes with the version and the field of the weights in the file; failures since
    are forgotten. *)
Theorem C149_restart_resumes d input name k es f bad : 2 <= f -> Forall fails bad ->
  let w := life d input name k es in
  let w' := life d input name k (es ++ [Done f] ++ bad ++ [Restart]) in
  version (cur (snd w')) = S (version (cur (snd w))) /\
  annealing (cur (snd w')) = annealing (cur (snd w)) /\
  weights (fst w') = Some (version (cur (snd w'))).
Proof. exact (resume d input name k es f bad). Qed.
Print Assumptions C149_restart_resumes.

Example C149_example : 2 <= 3 /\ Forall fails [Touches; NoStatistics] /\
  annealing (cur (snd (life false input0 "Square" noFiles ([] ++ [Done 3] ++ [Touches; NoStatistics] ++ [Restart]))))
  = mkAnneal [1%R] [(-1/2)%R].
Proof. split; [lia|]. split; [apply Forall_cons; [left|apply Forall_cons; [right|constructor]]; reflexivity|reflexivity]. Qed.

(** Within a session the field is that of the annealing of C142: decreased after each success,
    reverted after each failure at the denominator, left alone when statistics are missing. *)
Theorem C149_field_follows d input name k es more : Forall stays more ->
  annealing (cur (snd (life d input name k (es ++ more)))) =
  fold_left BareG.version (flat_map seen more) (annealing (cur (snd (life d input name k es)))).
Proof. intros F. unfold life. rewrite fold_left_app. exact (field_follows d input name more _ F). Qed.
Print Assumptions C149_field_follows.

(** The measurements of earlier sessions are overwritten. *)
Theorem C149_history_overwritten d input name k es :
  let w := life d input name k (es ++ [Restart; Done 3]) in
  output (fst w) = [version (cur (snd w))].
Proof. exact (output_lost d input name k es). Qed.
Print Assumptions C149_history_overwritten.
Theorem C149_history_survives_refuted :
  exists es v, In v (output (fst (life false input0 "Square" noFiles es))) /\
    ~ In v (output (fst (life false input0 "Square" noFiles (es ++ [Restart; Done 3])))).
Proof. exists [Done 3; Done 3], 1. cbn. split; [auto|]. intros [H|[]]; discriminate H. Qed.
Print Assumptions C149_history_survives_refuted.

(** The list of symmetries grows by the name of the lattice with every session. *)
Theorem C149_symmetry_grows d input name f n : 2 <= f ->
  symmetry (cur (snd (life d input name noFiles (List.concat (repeat [Done f; Restart] n))))) =
  symmetry input ++ repeat name (S n).
Proof. exact (symmetry_grows d input name f n). Qed.
Print Assumptions C149_symmetry_grows.

Theorem C149_restart_is_idempotent_refuted :
  exists es, symmetry (cur (snd (life false input0 "Square" noFiles (es ++ [Restart])))) <>
             symmetry (cur (snd (life false input0 "Square" noFiles es))).
Proof. exists [Done 3]. cbn. discriminate. Qed.
Print Assumptions C149_restart_is_idempotent_refuted.

Example C149_symmetry_example :
  symmetry (cur (snd (life false input0 "Square" noFiles [Done 3; Restart; Done 3; Restart])))
  = ["Z2"; "Square"; "Square"; "Square"].
Proof. reflexivity. Qed.

(** C150: no signal acts while files are written; afterwards the handlers are those of before and the
    last signal is passed on once. *)
Theorem C150_nothing_acts_inside h signals : during h signals = [].
Proof. exact (nothing_during h signals). Qed.
Print Assumptions C150_nothing_acts_inside.
Theorem C150_handlers_restored h signals : fst (delayed h signals) = h.
Proof. exact (restored h signals). Qed.
Print Assumptions C150_handlers_restored.
Theorem C150_no_signal_no_effect h : snd (delayed h []) = [].
Proof. exact (silent h). Qed.
Print Assumptions C150_no_signal_no_effect.
Theorem C150_last_signal_once h f signals s : onInt h = Python f -> snd (delayed h (signals ++ [s])) = [Called f s].
Proof. exact (last_called h f signals s). Qed.
Print Assumptions C150_last_signal_once.
Example C150_example : snd (delayed (mkHandlers (Python 7) SigDfl) [TERM; INT; INT]) = [Called 7 INT].
Proof. reflexivity. Qed.

(** The signal is not always passed on as it would have acted: SIGTERM goes to the handler of SIGINT,
    and where SIGINT was ignored or had its default, an integer is called. *)
Theorem C150_acts_as_before_refuted :
  (exists h, snd (delayed h [TERM]) <> react (handlerOf h TERM) TERM /\ onInt h = Python 0 /\ onTerm h = Python 1) /\
  (exists h, onInt h = SigIgn /\ react (handlerOf h INT) INT = [] /\ snd (delayed h [INT]) = [TypeError]).
Proof.
  split.
  - exists (mkHandlers (Python 0) (Python 1)). repeat split. discriminate.
  - exists (mkHandlers SigIgn SigDfl). repeat split.
Qed.
Print Assumptions C150_acts_as_before_refuted.
Theorem C150_integer_called h signals s : onInt h = SigIgn \/ onInt h = SigDfl ->
  snd (delayed h (signals ++ [s])) = [TypeError].
Proof. exact (not_callable h signals s). Qed.
Print Assumptions C150_integer_called.
Example C150_integer_example : onInt (mkHandlers SigIgn (Python 1)) = SigIgn.
Proof. reflexivity. Qed.

(** C151: a text that fits is padded to the width, on the proper side or evenly on both. *)
Theorem C151_right s w : (Z.of_nat (String.length s) <= w <= 2147483647)%Z ->
  right s w = Some (spaces (Z.to_nat w - String.length s) ++ s)%string.
Proof. exact (right_spec s w). Qed.
Print Assumptions C151_right.
Theorem C151_left s w : (Z.of_nat (String.length s) <= w <= 2147483647)%Z ->
  left s w = Some (s ++ spaces (Z.to_nat w - String.length s))%string.
Proof. exact (left_spec s w). Qed.
Print Assumptions C151_left.
Theorem C151_center s w : (Z.of_nat (String.length s) <= w <= 2147483647)%Z ->
  exists a b, center s w = Some (spaces a ++ s ++ spaces b)%string /\
    a + String.length s + b = Z.to_nat w /\ (b = a \/ b = S a).
Proof. exact (center_spec s w). Qed.
Print Assumptions C151_center.
Example C151_example : center "abc" 8 = Some "  abc   " /\ right "abc" 5 = Some "  abc" /\ left "abc" 5 = Some "abc  ".
Proof. repeat split; reflexivity. Qed.

(** A text longer than the width is not returned unchanged: the loop counter overflows. *)
Theorem C151_longer_text_undefined s w :
  (0 <= w < Z.of_nat (String.length s))%Z -> (Z.of_nat (String.length s) <= 2 ^ 62)%Z ->
  right s w = None /\ left s w = None /\ center s w = None.
Proof. exact (too_long s w). Qed.
Print Assumptions C151_longer_text_undefined.
Example C151_longer_example : right "abcdef" 5 = None /\ left "abcdef" 5 = None /\ center "abcdef" 5 = None.
Proof. repeat split; reflexivity. Qed.

Theorem C151_any_text_refuted : exists s w, (0 <= w)%Z /\ right s w = None /\ left s w = None /\ center s w = None.
Proof. exists "abcdef", 5%Z. repeat split; try reflexivity; lia. Qed.
Print Assumptions C151_any_text_refuted.
