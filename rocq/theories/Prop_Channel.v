From Coq Require Import Arith List Bool Lia.
From Verif Require Import Channel P_Channel.
Import ListNotations.

(* C169: a job computes with weights at least as new as the version it reports. *)
Theorem C169_not_older : forall es j,
  Forall (fun e => e <> DSavesWeight false /\ e <> DSavesPara false) es ->
  0 < jver (jobs (runAll start es) j) ->
  exists u, jweight (jobs (runAll start es) j) = Some u /\
            jver (jobs (runAll start es) j) <= u.
Proof.
  intros es j H L. destruct (has_weights es j H L) as [u E].
  exists u. split; [exact E|]. exact (not_older es j u H E).
Qed.
Print Assumptions C169_not_older.

(* A turn, a turn that fails, a turn ended after the weights were saved, and a
   job that reads before and loads after. *)
Definition mixed : list event :=
  [DSolves; DSavesWeight true; DSavesPara true; DOpens; DWrites;
   JReads 0; DFails; DSolves; DSavesWeight true; DKilled; DSolves; JLoads 0].

Example C169_example :
  Forall (fun e => e <> DSavesWeight false /\ e <> DSavesPara false) mixed /\
  jobs (runAll start mixed) 0 = Job 1 (Some 3) JIdle.
Proof. split; [repeat constructor; discriminate|reflexivity]. Qed.

(* The weights need not be those of the version reported. *)
Theorem C169_same_version_refuted : exists es j u,
  Forall (fun e => e <> DSavesWeight false /\ e <> DSavesPara false /\ e <> DKilled) es /\
  jweight (jobs (runAll start es) j) = Some u /\
  jver (jobs (runAll start es) j) <> u.
Proof.
  exists [DSolves; DSavesWeight true; DSavesPara true; DOpens; DWrites;
          JReads 0; DSolves; DSavesWeight true; JLoads 0], 0, 2.
  split; [repeat constructor; discriminate|]. split; [reflexivity|discriminate].
Qed.
Print Assumptions C169_same_version_refuted.

(* A failed saving of the weights is logged and the message still goes out. *)
Theorem C169_failed_weights_refuted : exists es j u,
  Forall (fun e => e <> DSavesPara false /\ e <> DKilled) es /\
  jweight (jobs (runAll start es) j) = Some u /\
  u < jver (jobs (runAll start es) j).
Proof.
  exists [DSolves; DSavesWeight true; DSavesPara true; DOpens; DWrites;
          DSolves; DSavesWeight false; DOpens; DWrites; JReads 0; JLoads 0], 0, 1.
  split; [repeat constructor; discriminate|]. split; [reflexivity|cbn; lia].
Qed.
Print Assumptions C169_failed_weights_refuted.

(* So is a failed saving of the parameters; after a restart the versions begin
   again below the message. *)
Theorem C169_failed_para_refuted : exists es j u,
  Forall (fun e => e <> DSavesWeight false) es /\
  jweight (jobs (runAll start es) j) = Some u /\
  u < jver (jobs (runAll start es) j).
Proof.
  exists [DFails; DSolves; DSavesWeight true; DSavesPara false; DOpens; DWrites;
          JReads 0; DKilled; DSolves; DSavesWeight true; JLoads 0], 0, 1.
  split; [repeat constructor; discriminate|]. split; [reflexivity|cbn; lia].
Qed.
Print Assumptions C169_failed_para_refuted.

(* C170: the version of a job never goes down, whatever fails. *)
Theorem C170_versions_grow : forall es fs j,
  jver (jobs (runAll start es) j) <= jver (jobs (runAll start (es ++ fs)) j).
Proof. exact versions_grow. Qed.
Print Assumptions C170_versions_grow.

(* A call that finds a newer message and a weight file takes both. *)
Theorem C170_taken : forall w j v u,
  message w = MWhole v -> weightFile w = Some u ->
  jphase_ (jobs w j) = JIdle -> jver (jobs w j) < v ->
  jobs (runAll w [JReads j; JLoads j]) j = Job v (Some u) JIdle.
Proof. exact taken. Qed.
Print Assumptions C170_taken.

(* No job ends on a message if nothing comes between opening and writing it. *)
Theorem C170_survives : forall es j,
  (forall pre post, es = pre ++ DOpens :: post -> exists post', post = DWrites :: post') ->
  jphase_ (jobs (runAll start es) j) <> JDead.
Proof. intros es j H. exact (survives es j (noGap_split es H)). Qed.
Print Assumptions C170_survives.

Definition twoTurns : list event :=
  [DSolves; DSavesWeight true; DSavesPara true; DOpens; DWrites; JReads 0; JLoads 0;
   JReads 1; DSolves; DSavesWeight true; JLoads 1; DSavesPara true; DOpens; DWrites;
   JReads 1; JLoads 1].

Example C170_example :
  noGap twoTurns /\
  jobs (runAll start twoTurns) 0 = Job 1 (Some 1) JIdle /\
  jobs (runAll start twoTurns) 1 = Job 2 (Some 2) JIdle.
Proof. split; [cbn; tauto|split; reflexivity]. Qed.

(* Without that, a job can end though nothing failed. *)
Theorem C170_always_survives_refuted : exists es j,
  Forall (fun e => e <> DFails /\ e <> DSavesWeight false /\ e <> DSavesPara false /\ e <> DKilled) es /\
  jphase_ (jobs (runAll start es) j) = JDead.
Proof.
  exists [DSolves; DSavesWeight true; DSavesPara true; DOpens; JReads 0; DWrites], 0.
  split; [repeat constructor; discriminate|reflexivity].
Qed.
Print Assumptions C170_always_survives_refuted.

(* A Dyson program killed between the two leaves a file that ends every job that
   listens, until a later turn has written the next message. *)
Theorem C170_left_torn : forall w es j,
  message w = MTorn -> ~ In DWrites es ->
  jphase_ (jobs (runAll w es) j) = JIdle ->
  jphase_ (jobs (runAll w (es ++ [JReads j])) j) = JDead.
Proof.
  intros w es j M N Q. unfold runAll. rewrite fold_left_app. cbn [fold_left].
  apply torn_kills; [exact (torn_stays es w M N)|exact Q].
Qed.
Print Assumptions C170_left_torn.

Example C170_left_torn_example :
  let w := runAll start [DSolves; DSavesWeight true; DSavesPara true; DOpens] in
  message w = MTorn /\
  jphase_ (jobs (runAll w [DKilled; DFails; DSolves; DSavesWeight true]) 5) = JIdle /\
  jphase_ (jobs (runAll w [DKilled; DFails; DSolves; DSavesWeight true; JReads 5]) 5) = JDead.
Proof. cbn. auto. Qed.

(* Whatever fails, a job that has taken a version has weights. *)
Theorem C170_weights_present : forall es j,
  0 < jver (jobs (runAll start es) j) -> jweight (jobs (runAll start es) j) <> None.
Proof. exact weights_present. Qed.
Print Assumptions C170_weights_present.

(* The first saving fails: the message is read, the weights are missing and the
   job stays as it was; it takes the next turn. *)
Example C170_weights_present_example :
  let es := [DSolves; DSavesWeight false; DOpens; DWrites; JReads 0; JLoads 0] in
  jobs (runAll start es) 0 = Job 0 None JIdle /\
  jobs (runAll start (es ++ [DSolves; DSavesWeight true; DSavesPara true; DOpens; DWrites;
                             JReads 0; JLoads 0])) 0 = Job 2 (Some 2) JIdle.
Proof. split; reflexivity. Qed.
