(** * C168: saving big dictionaries while others read them *)
Require Import List Arith Bool String Ascii.
Require Import Verif.BigDict Verif.P_BigDict.
Import ListNotations.
Local Open Scope string_scope.

(** In the working directory: at every moment the file holds the old or the new dictionary, the other files
    but the temporary one are as before; *)
Theorem C168_atomic : forall (value : Type) (d : disk value) f x, dirOf f = None ->
  snd (save d f x) = true /\
  forall st, In st (fst (save d f x)) ->
  (files st (withExt f) = files d (withExt f) \/ files st (withExt f) = Some (Full x)) /\
  (forall n, n <> withExt f -> n <> "_" ++ withExt f -> files st n = files d n).
Proof. exact @save_atomic. Qed.
Print Assumptions C168_atomic.

(** at the end it is the new one and the temporary file is gone; *)
Theorem C168_last : forall (value : Type) (d : disk value) f x, dirOf f = None ->
  files (last (fst (save d f x)) d) (withExt f) = Some (Full x) /\
  files (last (fst (save d f x)) d) ("_" ++ withExt f) = None.
Proof. exact @save_last. Qed.
Print Assumptions C168_last.

(** and the list of statistics files never shows a file that is being written. *)
Theorem C168_unseen : forall (value : Type) (d : disk value) f x st n, dirOf f = None ->
  In st (fst (save d f x)) -> listed st n = true ->
  files st n = files d n \/ files st n = Some (Full x).
Proof. exact @save_unseen. Qed.
Print Assumptions C168_unseen.

Definition empty : disk nat := Disk (fun _ => None) (fun q => q =? "/ws").
Example C168_case : dirOf "0_MC_statis" = None /\ withExt "0_MC_statis" = "0_MC_statis.hkl" /\
  List.length (fst (save empty "0_MC_statis" 5)) = 3 /\
  listed (last (fst (save empty "0_MC_statis" 5)) empty) "0_MC_statis.hkl" = true /\
  withExt "Weight.hkl" = "Weight.hkl".
Proof. vm_compute. repeat split. Qed.

(** With a directory in the name the temporary file is sought in another directory; unless that exists
    nothing is saved. *)
Theorem C168_directory : forall (value : Type) (d : disk value) f x q, dirOf f = Some q ->
  dirs d ("_" ++ q) = false -> save d f x = ([], false).
Proof. exact @save_dir. Qed.
Print Assumptions C168_directory.

(** So a file in an existing directory, as statis_total of main.py 365 and 392, is not saved. *)
Theorem C168_saves_refuted : exists (d : disk nat) f x, reachable d f = true /\ snd (save d f x) = false.
Proof. exists empty, "/ws/statis_total", 5. vm_compute. split; reflexivity. Qed.
Print Assumptions C168_saves_refuted.
