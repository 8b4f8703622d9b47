(* C143-C146: the job manager. *)
Require Import String Ascii List Arith Bool ZArith Reals Lia Lra Permutation.
Require Import Verif.Manager Verif.P_Manager Verif.P_Manager2.
Import ListNotations.
Local Open Scope string_scope.
Local Open Scope list_scope.
Local Open Scope nat_scope.

(* C143: in a directory without statistics (files being written begin with "_")
   a Monte Carlo job starts afresh with the process numbers 0, 1, ...; *)
Theorem C143_fresh : forall dir dup cluster auto,
  Forall (fun e => index 0 "statis" e = None \/ exists s, e = String "_" s) dir ->
  jobMC dir dup cluster auto = Some (mkJob "MC" (seq 0 dup) false cluster auto true).
Proof. exact fresh_law. Qed.
Print Assumptions C143_fresh.

(* with statistics of earlier processes it goes on with the smallest of their
   numbers, each once, as many as asked for or as there are. *)
Theorem C143_resume : forall dir pids rest dup cluster auto, pids <> [] -> NoDup pids ->
  Permutation dir (map statisFile pids ++ rest) ->
  Forall (fun e => index 0 "statis" e = None \/ exists s, e = String "_" s) rest ->
  exists l, jobMC dir dup cluster auto = Some (mkJob "MC" l true cluster auto true) /\
    NoDup l /\ incl l pids /\ List.length l = Nat.min dup (List.length pids) /\
    forall p q, In p l -> In q pids -> ~ In q l -> p < q.
Proof. exact resume_law. Qed.
Print Assumptions C143_resume.

(* So it may be fewer processes than asked for; *)
Theorem C143_fewer_refuted : exists dir dup j, jobMC dir dup false true = Some j /\ List.length (j_pids j) < dup.
Proof. exact fewer_refuted. Qed.
Print Assumptions C143_fewer_refuted.

(* a copy of a file of statistics starts two processes with one number; *)
Theorem C143_copy_refuted : exists dir j, jobMC dir 2 false true = Some j /\ NoDup dir /\ ~ NoDup (j_pids j).
Proof. exact copy_refuted. Qed.
Print Assumptions C143_copy_refuted.

(* and a file of another form of name keeps all jobs from starting. *)
Theorem C143_name_refuted : exists dir, In "statis_old" dir /\
  forall dup cluster auto, jobMC dir dup cluster auto = None.
Proof. exact name_refuted. Qed.
Print Assumptions C143_name_refuted.

(* The Dyson job has the number 0, once, however many duplicates are asked for, and is not counted
   among the processes that keep the CPUs busy. *)
Theorem C143_dyson : forall dup cluster auto,
  (forall p, In p (j_pids (jobDyson dup cluster auto)) <-> p = 0 /\ 0 < dup) /\
  NoDup (j_pids (jobDyson dup cluster auto)) /\ Forall (fun a => a_busy a = false) (atoms (jobDyson dup cluster auto)).
Proof. exact dyson_law. Qed.
Print Assumptions C143_dyson.

Example C143_case :
  option_map j_pids (jobMC ["10_MC_statis.hkl"; "_3_MC_statis.hkl"; "Weight.hkl"; "9_MC_statis.hkl"; "9_MC_para.txt"] 5 false true)
  = Some [9; 10] /\ statisFile 10 = "10_MC_statis.hkl" /\ index 0 "statis" "Weight.hkl" = None.
Proof. vm_compute. auto. Qed.

(* C144: the queues contain every process number of every job once; *)
Theorem C144_queue : forall todo, Permutation (queueBack todo ++ queue todo) (flat_map atoms todo).
Proof. exact queue_law. Qed.
Print Assumptions C144_queue.

(* with one job of each type no input file is written twice; *)
Theorem C144_distinct : forall todo, NoDup (map j_type todo) ->
  Forall (fun j => (j_type j = "MC" \/ j_type j = "DYSON") /\ NoDup (j_pids j)) todo ->
  NoDup (map infile (queueBack todo ++ queue todo)).
Proof.
  intros todo N F. apply distinct_law; [exact N|]. eapply Forall_impl; [|exact F].
  intros j [[-> | ->] H]; (split; [|exact H]); cbn; intuition discriminate.
Qed.
Print Assumptions C144_distinct.

(* but a second Monte Carlo job in the list, as the input file invites, takes
   the numbers and the input files of the first; *)
Theorem C144_clash_refuted : exists dir j1 j2,
  Forall (fun e => index 0 "statis" e = None \/ exists s, e = String "_" s) dir /\
  jobMC dir 2 false true = Some j1 /\ jobMC dir 3 false true = Some j2 /\
  exists a b x, nth_error (queue [j1; j2]) 0 = Some a /\ nth_error (queue [j1; j2]) 2 = Some b /\
    infile a = x /\ infile b = x.
Proof. exact clash_refuted. Qed.
Print Assumptions C144_clash_refuted.

(* the timers handed to the processes differ by a fifth at most and stay
   positive if they are larger than 1, *)
Theorem C144_timer : forall timer u, (1 < timer)%Z -> (8/10 <= u <= 12/10)%R ->
  (0 < jitter timer u)%Z /\ (8/10 * IZR timer - 1 < IZR (jitter timer u) <= 12/10 * IZR timer)%R.
Proof. exact jitter_law. Qed.
Print Assumptions C144_timer.

(* No timer is made longer by the conversion to an integer, whatever its sign. *)
Theorem C144_timer_toward_zero : forall timer u, (Rabs (IZR (jitter timer u)) <= Rabs (IZR timer * u))%R.
Proof. exact jitter_toward_zero. Qed.
Print Assumptions C144_timer_toward_zero.

(* whereas a timer of one second may become zero. *)
Theorem C144_timer_refuted : exists timer u, (0 < timer)%Z /\ (8/10 <= u <= 12/10)%R /\ jitter timer u = 0%Z.
Proof. exact timer_refuted. Qed.
Print Assumptions C144_timer_refuted.

Example C144_case : exists j, jobMC [] 2 false true = Some j /\
  map infile (queueBack [j; jobDyson 1 false true] ++ queue [j; jobDyson 1 false true])
  = ["_in_DYSON_0.txt"; "_in_MC_0.txt"; "_in_MC_1.txt"].
Proof. eexists. split; [vm_compute; reflexivity|]. vm_compute. reflexivity. Qed.

(* C145: at no time, whatever signals arrive, do more than CPU of the processes
   that keep a CPU busy run on this machine; *)
Theorem C145_cpu : forall cpu dur ok jobs es, let d := daemonOf (history cpu dur ok jobs es) in
  List.length (filter (fun p => a_busy (p_atom p) && negb (ended (now d) p)) (started d)) <= cpu.
Proof. exact cpu_law. Qed.
Print Assumptions C145_cpu.

(* what has been started or sent to the cluster is a first part of the queue, in
   its order, each job once; *)
Theorem C145_order : forall cpu dur ok jobs es, let d := daemonOf (history cpu dur ok jobs es) in
  (exists rest, filter (fun a => negb (a_cluster a) && a_auto a) (queueBack jobs ++ queue jobs)
                = map p_atom (started d) ++ rest) /\
  exists rest, filter (fun a => a_cluster a && a_auto a) (queueBack jobs ++ queue jobs) = sent d ++ rest.
Proof. exact order_law. Qed.
Print Assumptions C145_order.

(* and if every process ends at some time, the manager ends after all jobs have
   been started and all processes have ended. *)
Theorem C145_ends : forall cpu dur jobs, 0 < cpu -> exists n d, forall k,
  history cpu dur (fun _ => true) jobs (repeat Turn (n + k)) = Exited d 0 /\
  map p_atom (started d) = filter (fun a => negb (a_cluster a) && a_auto a) (queueBack jobs ++ queue jobs) /\
  sent d = filter (fun a => a_cluster a && a_auto a) (queueBack jobs ++ queue jobs) /\
  Forall (fun p => ended (now d) p = true) (started d).
Proof. exact ends_law. Qed.
Print Assumptions C145_ends.

(* check_status takes only ended processes off its list, and at least one if all
   have ended; *)
Theorem C145_check : forall t l, NoDup (map p_id l) ->
  incl (checkList t l) l /\ NoDup (map p_id (checkList t l)) /\
  (forall p, In p l -> ended t p = false -> In p (checkList t l)) /\
  (l <> [] -> Forall (fun p => ended t p = true) l -> List.length (checkList t l) < List.length l).
Proof. exact check_law. Qed.
Print Assumptions C145_check.

(* but not all of them: the list is shortened while it is walked through. *)
Theorem C145_check_refuted : exists t l p, NoDup (map p_id l) /\ Forall (fun p => ended t p = true) l /\
  In p (checkList t l).
Proof. exact check_refuted. Qed.
Print Assumptions C145_check_refuted.

Example C145_case :
  let jobs := [mkJob "MC" [0; 1; 2] false false true true; jobDyson 1 false true] in
  let d := daemonOf (history 2 (fun k => 3 + k) (fun _ => true) jobs (repeat Turn 4)) in
  map (fun p => a_pid (p_atom p)) (started d) = [0; 0; 1] /\ List.length (plist d) = 2 /\ List.length (todo d) = 1 /\
  exists d', history 2 (fun k => 3 + k) (fun _ => true) jobs (repeat Turn 30) = Exited d' 0.
Proof. vm_compute. repeat split. eexists. reflexivity. Qed.

(* C146: SIGINT and SIGTERM end all processes there are, *)
Theorem C146_killed : forall cpu dur ok jobs es d, history cpu dur ok jobs es = Running d ->
  Forall (fun p => ended (now (stopTheWorld d)) p = true) (started (stopTheWorld d)).
Proof. exact stop_law. Qed.
Print Assumptions C146_killed.

(* and the manager, if no job is left in the queue; *)
Theorem C146_ends : forall cpu dur jobs es d, 0 < cpu -> history cpu dur (fun _ => true) jobs es = Running d ->
  todoBack d = [] -> todo d = [] ->
  exists n d', history cpu dur (fun _ => true) jobs (es ++ Signal :: repeat Turn n) = Exited d' 0 /\
    map p_id (started d') = map p_id (started d).
Proof. exact stop_ends. Qed.
Print Assumptions C146_ends.

(* otherwise it starts the next ones in their place. *)
Theorem C146_stop_refuted : exists cpu dur jobs es d, 0 < cpu /\
  history cpu dur (fun _ => true) jobs (es ++ [Signal]) = Running d /\
  exists d' p, history cpu dur (fun _ => true) jobs (es ++ [Signal; Turn; Turn]) = Running d' /\
    In p (started d') /\ ~ In (p_id p) (map p_id (started d)) /\ ended (now d') p = false.
Proof. exact stop_refuted. Qed.
Print Assumptions C146_stop_refuted.

(* If a job cannot be submitted the manager ends with status 0, and leaves the
   processes it has started running and the others undone. *)
Theorem C146_failure_refuted : exists cpu dur ok jobs es d p, 0 < cpu /\
  history cpu dur ok jobs es = Exited d 0 /\ todo d <> [] /\ In p (started d) /\ ended (now d) p = false.
Proof. exact fail_refuted. Qed.
Print Assumptions C146_failure_refuted.

Example C146_case :
  exists d, history 1 (fun _ => 9) (fun _ => true) [mkJob "MC" [4] true false true true] [Turn; Turn] = Running d /\
    todoBack d = [] /\ todo d = [] /\ started d <> [] /\ Forall (fun p => ended (now d) p = false) (started d).
Proof. eexists. split; [vm_compute; reflexivity|]. cbn. repeat split; [discriminate|]. repeat constructor. Qed.
