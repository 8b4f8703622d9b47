(** * The job manager: /repo/job_class.py and /repo/job_manager.py.
    Text of job files, logging and printing are left out. *)
Require Import String Ascii List Arith Bool ZArith Reals.
Require Import DecimalString.
Import ListNotations.
Local Open Scope string_scope.
Local Open Scope list_scope.
Local Open Scope nat_scope.

(** ** Process numbers *)

(** str(n) of a natural number *)
Definition dec (n : nat) : string := NilZero.string_of_uint (Nat.to_uint n).

(** The file in which the Monte Carlo process [pid] keeps its statistics, job.cpp 31-33 and IO.py 25-26,
    and the name under which it is written first, IO.py 30-31. *)
Definition statisFile (pid : nat) : string := append (dec pid) "_MC_statis.hkl".
Definition statisTemp (pid : nat) : string := append "_" (statisFile pid).

(** e.split('_')[0] *)
Fixpoint firstPart (e : string) : string :=
  match e with
  | EmptyString => EmptyString
  | String c e => if Ascii.eqb c "_" then EmptyString else String c (firstPart e)
  end.

(** int(s); [None] is the ValueError.  Signs and blanks, which int accepts, are not. *)
Definition toInt (s : string) : option nat := option_map Nat.of_uint (NilZero.uint_of_string s).

(** (KeyWord in e) and e[0] is not '_', job_class.py 7.  Names of files are not empty. *)
Definition picked (key e : string) : bool :=
  match index 0 key e with
  | Some _ => match e with String c _ => negb (Ascii.eqb c "_") | EmptyString => true end
  | None => false
  end.

(** sorted of a list of numbers *)
Fixpoint insert (n : nat) (l : list nat) : list nat :=
  match l with
  | [] => [n]
  | m :: l' => if n <=? m then n :: l else m :: insert n l'
  end.
Definition sorted (l : list nat) : list nat := fold_right insert [] l.

Fixpoint allSome {A} (l : list (option A)) : option (list A) :=
  match l with
  | [] => Some []
  | Some x :: l => option_map (cons x) (allSome l)
  | None :: _ => None
  end.

(** get_current_PID, job_class.py 5-12; [dir] is os.listdir *)
Definition currentPID (key : string) (dir : list string) : option (list nat * nat) :=
  match allSome (map (fun e => toInt (firstPart e)) (filter (picked key) dir)) with
  | Some l => let l := sorted l in Some (l, match List.rev l with [] => 0 | m :: _ => m + 1 end)
  | None => None
  end.

(** A Job object as far as the manager is concerned: job["Type"], self.pid, job["DoesLoad"],
    control["__IsCluster"], control["__AutoRun"], control["__KeepCPUBusy"]. *)
Record job := mkJob { j_type : string; j_pids : list nat; j_load : bool;
                      j_cluster : bool; j_auto : bool; j_busy : bool }.

(** JobMonteCarlo.__init__, 51-63; [None] if a file name is not understood *)
Definition jobMC (dir : list string) (duplicate : nat) (cluster auto : bool) : option job :=
  match currentPID "statis" dir with
  | Some ([], next) => Some (mkJob "MC" (seq next duplicate) false cluster auto true)
  | Some (l, _) => Some (mkJob "MC" (firstn duplicate l) true cluster auto true)
  | None => None
  end.

(** JobDyson.__init__, 88-96 *)
Definition jobDyson (duplicate : nat) (cluster auto : bool) : job :=
  mkJob "DYSON" (if 0 <? duplicate then seq 0 1 else []) false cluster auto false.

(** JobMonteCarlo.to_dict, 80-83: int of a timer times a random number *)
Definition jitter (timer : Z) (u : R) : Z :=
  let x := (IZR timer * u)%R in
  if Rle_dec 0 x then Int_part x else (- Int_part (- x))%Z.

(** ** The queue *)

(** JobAtom, job_manager.py 24-45 *)
Record atom := mkAtom { a_name : string; a_pid : nat; a_cluster : bool; a_auto : bool; a_busy : bool }.

(** construct_job_queue, 51-69: a job is asked until self.pid is empty (IndexError) *)
Definition atoms (j : job) : list atom :=
  map (fun p => mkAtom (j_type j) p (j_cluster j) (j_auto j) (j_busy j)) (j_pids j).
Definition queue (todo : list job) : list atom := filter a_busy (flat_map atoms todo).
Definition queueBack (todo : list job) : list atom := filter (fun a => negb (a_busy a)) (flat_map atoms todo).

(** infile of submit_job, 96; IO.SaveDict adds ".txt" *)
Definition infile (a : atom) : string :=
  append "_in_" (append (a_name a) (append "_" (append (dec (a_pid a)) ".txt"))).

(** ** The daemon *)

(** A process: its number, the job and the time at which it ends. *)
Record proc := mkProc { p_id : nat; p_atom : atom; p_end : nat }.

(** poll() is not None *)
Definition ended (now : nat) (p : proc) : bool := p_end p <=? now.

(** plist.remove(elemp): the first that is equal; pairs of distinct objects are never equal *)
Fixpoint removeP (p : proc) (l : list proc) : list proc :=
  match l with
  | [] => []
  | q :: l => if p_id q =? p_id p then l else q :: removeP p l
  end.

(** "for elemp in plist" of check_status, 75-80: the loop keeps a position i, and the list may
    become shorter under it.  At most as many turns as the list is long at first. *)
Fixpoint scan (now turns i : nat) (l : list proc) : list proc :=
  match turns with
  | 0 => l
  | S turns =>
      match nth_error l i with
      | None => l
      | Some p => scan now turns (S i) (if ended now p then removeP p l else l)
      end
  end.
Definition checkList (now : nat) (l : list proc) : list proc := scan now (List.length l) 0 l.

(** The daemon: time in units of inlist.SLEEP, the number of the next process, jobs not yet
    submitted, PROCLIST, PROCLIST_BACK; and, only recorded, the processes started on this machine
    and the jobs given to the cluster so far.  [Exited] is the end of the script with its exit status. *)
Record daemon := mkDaemon {
  now : nat; next : nat; todoBack : list atom; todo : list atom; plist : list proc; pback : list proc;
  started : list proc; sent : list atom }.
Inductive status := Running (d : daemon) | Exited (d : daemon) (code : Z).

Definition check_status (d : daemon) : daemon :=
  mkDaemon (now d) (next d) (todoBack d) (todo d) (checkList (now d) (plist d)) (checkList (now d) (pback d))
    (started d) (sent d).
Definition sleep (d : daemon) : daemon :=
  mkDaemon (S (now d)) (next d) (todoBack d) (todo d) (plist d) (pback d) (started d) (sent d).

(** submit_job, 84-134, of a job that runs for [dur] units of time if it is started here *)
Definition submit (dur : nat) (a : atom) (d : daemon) : daemon :=
  if a_cluster a then
    mkDaemon (now d) (next d) (todoBack d) (todo d) (plist d) (pback d) (started d)
      (if a_auto a then sent d ++ [a] else sent d)
  else if a_auto a then
    let p := mkProc (next d) a (now d + dur) in
    mkDaemon (now d) (S (next d)) (todoBack d) (todo d)
      (if a_busy a then plist d ++ [p] else plist d) (if a_busy a then pback d else pback d ++ [p])
      (started d ++ [p]) (sent d)
  else d.

Definition setTodoBack (l : list atom) (d : daemon) : daemon :=
  mkDaemon (now d) (next d) l (todo d) (plist d) (pback d) (started d) (sent d).
Definition setTodo (l : list atom) (d : daemon) : daemon :=
  mkDaemon (now d) (next d) (todoBack d) l (plist d) (pback d) (started d) (sent d).

(** One turn of the script, 155-172.  [dur k] is the time the k-th process runs; [ok a] is false if
    submitting a raises an exception (the input file cannot be written, no process can be made):
    then traceback, which is not imported, raises NameError, and "finally" ends with status 0. *)
Definition turn (cpu : nat) (dur : nat -> nat) (ok : atom -> bool) (d : daemon) : status :=
  match todoBack d with
  | a :: l => if ok a then Running (submit (dur (next d)) a (setTodoBack l d)) else Exited d 0
  | [] =>
      match todo d with
      | a :: l =>
          if negb (a_cluster a) && (cpu <=? length (plist d)) then Running (sleep (check_status d))
          else if ok a then Running (submit (dur (next d)) a (setTodo l d)) else Exited d 0
      | [] =>
          match plist d ++ pback d with
          | [] => Exited d 0
          | _ => Running (sleep (check_status d))
          end
      end
  end.

Definition start (jobs : list job) : daemon := mkDaemon 0 0 (queueBack jobs) (queue jobs) [] [] [] [].

(** StopTheWorld, 141-152, for SIGINT and SIGTERM: every process in the lists is terminated and
    waited for; then the script goes on where it was. *)
Definition kill (t : nat) (p : proc) : proc := mkProc (p_id p) (p_atom p) (Nat.min t (p_end p)).
Definition stopTheWorld (d : daemon) : daemon :=
  let d := check_status d in
  mkDaemon (now d) (next d) (todoBack d) (todo d) (map (kill (now d)) (plist d)) (map (kill (now d)) (pback d))
    (map (fun p => if existsb (fun q => p_id q =? p_id p) (plist d ++ pback d) then kill (now d) p else p) (started d))
    (sent d).

(** A history: turns of the script and signals between them. *)
Inductive event := Turn | Signal.
Definition happen (cpu : nat) (dur : nat -> nat) (ok : atom -> bool) (s : status) (e : event) : status :=
  match s, e with
  | Exited _ _, _ => s
  | Running d, Turn => turn cpu dur ok d
  | Running d, Signal => Running (stopTheWorld d)
  end.
Definition history (cpu : nat) (dur : nat -> nat) (ok : atom -> bool) (jobs : list job) (es : list event) : status :=
  fold_left (happen cpu dur ok) es (Running (start jobs)).
Definition daemonOf (s : status) : daemon := match s with Running d => d | Exited d _ => d end.
