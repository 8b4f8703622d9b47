(* The two files through which the Dyson program drives the Monte Carlo jobs:
   the weight file, replaced atomically, and the message file, rewritten in
   place.  Both sides run at the same time; a step below is one access to a
   file or one decision, and the steps of the Dyson program and of any number
   of jobs are interleaved freely. *)
From Coq Require Import Arith List Bool.
Import ListNotations.

(* The message file as a reader finds it.
   IO.py 11-15: SaveDict opens the file with mode "w", which empties it, and
   then writes the text of the dictionary; there is no temporary file.
   MTorn stands for the file between the two, empty or holding a strict prefix
   of the text.  Simplified: of Version, Beta and SqueezeFactor only Version is
   kept. *)
Inductive mfile := MMissing | MTorn | MWhole (v : nat).

(* Where the Dyson program stands in one turn of its loop
   (dyson/main.py 194-338): before the turn, about to save the weights (105),
   about to save the parameters (107), about to open the message file and about
   to write it (330-331, dyson/parameter.py 24-26). *)
Inductive dphase := DIdle | DWeight | DPara | DOpening | DWriting.

(* Where a job stands in EnvMonteCarlo::ListenToMessage
   (src/environment/envMonteCarlo.cpp 151-193): outside, holding a message
   newer than its own version (after line 166), or ended by an exception. *)
Inductive jphase := JIdle | JHolds (v : nat) | JDead.

(* A job: Para.Version, and the version of the Dyson turn that wrote the
   weights it computes with, None before the first annealing. *)
Record job := Job { jver : nat; jweight : option nat; jphase_ : jphase }.

(* The files and the programs.  weightFile holds the version of the turn that
   wrote it; paraFile the Version stored by parameter.Save (dyson/parameter.py
   19-22); version is para["Version"] in the Dyson program. *)
Record world := World
  { weightFile : option nat; paraFile : nat; message : mfile;
    version : nat; phase : dphase; jobs : nat -> job }.

Inductive event :=
| DFails                 (* a turn that ends in lines 294-309 *)
| DSolves                (* a turn that reaches line 318 *)
| DSavesWeight (ok : bool)
| DSavesPara (ok : bool)
| DOpens
| DWrites
| DKilled                (* the program is ended and started again *)
| JReads (j : nat)       (* lines 161-166 of envMonteCarlo.cpp *)
| JLoads (j : nat).      (* lines 167-193 *)

Definition setJob (w : world) (j : nat) (x : job) : world :=
  World (weightFile w) (paraFile w) (message w) (version w) (phase w)
    (fun k => if Nat.eqb k j then x else jobs w k).

Definition setDyson (w : world) (wf : option nat) (pf : nat) (m : mfile) (v : nat)
  (p : dphase) : world := World wf pf m v p (jobs w).

(* envMonteCarlo.cpp 161-166 with para::Message::Load
   (src/module/parameter/message.cpp 12-26) and Dictionary::Load
   (src/utility/dictionary.cpp 48-57).  A missing file is an IOError, which
   PropagatePyError (src/utility/pyglue/object.cpp 59-75) turns into IOInvalid,
   caught in message.cpp 19.  A torn file makes eval (IO.py 21) raise
   SyntaxError: the text is empty or lacks the closing brace.  object.cpp 72-73
   turns that into RunTimeException, which nothing between message.cpp 17 and
   main (src/main.cpp 25-47) catches.
   Simplified: the guard of line 153 (no annealing while a three-point function
   is being measured) is left out, i.e. the step is a call that passes it. *)
Definition jobReads (m : mfile) (x : job) : job :=
  match jphase_ x with
  | JIdle =>
      match m with
      | MMissing => x
      | MTorn => Job (jver x) (jweight x) JDead
      | MWhole v => if v <=? jver x then x else Job (jver x) (jweight x) (JHolds v)
      end
  | _ => x
  end.

(* envMonteCarlo.cpp 167-193: a missing weight file is IOInvalid, caught in 171;
   else UpdateWithMessage takes the version and FromDict the weights.  The
   weight file is never torn, since IO.py 29-30 writes another file and renames
   it (C168 states when this holds). *)
Definition jobLoads (wf : option nat) (x : job) : job :=
  match jphase_ x with
  | JHolds v =>
      match wf with
      | None => Job (jver x) (jweight x) JIdle
      | Some u => Job v (Some u) JIdle
      end
  | _ => x
  end.

(* One step.  An event that does not fit the phase changes nothing.
   dyson/main.py 195: the version grows at the start of a turn.
   101-122: the saving is inside try ... except, which logs any failure and goes
   on; a failure of 105 skips 107, and in both cases 330 is reached.
   DKilled: lines 367-375 read the parameter file of the ended run, 126-127 give
   version 0 without one.
   Simplified: the parameter file is written in one step (a program killed
   within it would leave a file that 373 replaces by the input file). *)
Definition step (w : world) (e : event) : world :=
  match e, phase w with
  | DFails, DIdle =>
      setDyson w (weightFile w) (paraFile w) (message w) (S (version w)) DIdle
  | DSolves, DIdle =>
      setDyson w (weightFile w) (paraFile w) (message w) (S (version w)) DWeight
  | DSavesWeight true, DWeight =>
      setDyson w (Some (version w)) (paraFile w) (message w) (version w) DPara
  | DSavesWeight false, DWeight =>
      setDyson w (weightFile w) (paraFile w) (message w) (version w) DOpening
  | DSavesPara true, DPara =>
      setDyson w (weightFile w) (version w) (message w) (version w) DOpening
  | DSavesPara false, DPara =>
      setDyson w (weightFile w) (paraFile w) (message w) (version w) DOpening
  | DOpens, DOpening =>
      setDyson w (weightFile w) (paraFile w) MTorn (version w) DWriting
  | DWrites, DWriting =>
      setDyson w (weightFile w) (paraFile w) (MWhole (version w)) (version w) DIdle
  | DKilled, _ =>
      setDyson w (weightFile w) (paraFile w) (message w) (paraFile w) DIdle
  | JReads j, _ => setJob w j (jobReads (message w) (jobs w j))
  | JLoads j, _ => setJob w j (jobLoads (weightFile w) (jobs w j))
  | _, _ => w
  end.

Definition runAll (w : world) (es : list event) : world := fold_left step es w.

(* A new project: no files, jobs at version 0 (src/module/parameter/parameter.cpp
   32 gives Version 0 to a new job). *)
Definition start : world :=
  World None 0 MMissing 0 DIdle (fun _ => Job 0 None JIdle).
