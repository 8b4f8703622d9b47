(** * A Dyson job over its sessions: what is kept in files, what is lost, when statistics are
    collected.  /repo/dyson/main.py 99-122, 124-338, 355-377, 395, measure.py 9-18, 124-134,
    logger.py 38-55; padding of text, /repo/src/utility/utility.cpp 78-107. *)
Require Import Reals List Arith ZArith Bool Ascii String.
Require Import Verif.BareG.
Import ListNotations.
Local Open Scope string_scope.
Local Open Scope list_scope.
Local Open Scope nat_scope.

(** What of the dictionary para changes: Version (0 if missing, 126-127), Model/Symmetry and
    Dyson/Annealing. *)
Record para := mkPara { version : nat; symmetry : list string; annealing : anneal }.

(** The files: the version whose weights WeightFile.hkl holds, ParaFile, the versions listed in
    OutputFile, and the versions sent in MessageFile so far (recorded; the file has the last). *)
Record disk := mkDisk { weights : option nat; paraFile : option para; output : list nat; messages : list nat }.

(** The process: IsNewCalculation, para, the versions in Observable.__History, and, only recorded,
    how many versions were made from first-order diagrams and from statistics. *)
Record session := mkSession { isNew : bool; cur : para; hist : list nat; first : nat; collected : nat }.
Definition world : Type := (disk * session)%type.

(** main.py 367-377, and Dyson, 126-127, 162: [input] is the para of the input file, [name] the lattice.
    Observable.Load (measure.py 124-130) is not called.  A file is there entirely or not at all. *)
Definition begin (input : para) (name : string) (k : disk) : world :=
  let new := match weights k with None => true | Some _ => false end in
  let p := if new then input else match paraFile k with Some p => p | None => input end in
  let k := if new then k else match paraFile k with
             | Some _ => k
             | None => mkDisk (weights k) (Some input) (output k) (messages k) end in
  (k, mkSession new (mkPara (version p) (symmetry p ++ [name]) (annealing p)) [] 0 0).

(** One version ends well, [Done i] with the first i of the three files written (an exception in
    between is caught, 101-122), or fails (294-301, 303-309), or is [Cut]: a delayed signal, raised
    where line 101 ends, stops the process before lines 326-331; or the process ends between
    versions.  After a Cut and a Restart the job is started again. *)
Inductive event := Done (files : nat) | Touches | NoStatistics | Cut (files : nat) | Restart.

Definition setCur (p : para) (s : session) : session := mkSession (isNew s) p (hist s) (first s) (collected s).

(** 195 *)
Definition nextVersion (s : session) : session :=
  setCur (mkPara (S (version (cur s))) (symmetry (cur s)) (annealing (cur s))) s.

(** 209-270: the source of Sigma and Polar; IsNewCalculation is assigned nowhere in the loop *)
Definition source (dysonOnly : bool) (s : session) : session :=
  if dysonOnly || isNew s then mkSession (isNew s) (cur s) (hist s) (S (first s)) (collected s)
  else mkSession (isNew s) (cur s) (hist s) (first s) (S (collected s)).

(** Measure, 99-108: the history grows, then the files are written *)
Definition save (files : nat) (k : disk) (s : session) : world :=
  let v := version (cur s) in
  let h := (hist s ++ [v])%list in
  (mkDisk (if 1 <=? files then Some v else weights k) (if 2 <=? files then Some (cur s) else paraFile k)
     (if 3 <=? files then h else output k) (messages k),
   mkSession (isNew s) (cur s) h (first s) (collected s)).

(** 326-331 *)
Definition done (w : world) : world :=
  let k := fst w in let s := snd w in
  (mkDisk (weights k) (paraFile k) (output k) (messages k ++ [version (cur s)]),
   setCur (mkPara (version (cur s)) (symmetry (cur s)) (snd (DecreaseField (annealing (cur s))))) s).

(** NoStatistics cannot happen where nothing is collected. *)
Definition step (dysonOnly : bool) (input : para) (name : string) (w : world) (e : event) : world :=
  let k := fst w in let s := snd w in
  match e with
  | Done files => done (save files k (source dysonOnly (nextVersion s)))
  | Touches =>
      let s := source dysonOnly (nextVersion s) in
      (k, setCur (mkPara (version (cur s)) (symmetry (cur s)) (RevertField (annealing (cur s)))) s)
  | NoStatistics => if dysonOnly || isNew s then w else (k, nextVersion s)
  | Cut files => begin input name (fst (save files k (source dysonOnly (nextVersion s))))
  | Restart => begin input name k
  end.

Definition life (dysonOnly : bool) (input : para) (name : string) (k : disk) (es : list event) : world :=
  fold_left (step dysonOnly input name) es (begin input name k).
Definition noFiles : disk := mkDisk None None [] [].

(** ** DelayedInterrupt, logger.py 38-55 *)

(** What signal.getsignal gives: SIG_DFL and SIG_IGN are integers, the others functions (None, a
    handler set outside Python, is left out). *)
Inductive handler := SigDfl | SigIgn | Python (f : nat).
Inductive sig := INT | TERM.
Record handlers := mkHandlers { onInt : handler; onTerm : handler }.
Definition handlerOf (h : handlers) (s : sig) : handler := match s with INT => onInt h | TERM => onTerm h end.

(** What happens: a function is called with a signal, the process dies, an integer is called. *)
Inductive effect := Called (f : nat) (s : sig) | Dies (s : sig) | TypeError.

(** A signal outside the block: the system and the interpreter *)
Definition react (h : handler) (s : sig) : list effect :=
  match h with SigDfl => [Dies s] | SigIgn => [] | Python f => [Called f s] end.

(** What is installed: a handler from before, or the method of the object *)
Inductive slot := Old (h : handler) | Delaying.
Record delay := mkDelay { slotInt : slot; slotTerm : slot; received : option sig; oldInt : handler; oldTerm : handler }.

(** 39-44; signals between two lines of enter and exit are left out *)
Definition enter (h : handlers) : delay := mkDelay Delaying Delaying None (onInt h) (onTerm h).

(** 46-48 *)
Definition arrive (st : delay * list effect) (s : sig) : delay * list effect :=
  let (d, log) := st in
  match (match s with INT => slotInt d | TERM => slotTerm d end) with
  | Delaying => (mkDelay (slotInt d) (slotTerm d) (Some s) (oldInt d) (oldTerm d), log)
  | Old g => (d, log ++ react g s)%list
  end.

(** 50-55 *)
Definition exit (st : delay * list effect) : handlers * list effect :=
  let (d, log) := st in
  (mkHandlers (oldInt d) (oldTerm d),
   (log ++ match received d with
           | None => []
           | Some s => match oldInt d with SigDfl | SigIgn => [TypeError] | Python f => [Called f s] end
           end)%list).

(** with DelayedInterrupt(): a body during which the signals arrive; the effects before the end of the
    block, the handlers after it, and all effects *)
Definition during (h : handlers) (signals : list sig) : list effect :=
  snd (fold_left arrive signals (enter h, [])).
Definition delayed (h : handlers) (signals : list sig) : handlers * list effect :=
  exit (fold_left arrive signals (enter h, [])).

(** ** Padding, utility.cpp 78-107.  [padding] is of the unsigned 64-bit type of size(); the counter is
    an int, and [None] is its overflow. *)
Definition pad (w size : Z) : Z := ((w - size) mod 2 ^ 64)%Z.
Definition blanks (n : Z) : option string :=
  if (n <=? 2147483647)%Z then Some (string_of_list_ascii (repeat " "%char (Z.to_nat n))) else None.
Definition sizeOf (s : string) : Z := Z.of_nat (String.length s).
Definition center (s : string) (w : Z) : option string :=
  let p := pad w (sizeOf s) in
  match blanks (p / 2) with
  | Some b => Some (b ++ s ++ b ++ (if (0 <? p)%Z && negb (p mod 2 =? 0)%Z then " " else ""))%string
  | None => None
  end.
Definition right (s : string) (w : Z) : option string :=
  match blanks (pad w (sizeOf s)) with Some b => Some (b ++ s)%string | None => None end.
Definition left (s : string) (w : Z) : option string :=
  match blanks (pad w (sizeOf s)) with Some b => Some (s ++ b)%string | None => None end.
