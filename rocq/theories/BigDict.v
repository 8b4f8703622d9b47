(** * Saving big dictionaries, and the list of statistics files.
    /repo/IO.py 23-30, /repo/dyson/collect.py 9, 146-150. *)
Require Import List Arith Bool String Ascii.
Import ListNotations.
Local Open Scope string_scope.

Section BigDict.
Variable value : Type.

(** What a file holds: a complete dictionary, or one being written *)
Inductive content := Full (x : value) | Torn.

(** Files by path, relative to the working directory or from the root; which directories exist.  The working
    directory exists. *)
Record disk := Disk { files : string -> option content; dirs : string -> bool }.

(** The part before the last slash; None for a name in the working directory *)
Fixpoint dirOf (p : string) : option string :=
  match p with
  | EmptyString => None
  | String c r =>
      match dirOf r with
      | Some d => Some (String c d)
      | None => if Ascii.eqb c "/" then Some EmptyString else None
      end
  end.
Definition reachable (d : disk) (p : string) : bool :=
  match dirOf p with None => true | Some q => dirs d q end.
Definition put (d : disk) (p : string) (c : option content) : disk :=
  Disk (fun q => if String.eqb q p then c else files d q) (dirs d).

(** "if filename[-4:]!=".hkl": filename+=".hkl"", 24-25 *)
Definition withExt (f : string) : string :=
  if String.eqb (substring (String.length f - 4) 4 f) ".hkl" then f else f ++ ".hkl".

(** SaveBigDict, 23-30 (the conversion of GammaWStatis, 26-28, left out): the states of the disk one after
    the other, at any of which the program may be killed, and whether the call returns *)
Definition save (d : disk) (f : string) (x : value) : list disk * bool :=
  let name := withExt f in
  let tmp := "_" ++ name in
  if reachable d tmp then
    let d1 := put d tmp (Some Torn) in
    let d2 := put d tmp (Some (Full x)) in
    if reachable d name then ([d1; d2; put (put d tmp None) name (Some (Full x))], true)
    else ([d1; d2], false)
  else ([], false).

(** str.find(p) is not -1 *)
Definition contains (p f : string) : bool :=
  match index 0 p f with Some _ => true | None => false end.

(** GetFileList, 146-150, in the working directory: whether the name is listed *)
Definition listed (d : disk) (f : string) : bool :=
  match files d f with
  | None => false
  | Some _ =>
      match dirOf f, f with
      | None, String c _ => negb (Ascii.eqb c "_") && contains "_statis" f
      | _, _ => false
      end
  end.
End BigDict.
Arguments Full {value}. Arguments Torn {value}. Arguments Disk {value}.
Arguments files {value}. Arguments dirs {value}. Arguments save {value}. Arguments listed {value}.
Arguments put {value}. Arguments reachable {value}.
