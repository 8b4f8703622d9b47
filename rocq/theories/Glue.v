(** * The Python objects behind the glue: reference counts, the Object wrapper and the conversions
    /repo/src/utility/pyglue/object.h, object.cpp, type_cast.h, type_cast.cpp

    PyDict.v treats Python objects as values. Here they live in a heap with reference counts, as in
    CPython. Addresses are not reused after an object is freed, so touching a freed object is
    always seen ([UB]). Dereferencing a null pointer is [Abort] (the process dies). *)
From Coq Require Import ZArith List Bool String Ascii.
From Verif Require Import Base Num PyDict.
Import ListNotations.
Open Scope Z_scope.

Section Glue.
Context {N : Num}.

(** ** The heap of the interpreter. A slot of a list or tuple may be null (PyList_New, PyTuple_New). The
    keys of a dictionary are addresses of str objects; its entries are kept in insertion order
    (in Python 2 the order of PyDict_Next depends on hashes); they hold no NUL. int and long are one
    constructor. *)
Notation addr := nat (only parsing).
Inductive body : Type :=
| BNone | BBool (b : bool) | BInt (z : Z) | BFloat (x : real) | BStr (s : string)
| BList (l : list (option addr)) | BTup (l : list (option addr)) | BDict (l : list (addr * addr)).
Record cell : Type := mkCell { c_rc : nat; c_body : body }.
Definition heap : Type := list (option cell).
Definition cellAt (h : heap) (a : addr) : option cell := match nth_error h a with Some x => x | None => None end.
Fixpoint put (h : heap) (a : addr) (x : option cell) : heap :=
  match h, a with [], _ => [] | _ :: r, O => x :: r | y :: r, S a => y :: put r a x end.
Fixpoint somes {A} (l : list (option A)) : list A := match l with [] => [] | Some a :: r => a :: somes r | None :: r => somes r end.
(** the references an object holds *)
Definition kids (b : body) : list addr :=
  match b with
  | BList l | BTup l => somes l
  | BDict l => flat_map (fun p => [fst p; snd p]) l
  | _ => []
  end.
Definition refs (h : heap) : list addr := flat_map (fun x => match x with Some c => kids (c_body c) | None => [] end) h.

(** a new object with one reference, owned by the caller *)
Definition alloc (b : body) (h : heap) : addr * heap := (List.length h, h ++ [Some (mkCell 1 b)]).
(** Py_INCREF; IncreaseRef, object.cpp:75-79 *)
Definition incref (a : addr) (h : heap) : outcome heap :=
  match cellAt h a with None => UB | Some c => Ok (put h a (Some (mkCell (S (c_rc c)) (c_body c)))) end.
(** Py_DECREF of all the addresses in [w]: an object whose count reaches 0 is freed and drops what it holds.
    CPython recurses; a worklist does the same without observable difference (no finalizers). *)
Fixpoint release (fuel : nat) (w : list addr) (h : heap) : outcome heap :=
  match w with
  | [] => Ok h
  | a :: w =>
    match fuel with
    | O => UB
    | S n =>
      match cellAt h a with
      | None => UB
      | Some c =>
        if Nat.leb (c_rc c) 1 then release n (kids (c_body c) ++ w) (put h a None)
        else release n w (put h a (Some (mkCell (pred (c_rc c)) (c_body c))))
      end
    end
  end.
(** every step takes one reference off the list or the heap *)
Definition drop (w : list addr) (h : heap) : outcome heap := release (List.length w + List.length (refs h)) w h.
(** DecreaseRef, object.cpp:80-83 (Py_XDECREF) *)
Definition ptrs (p : option addr) : list addr := match p with Some a => [a] | None => [] end.
Definition decref (p : option addr) (h : heap) : outcome heap := drop (ptrs p) h.
Definition incrp (p : option addr) (h : heap) : outcome heap := match p with Some a => incref a h | None => Ok h end.
(** looking at an object *)
Definition look (a : addr) (h : heap) : outcome body := match cellAt h a with None => UB | Some c => Ok (c_body c) end.
Definition lookp (p : option addr) (h : heap) : outcome body := match p with None => Abort | Some a => look a h end.
Definition setBody (a : addr) (b : body) (h : heap) : heap :=
  match cellAt h a with Some c => put h a (Some (mkCell (c_rc c) b)) | None => h end.
Fixpoint setSlot {A} (l : list A) (i : nat) (x : A) : list A := match l, i with [], _ => [] | _ :: r, O => x :: r | y :: r, S i => y :: setSlot r i x end.

(** PyList_SetItem: takes over the caller's reference to [p], drops what the slot held; out of range it
    drops [p] and fails *)
Definition listSet (a : addr) (i : nat) (p : option addr) (h : heap) : outcome heap :=
  obind (look a h) (fun b => match b with
  | BList l => match nth_error l i with
               | Some old => decref old (setBody a (BList (setSlot l i p)) h)
               | None => decref p h
               end
  | _ => decref p h
  end).
(** PyDict_SetItem: makes references of its own; the key of an entry that is there stays. Null arguments are
    dereferenced. The key must be a str here (any hashable object in Python). *)
Fixpoint findKey (s : string) (l : list (addr * addr)) (h : heap) : outcome (option nat) :=
  match l with
  | [] => Ok None
  | (k, _) :: r => obind (look k h) (fun b => match b with
      | BStr s' => if String.eqb s s' then Ok (Some O) else obind (findKey s r h) (fun o => Ok (option_map S o))
      | _ => obind (findKey s r h) (fun o => Ok (option_map S o))
      end)
  end.
Definition dictSet (a : addr) (k v : option addr) (h : heap) : outcome heap :=
  obind (look a h) (fun b => obind (lookp k h) (fun bk => obind (lookp v h) (fun _ =>
  match b, k, v, bk with
  | BDict l, Some k, Some v, BStr s =>
    obind (findKey s l h) (fun o => match o with
    | Some i => match nth_error l i with
                | Some (k0, v0) => obind (incref v h) (fun h => decref (Some v0) (setBody a (BDict (setSlot l i (k0, v))) h))
                | None => UB
                end
    | None => obind (incref k h) (fun h => obind (incref v h) (fun h => Ok (setBody a (BDict (l ++ [(k, v)])) h)))
    end)
  | _, _, _, _ => Ok h
  end))).

(** ** Programs that use Object, object.h:69-99, object.cpp:75-133. The variables are Objects (their
    pointer), [g_raw] the raw PyObject* the program owns a reference of. *)
Record gstate : Type := mkG { g_heap : heap; g_vars : list (option addr); g_raw : list addr }.
Inductive gop : Type :=
| GEmpty                             (* Object y;                                             object.h:70-73 *)
| GScalar (b : body)                 (* Object y = PyInt_FromLong(..), PyString_FromString(..), ... *)
| GListNew (n : nat)                 (* Object y = PyList_New(n)                              type_cast.h:163 *)
| GDictNew                           (* Object y = PyDict_New()                               type_cast.h:196 *)
| GBool (b : bool)                   (* Object y = PyBool_FromLong(b)                         type_cast.cpp:146-149 *)
| GCopy (x : nat)                    (* Object y = x, also x.Copy()                           object.cpp:84-93 *)
| GItem (x i : nat)                  (* Object y(PyList_GetItem(x.Get(), i), NoRef)           type_cast.h:124 *)
| GAssign (x y : nat)                (* x = y                                                 object.cpp:95-105 *)
| GDestroy (x : nat)                 (* x.Destroy() and ~Object                               object.cpp:121-125 *)
| GGet (x : nat)                     (* PyObject* p = x.Get(NewRef)                           object.cpp:114-119 *)
| GTake (i : nat)                    (* Object y = p, default ownership NewRef                object.cpp:107-112 *)
| GSet (x i y : nat)                 (* PyList_SetItem(x.Get(), i, y.Get(NewRef))             type_cast.h:168 *)
| GPut (x k y : nat).                (* PyDict_SetItem(x.Get(), k.Get(), y.Get())             type_cast.h:202 *)
(** Py_False, Py_True and Py_None are at 0, 1 and 2; the interpreter keeps a reference of each. *)
Definition roots : list addr := [0%nat; 1%nat; 2%nat].
Definition heap0 : heap := [Some (mkCell 1 (BBool false)); Some (mkCell 1 (BBool true)); Some (mkCell 1 BNone)].
Definition g0 : gstate := mkG heap0 [] [].
Definition var (x : nat) (s : gstate) : option addr := nth x (g_vars s) None.
Definition newVar (s : gstate) (p : option addr) (h : heap) : gstate := mkG h (g_vars s ++ [p]) (g_raw s).
Definition setVar (s : gstate) (x : nat) (p : option addr) (h : heap) : gstate := mkG h (setSlot (g_vars s) x p) (g_raw s).
Fixpoint dropNth {A} (i : nat) (l : list A) : list A := match l, i with [], _ => [] | _ :: r, O => r | y :: r, S i => y :: dropNth i r end.
(** a statement on a variable that does not exist does nothing *)
Definition gstep (o : gop) (s : gstate) : outcome gstate :=
  let h := g_heap s in
  match o with
  | GEmpty => Ok (newVar s None h)
  | GScalar b => match b with BInt _ | BFloat _ | BStr _ => let '(a, h) := alloc b h in Ok (newVar s (Some a) h) | _ => Ok s end
  | GListNew n => let '(a, h) := alloc (BList (repeat None n)) h in Ok (newVar s (Some a) h)
  | GDictNew => let '(a, h) := alloc (BDict []) h in Ok (newVar s (Some a) h)
  | GBool b => let a := (if b then 1 else 0)%nat in obind (incref a h) (fun h => Ok (newVar s (Some a) h))
  | GCopy x => obind (incrp (var x s) h) (fun h => Ok (newVar s (var x s) h))
  | GItem x i =>
    obind (lookp (var x s) h) (fun b => match b with
    | BList l => let p := nth i l None in obind (incrp p h) (fun h => Ok (newVar s p h))
    | _ => Ok (newVar s None h)
    end)
  | GAssign x y =>
    if (x =? y)%nat || negb (x <? List.length (g_vars s))%nat then Ok s else
    obind (incrp (var y s) h) (fun h => obind (decref (var x s) h) (fun h => Ok (setVar s x (var y s) h)))
  | GDestroy x => obind (decref (var x s) h) (fun h => Ok (setVar s x None h))
  | GGet x => obind (incrp (var x s) h) (fun h => Ok (mkG h (g_vars s) (ptrs (var x s) ++ g_raw s)))
  | GTake i => match nth_error (g_raw s) i with None => Ok s | Some a => Ok (mkG h (g_vars s ++ [Some a]) (dropNth i (g_raw s))) end
  | GSet x i y => match var x s with
                  | None => Abort
                  | Some a => obind (incrp (var y s) h) (fun h => obind (listSet a i (var y s) h) (fun h => Ok (mkG h (g_vars s) (g_raw s))))
                  end
  | GPut x k y => match var x s with
                  | None => Abort
                  | Some a => obind (dictSet a (var k s) (var y s) h) (fun h => Ok (mkG h (g_vars s) (g_raw s)))
                  end
  end.
Fixpoint grun (l : list gop) (s : gstate) : outcome gstate :=
  match l with [] => Ok s | o :: r => obind (gstep o s) (grun r) end.

(** ** C++ values: [VObj] is an AnyObject *)
Inductive cval : Type :=
| VBool (b : bool) | VInt (z : Z) | VReal (x : real) | VStr (s : string)
| VList (l : list cval) | VMap (l : list (string * cval)) | VTup (l : list cval) | VObj (p : option addr).
(** c_str(): up to the first NUL *)
Fixpoint cstr (s : string) : string :=
  match s with EmptyString => EmptyString | String c r => if Ascii.eqb c zero then EmptyString else String c (cstr r) end.

(** ** CastToPy, type_cast.h:159-205, type_cast.cpp:137-207; the Object returned owns the new reference.
    Returning an Object by value elides the copy. *)
Fixpoint cast (v : cval) (h : heap) : outcome (option addr * heap) :=
  match v with
  | VBool b => let a := (if b then 1 else 0)%nat in obind (incref a h) (fun h => Ok (Some a, h))
  | VInt z => let '(a, h) := alloc (BInt z) h in Ok (Some a, h)
  | VReal x => let '(a, h) := alloc (BFloat x) h in Ok (Some a, h)
  | VStr s => let '(a, h) := alloc (BStr (cstr s)) h in Ok (Some a, h)
  | VList l =>
    (* CastToPyList, type_cast.h:160-171 *)
    let '(a, h) := alloc (BList (repeat None (List.length l))) h in
    obind ((fix fill (i : nat) (l : list cval) (h : heap) : outcome heap :=
      match l with
      | [] => Ok h
      | v :: r =>
        obind (cast v h) (fun '(p, h) =>
        obind (incrp p h) (fun h => obind (listSet a i p h) (fun h =>
        obind (decref p h) (fun h => fill (S i) r h))))
      end) O l h) (fun h => Ok (Some a, h))
  | VMap l =>
    (* type_cast.h:191-205 *)
    let '(a, h) := alloc (BDict []) h in
    obind ((fix fill (l : list (string * cval)) (h : heap) : outcome heap :=
      match l with
      | [] => Ok h
      | (k, v) :: r =>
        let '(b, h) := alloc (BStr k) h in
        obind (cast v h) (fun '(p, h) =>
        obind (dictSet a (Some b) p h) (fun h =>
        obind (decref p h) (fun h => obind (decref (Some b) h) (fun h => fill r h))))
      end) l h) (fun h => Ok (Some a, h))
  | VTup _ => Abort                  (* there is no CastToPy for tuples *)
  | VObj p => obind (incrp p h) (fun h => Ok (p, h))
  end.

(** ** Convert, type_cast.h:31-146, type_cast.cpp:14-136. The result is whether it succeeded and what the
    variable then holds, [None] for a scalar that was not assigned. The Object argument is passed
    by value: copied on entry, destroyed on return. *)
Inductive ty : Type := TBool | TInt | TUInt | TLL | TReal | TStr | TList (t : ty) | TMap (t : ty) | TTup (l : list ty) | TObj.
(** the references a C++ value owns; they are dropped when it is destroyed *)
Fixpoint owned (v : cval) : list addr :=
  match v with
  | VList l | VTup l => flat_map owned l
  | VMap l => flat_map (fun p => owned (snd p)) l
  | VObj p => ptrs p
  | _ => []
  end.
Definition ownedo (o : option cval) : list addr := match o with Some v => owned v | None => [] end.
(** C++ dereferences the pointer it is given without looking *)
Definition deref (p : option addr) : outcome addr := match p with None => Abort | Some a => Ok a end.
(** the conversion of scalars: the cases of PyDict.v *)
Definition pyOf (b : body) : @py N :=
  match b with BBool b => PBool b | BInt z => PInt z | BFloat x => PFloat x | BStr s => PStr s | BNone => PNone
  | BList _ => PList [] | BTup _ => PTup [] | BDict _ => PDict [] end.
Definition scalar (f : @py N -> option cval) (a : addr) (h : heap) : outcome (bool * option cval * heap) :=
  obind (look a h) (fun b => match f (pyOf b) with Some v => Ok (true, Some v, h) | None => Ok (false, None, h) end).
(** std::map::insert of a std::string key *)
Fixpoint mapHas (k : string) (l : list (string * cval)) : bool :=
  match l with [] => false | (k', _) :: r => String.eqb k k' || mapHas k r end.
Section Items.
(** [conv] the conversion of the element type, on an argument passed by copy *)
Variable conv : addr -> heap -> outcome (bool * option cval * heap).
(** f(x) for a parameter [Object obj]: copy, call, destroy *)
Definition byValue (p : option addr) (h : heap) : outcome (bool * option cval * heap) :=
  obind (incrp p h) (fun h => obind (deref p) (fun a => obind (conv a h) (fun '(b, v, h) => obind (decref p h) (fun h => Ok (b, v, h))))).
(** Object item(borrowed, NoRef); Convert(item, val); ~item *)
Definition onItem (p : option addr) (h : heap) : outcome (bool * option cval * heap) :=
  obind (incrp p h) (fun h => obind (byValue p h) (fun '(b, v, h) => obind (decref p h) (fun h => Ok (b, v, h)))).
(** the loop of ConvertList, type_cast.h:116-131: when an item fails its [val] is destroyed and the
    container keeps what it has *)
Fixpoint convItems (l : list (option addr)) (acc : list cval) (h : heap) : outcome (bool * list cval * heap) :=
  match l with
  | [] => Ok (true, acc, h)
  | p :: r => obind (onItem p h) (fun '(b, v, h) =>
      match b, v with
      | true, Some v => convItems r (acc ++ [v]) h
      | _, _ => obind (drop (ownedo v) h) (fun h => Ok (false, acc, h))
      end)
  end.
(** the loop of Convert to std::map, type_cast.h:93-113: [insert] keeps an entry that is there and destroys
    the new value. The key is converted and the value converted through temporaries Object(.., NoRef). *)
Fixpoint convEntries (l : list (addr * addr)) (acc : list (string * cval)) (h : heap) : outcome (bool * list (string * cval) * heap) :=
  match l with
  | [] => Ok (true, acc, h)
  | (k, p) :: r =>
    obind (incref k h) (fun h => obind (look k h) (fun bk => obind (decref (Some k) h) (fun h =>
    match cvStr (pyOf bk) with
    | None => Ok (false, acc, h)
    | Some s =>
      obind (byValue (Some p) h) (fun '(b, v, h) =>
      match b, v with
      | true, Some v => if mapHas s acc then obind (drop (owned v) h) (fun h => convEntries r acc h) else convEntries r (acc ++ [(s, v)]) h
      | _, _ => obind (drop (ownedo v) h) (fun h => Ok (false, acc, h))
      end)
    end)))
  end.
End Items.
(** Convert(obj, val) with [a] the pointer of the parameter *)
Fixpoint conv (t : ty) (a : addr) (h : heap) : outcome (bool * option cval * heap) :=
  match t with
  | TBool => scalar (fun o => option_map VBool (cvBool o)) a h
  | TInt => scalar (fun o => option_map VInt (cvInt o)) a h
  | TUInt => scalar (fun o => option_map VInt (cvUInt o)) a h
  | TLL => scalar (fun o => option_map VInt (cvLL o)) a h
  | TReal => scalar (fun o => option_map VReal (cvReal o)) a h
  | TStr => scalar (fun o => option_map (fun s => VStr (cstr s)) (cvStr o)) a h
  | TList t =>
    obind (look a h) (fun b => match b with
    | BList l => obind (convItems (conv t) l [] h) (fun '(r, l, h) => Ok (r, Some (VList l), h))
    | _ => Ok (false, Some (VList []), h)
    end)
  | TMap t =>
    obind (look a h) (fun b => match b with
    | BDict l => obind (convEntries (conv t) l [] h) (fun '(r, l, h) => Ok (r, Some (VMap l), h))
    | _ => Ok (false, Some (VMap []), h)
    end)
  | TTup ts =>
    obind (look a h) (fun b => match b with
    | BTup l =>
      if (List.length l =? List.length ts)%nat && negb (List.length ts =? 0)%nat then
        (* AddToTuple, type_cast.h:67-91: the parameter of the outermost call is a copy of obj; each inner
           call is handed obj.Get(), which Object(PyObject* ) takes for a reference to own. [pre] are the
           element types below the last; the result of the inner calls is not looked at. *)
        obind (incref a h) (fun h =>
        obind ((fix add (i : nat) (ts : list ty) (h : heap) : outcome (list (bool * option cval) * heap) :=
          match ts with
          | [] => Ok ([], h)
          | t :: r =>
            (* elements are converted from the first to the last: AddToTuple<i> first runs AddToTuple<i-1> *)
            obind (look a h) (fun b => match b with
            | BTup l =>
              obind (onItem (conv t) (nth i l None) h) (fun '(b, v, h) =>
              (* the parameter of AddToTuple<i> is destroyed *)
              obind (decref (Some a) h) (fun h =>
              obind (add (S i) r h) (fun '(q, h) => Ok ((b, v) :: q, h))))
            | _ => UB
            end)
          end) O ts h) (fun '(q, h) =>
        Ok (match last q (false, None) with (b, _) => b end, Some (VTup (somes (map snd q))), h)))
      else Ok (false, None, h)
    | _ => Ok (false, None, h)
    end)
  | TObj => (* any = obj, pywrapper.cpp:34-38: the variable was empty *)
    obind (incref a h) (fun h => Ok (true, Some (VObj (Some a)), h))
  end.
(** Convert(x, val) for an Object [x] of the caller *)
Definition convert (t : ty) (p : option addr) (h : heap) : outcome (bool * option cval * heap) := byValue (conv t) p h.
End Glue.
