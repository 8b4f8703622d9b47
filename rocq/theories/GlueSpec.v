(** * What a pointer stands for: values of Python objects, of C++ values, and conversion on values *)
From Coq Require Import ZArith List Bool String.
From Verif Require Import Base Num PyDict Glue.
Import ListNotations.
Open Scope nat_scope.

Section GlueSpec.
Context {N : Num}.
(** the object at an address, if it is there *)
Definition objectAt (h : @heap N) (a : nat) : option body := option_map c_body (cellAt h a).
Definition cnt (a : nat) (l : list nat) : nat := count_occ Nat.eq_dec l a.
(** every object that is there has as many references as holders, at least one, where [ext] are the references
    held from outside the heap; nobody holds an object that was freed *)
Definition WF (h : @heap N) (ext : list nat) : Prop :=
  forall a, match cellAt h a with Some c => c_rc c = cnt a ext + cnt a (refs h) /\ 0 < c_rc c | None => cnt a ext + cnt a (refs h) = 0 end.
(** the holders outside the heap: the Objects, the raw pointers the program owns and the interpreter *)
Definition gext (s : @gstate N) : list nat := somes (g_vars s) ++ g_raw s ++ roots.
Definition GWF (s : @gstate N) : Prop := WF (g_heap s) (gext s).
(** no object holds itself, directly or through others: objects have ranks *)
Definition ranked (h : @heap N) (rk : nat -> nat) : Prop := forall a b k, objectAt h a = Some b -> In k (kids b) -> rk k < rk a.
(** [a] is held by [l] through a chain of at most [n] objects *)
Fixpoint reach (h : @heap N) (l : list nat) (n : nat) (a : nat) : Prop :=
  match n with O => In a l | S n => In a l \/ exists p b, reach h l n p /\ objectAt h p = Some b /\ In a (kids b) end.
(** [den B o a]: the object at [a] has the value [o], where [B] says which object is at an address *)
Fixpoint den (B : nat -> option (@body N)) (o : @py N) (a : nat) : Prop :=
  match o with
  | PNone => B a = Some BNone
  | PBool b => B a = Some (BBool b)
  | PInt z => B a = Some (BInt z)
  | PFloat x => B a = Some (BFloat x)
  | PStr s => B a = Some (BStr s)
  | PList l => exists k, B a = Some (BList (map Some k)) /\
      (fix all (l : list py) (k : list nat) : Prop := match l, k with [], [] => True | o :: l, a :: k => den B o a /\ all l k | _, _ => False end) l k
  | PTup l => exists k, B a = Some (BTup (map Some k)) /\
      (fix all (l : list py) (k : list nat) : Prop := match l, k with [], [] => True | o :: l, a :: k => den B o a /\ all l k | _, _ => False end) l k
  | PDict l => exists k, B a = Some (BDict k) /\
      (fix all (l : list (string * py)) (k : list (nat * nat)) : Prop :=
        match l, k with [], [] => True | (s, o) :: l, (a, b) :: k => B a = Some (BStr s) /\ den B o b /\ all l k | _, _ => False end) l k
  end.
(** values of C++ variables: an AnyObject is worth the Python object it points to *)
Inductive tval : Type :=
| XBool (b : bool) | XInt (z : Z) | XReal (x : @real N) | XStr (s : string)
| XList (l : list tval) | XMap (l : list (string * tval)) | XObj (o : @py N).
Fixpoint rep (B : nat -> option (@body N)) (x : tval) (v : @cval N) : Prop :=
  match x, v with
  | XBool b, VBool b' => b = b'
  | XInt z, VInt z' => z = z'
  | XReal r, VReal r' => r = r'
  | XStr s, VStr s' => s = s'
  | XList l, VList k =>
      (fix all (l : list tval) (k : list cval) : Prop := match l, k with [], [] => True | x :: l, v :: k => rep B x v /\ all l k | _, _ => False end) l k
  | XMap l, VMap k =>
      (fix all (l : list (string * tval)) (k : list (string * cval)) : Prop :=
        match l, k with [], [] => True | (s, x) :: l, (s', v) :: k => s = s' /\ rep B x v /\ all l k | _, _ => False end) l k
  | XObj o, VObj (Some a) => den B o a
  | _, _ => False
  end.
(** the Python value a C++ value turns into *)
Fixpoint tpy (x : tval) : @py N :=
  match x with
  | XBool b => PBool b | XInt z => PInt z | XReal r => PFloat r | XStr s => PStr (cstr s)
  | XList l => PList (map tpy l)
  | XMap l => PDict (map (fun p => (fst p, tpy (snd p))) l)
  | XObj o => o
  end.
(** the C++ value of type [t] a Python value turns into, none if the conversion fails; the first of several
    entries with one key is kept *)
Fixpoint firsts {A} (l : list (string * A)) (acc : list (string * A)) : list (string * A) :=
  match l with [] => acc | (k, x) :: r => firsts r (if existsb (fun p => String.eqb k (fst p)) acc then acc else acc ++ [(k, x)]) end.
Fixpoint tconv (t : ty) (o : @py N) : option tval :=
  match t with
  | TBool => option_map XBool (cvBool o)
  | TInt => option_map XInt (cvInt o)
  | TUInt => option_map XInt (cvUInt o)
  | TLL => option_map XInt (cvLL o)
  | TReal => option_map XReal (cvReal o)
  | TStr => option_map (fun s => XStr (cstr s)) (cvStr o)
  | TList t => option_map XList (cvList (tconv t) o)
  | TMap t => match o with
              | PDict l => option_map (fun q => XMap (firsts (combine (map fst l) q) [])) (cvAll (tconv t) (map snd l))
              | _ => None
              end
  | TTup _ => None
  | TObj => Some (XObj o)
  end.
(** no std::tuple in a type *)
Fixpoint flat (t : ty) : bool := match t with TTup _ => false | TList t | TMap t => flat t | _ => true end.
(** the keys of every map in a value differ *)
Fixpoint keyed (x : tval) : Prop :=
  match x with
  | XList l => (fix all (l : list tval) : Prop := match l with [] => True | x :: r => keyed x /\ all r end) l
  | XMap l => NoDup (map fst l) /\ (fix all (l : list (string * tval)) : Prop := match l with [] => True | (_, x) :: r => keyed x /\ all r end) l
  | _ => True
  end.
(** a value of type [t] that Python can hold: integers in the range of the type, strings without NUL *)
Fixpoint fits (t : ty) (x : tval) : Prop :=
  match t, x with
  | TBool, XBool _ => True
  | TInt, XInt z => (- 2 ^ 31 <= z < 2 ^ 31)%Z
  | TUInt, XInt z => (0 <= z < 2 ^ 32)%Z
  | TLL, XInt z => (- 2 ^ 63 <= z < 2 ^ 63)%Z
  | TReal, XReal _ => True
  | TStr, XStr s => cstr s = s
  | TList t, XList l => (fix all (l : list tval) : Prop := match l with [] => True | x :: r => fits t x /\ all r end) l
  | TMap t, XMap l => (fix all (l : list (string * tval)) : Prop := match l with [] => True | (_, x) :: r => fits t x /\ all r end) l
  | TObj, XObj _ => True
  | _, _ => False
  end.
End GlueSpec.
