(* What the bookkeeping of the self-consistency loop is held to. *)
Require Import Reals List Bool.
From Coquelicot Require Import Complex.
Require Import Verif.PyWeight Verif.PyWeightSpec Verif.SelfCons.
Import ListNotations.
Local Open Scope R_scope.

(* Calls with Merge and RollBack in the time domain `home`, otherwise in any
   order.  The account now has signed entries: every RollBack takes off the
   last merged weight, also when it was taken off before.  `last` is the last
   entry merged. *)
Inductive steady (s : shape) (home k0 w0 : bool)
  : list wop -> bool -> bool -> list entry -> option entry -> Prop :=
| steady_start : steady s home k0 w0 [] k0 w0 [] None
| steady_fft : forall ops k w b last rq,
    steady s home k0 w0 ops k w b last ->
    steady s home k0 w0 (ops ++ [OFFT rq])
         (asked (fst rq) k) (asked (snd rq) w) b last
| steady_merge : forall ops k w b last r new x,
    steady s home k0 w0 ops k w b last ->
    hasTau s = false \/ w = home ->
    standsFor s new x ->
    steady s home k0 w0 (ops ++ [OMerge (Some r) new]) k w ((r, x) :: b)
         (Some (r, x))
| steady_back : forall ops k w b r x,
    steady s home k0 w0 ops k w b (Some (r, x)) ->
    hasTau s = false \/ w = home ->
    steady s home k0 w0 (ops ++ [ORollBack]) k w ((- r, x) :: b) (Some (r, x))
| steady_idle : forall ops k w b,
    steady s home k0 w0 ops k w b None ->
    steady s home k0 w0 (ops ++ [ORollBack]) k w b None.

Definition succeeded (o : version) : bool :=
  match o with VOk _ _ => true | _ => false end.
Definition deltaOf (o : version) : plain :=
  match o with VOk d _ | VCollectFail d | VGFail d | VWFail d _ => d end.
Definition polarOf (o : version) : option plain :=
  match o with VOk _ p | VWFail _ p => Some p | _ => None end.

(* The versions after version v, each with the function its weight stands
   for: the entries of those that succeeded, in front of acc. *)
Fixpoint accepted (v : nat) (acc : list entry) (l : list (version * data))
  : list entry :=
  match l with
  | [] => acc
  | (o, x) :: l =>
      accepted (S v) (if succeeded o then (ratioOf (S v), x) :: acc else acc) l
  end.

(* The account that Polar really keeps when no version fails in W_Dyson: a
   failed version takes off the last success. *)
Fixpoint signed (v : nat) (acc : list entry) (last : option entry)
  (l : list (version * data)) : list entry :=
  match l with
  | [] => acc
  | (o, x) :: l =>
      if succeeded o
      then signed (S v) ((ratioOf (S v), x) :: acc) (Some (ratioOf (S v), x)) l
      else match last with
           | Some (r, y) => signed (S v) ((- r, y) :: acc) last l
           | None => signed (S v) acc None l
           end
  end.

(* No version fails in W_Dyson, and the Polar collected in a version stands
   for the function beside it. *)
Definition noWFail (o : version) : Prop :=
  match o with VWFail _ _ => False | _ => True end.

Definition meant s (ox : version * data) : Prop :=
  noWFail (fst ox) /\
  match polarOf (fst ox) with Some p => standsFor s p (snd ox) | None => True end.
