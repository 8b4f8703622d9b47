(** * The bare Green's functions, the field and the building of a model in Python.
    /repo/dyson/model.py 9-216, 308-328 and /repo/dyson/weight.py 83-84.
    Arithmetic is exact; numpy.exp and cosh are the mathematical functions. *)
Require Import Reals ZArith List Arith Bool.
From Coquelicot Require Complex.
Require Import Verif.PyIndex Verif.FirstOrder Verif.BareModel.
Import ListNotations.
Import Coquelicot.Complex.
Local Open Scope R_scope.

(** np.exp of a complex number *)
Definition cexp (z : C) : C := (exp (fst z) * cos (snd z), exp (fst z) * sin (snd z)).

(** IndexMap.Pauli, weight.py 83-84 *)
Definition Pauli (k : nat) (s t : nat) : C :=
  nth t (nth s (nth k
    [ [[RtoC 0; RtoC 1]; [RtoC (-1); RtoC 0]];
      [[RtoC 0; Ci]; [Copp Ci; RtoC 0]];
      [[RtoC 1; RtoC 0]; [RtoC 0; RtoC (-1)]] ] []) []) (RtoC 0).

(** self.__Mu of the spin models: real if the description names "ImW", else imaginary.
    model.py 308-316 *)
Definition spinMu (imW : bool) (beta : R) : C :=
  if imW then RtoC (PI / 4 / beta) else (0, PI / 2 / beta).

(** Mu of one spin and sublattice, and the Green's function at time tau: 325-326.  [field] is
    DeltaField[sub] + ExternalField[sub]. *)
Definition spinMuField (imW : bool) (beta field : R) (sp : nat) : C :=
  Cplus (spinMu imW beta) (Cmult (RtoC (1/2 * field)) (Pauli 2 sp sp)).

Definition spinG (imW : bool) (beta field : R) (sp : nat) (tau : R) : C :=
  let mu := spinMuField imW beta field sp in
  Cdiv (cexp (Cmult mu (RtoC tau))) (Cplus (RtoC 1) (cexp (Cmult mu (RtoC beta)))).

(** The table: all elements are zero but these (324-326); tau of bin t is (t+0.5)*Beta/MaxTauBin. *)
Definition spinBareG (imW : bool) (beta : R) (bins : nat) (fields : list R) : arr :=
  fun s i s' j r t =>
    if Nat.eqb s s' && Nat.ltb s 2 && Nat.eqb i j && Nat.eqb r 0 then
      spinG imW beta (nth i fields 0) s ((INR t + 1/2) * (beta / INR bins))
    else RtoC 0.

(** __FermiKernel, 203-210 *)
Definition cosh' (x : R) : R := (exp x + exp (- x)) / 2.
Definition FermiKernel (w t beta : R) : R :=
  let x := beta * w / 2 in
  let y := 2 * t / beta - 1 in
  if Rlt_dec 100 x then exp (- x * (y + 1))
  else if Rlt_dec x (-100) then exp (x * (1 - y))
  else exp (- x * y) / (2 * cosh' x).

(** __LocalTerm at the origin, 168-173: energies of the two spins on a sublattice. *)
Definition localTerm (mu field : R) (sp : nat) : R := if Nat.eqb sp 1 then - mu - field else - mu + field.

(** SpinOrbit[i], 121-132; [phase] has three components.  A hopping beyond the list of phases or a
    vanishing phase gives the unit matrix. *)
Definition unit2 (s t : nat) : C := if Nat.eqb s t then RtoC 1 else RtoC 0.
Definition spinOrbit (phase : list R) (i : nat) (s t : nat) : C :=
  let m := sqrt (fold_right Rplus 0 (map (fun x => x * x) phase)) in
  if Nat.ltb i (length phase) then
    if Rlt_dec (1 / 100000000) m then
      Cplus (Cmult (RtoC (cos m)) (unit2 s t))
        (Cmult Ci (Cmult (Cmult (Cplus (Cplus (Cmult (RtoC (nth 0 phase 0)) (Pauli 0 s t))
                                              (Cmult (RtoC (nth 1 phase 0)) (Pauli 1 s t)))
                                       (Cmult (RtoC (nth 2 phase 0)) (Pauli 2 s t))) (RtoC (/ m)))
                        (RtoC (sin m))))
    else unit2 s t
  else unit2 s t.

(** The statements that fill __KineticTerm, 134-162, on the two lattices known there.  Reading
    [self.__Hopping[1]] fails if there is only one hopping ([None]): the list that was filled up
    with zeros (117) is not the one read. *)
Definition kineticWrites (n : latName) (L : list Z) (hopping phase : list R) : option (list write) :=
  match n, nth_error hopping 0, nth_error hopping 1 with
  | Square, Some t0, Some t1 =>
      Some (map (fun e => mkWrite 0 0 e (- t0) (spinOrbit phase 0)) (nearest Square L 0 0) ++
            map (fun e => mkWrite 0 0 e (- t1) (spinOrbit phase 1)) (nextNearestTable Square L 0 0))
  | Honeycomb, Some t0, Some t1 =>
      Some (flat_map (fun i => flat_map (fun j =>
        map (fun e => mkWrite i j e (- t0) (spinOrbit phase 0)) (nearest Honeycomb L i j) ++
        map (fun e => mkWrite i j e (- t1) (spinOrbit phase 1)) (nextNearestTable Honeycomb L i j))
        (seq 0 2)) (seq 0 2))
  | _, _, _ => None
  end.

Definition kinetic (n : latName) (L : list Z) (hopping phase : list R) : option arrD :=
  match kineticWrites n L hopping phase with
  | Some ws => match doWrites L ws (fun _ _ _ _ _ => RtoC 0) with (true, D) => Some D | _ => None end
  | None => None
  end.

(** __BuildHubbardInteraction, 212-216, on sublattices below nsub *)
Definition hubbardW (nsub : nat) (U : R) (D : arrD) : arrD :=
  fun a i b j r =>
    if Nat.eqb i j && Nat.ltb i nsub && (Nat.eqb a 0 && Nat.eqb b 1 || Nat.eqb a 1 && Nat.eqb b 0)
    then Cplus (D a i b j r) (RtoC U) else D a i b j r.

(** The entries of Hamiltonian that may be missing (20-31). *)
Record hamiltonian := mkHam {
  h_hopping : option (list R); h_phase : option (list R); h_mu : option (list R); h_U : option R }.

(** Hubbard and Build, 55-67, 90-92: whatever fails is caught, and the weights are returned as they
    are then, at first all zero.  [solve] stands for the rest of __BuildBareG (164-199). *)
Definition buildHubbard (solve : arrD -> list R -> arr) (n : latName) (L : list Z) (h : hamiltonian) : arr * arrD :=
  let zeroG : arr := fun _ _ _ _ _ _ => RtoC 0 in
  let zeroW : arrD := fun _ _ _ _ _ => RtoC 0 in
  match h_hopping h, h_mu h, h_phase h with
  | Some hop, Some mu, Some ph =>
      match kinetic n L hop ph with
      | Some T =>
          (solve T mu, match h_U h with Some U => hubbardW (NSublat n) U zeroW | None => zeroW end)
      | None => (zeroG, zeroW)
      end
  | _, _, _ => (zeroG, zeroW)
  end.

(** The field during annealing: self.__DeltaField (Anneal["DeltaField"] goes along) and
    Anneal["Interval"]. *)
Record anneal := mkAnneal { delta : list R; interval : list R }.

Definition zipR (f : R -> R -> R) (u v : list R) : list R := map (fun p => f (fst p) (snd p)) (combine u v).

(** DecreaseField, 69-78 *)
Definition DecreaseField (a : anneal) : bool * anneal :=
  if Rlt_dec (1 / 100000) (Rabs (nth 0 (delta a) 0)) then
    (true, mkAnneal (zipR Rplus (delta a) (interval a)) (interval a))
  else (false, a).

(** RevertField, 80-85 *)
Definition RevertField (a : anneal) : anneal :=
  let half := map (fun x => x / 2) (interval a) in
  mkAnneal (zipR Rminus (delta a) half) half.

(** One version of the self-consistency: success or DenorminatorTouchZero, main.py 295-297, 326. *)
Inductive outcome := Success | TouchZero.
Definition version (a : anneal) (o : outcome) : anneal :=
  match o with Success => snd (DecreaseField a) | TouchZero => RevertField a end.
