(* The first-order diagrams and the susceptibility of dyson/calculator.py.
   Weights are in the R, T domain, which each function asks for first. *)
Require Import Reals List Arith Bool.
From Coquelicot Require Import Complex.
Require Import Verif.PyWeight.
Import ListNotations.
Local Open Scope R_scope.

(* Weight.Data: spin in, sublattice in, spin out, sublattice out, site and
   time bin; without the bin for DeltaT. *)
Definition arr := nat -> nat -> nat -> nat -> nat -> nat -> C.
Definition arrD := nat -> nat -> nat -> nat -> nat -> C.
Definition zeroArr : arr := fun _ _ _ _ _ _ => RtoC 0.
Definition zeroArrD : arrD := fun _ _ _ _ _ => RtoC 0.

(* Spin2Index, weight.py:80-81 *)
Definition spin2Index (i o : nat) : nat := (i * 2 + o)%nat.

(* for spin1 in range(2): for spin2 in range(2) *)
Definition spinPairs : list (nat * nat) := list_prod (seq 0 2) (seq 0 2).

(* Data[p, :, q, :, :, :] += x: every sublattice, site and bin at once *)
Definition addBlock (d : arr) (p q : nat) (x : nat -> nat -> nat -> nat -> C) : arr :=
  fun a sa b sb r t =>
    if Nat.eqb a p && Nat.eqb b q then Cplus (d a sa b sb r t) (x sa sb r t) else d a sa b sb r t.

(* SigmaSmoothT_FirstOrder, calculator.py:10-25 *)
Definition sigmaFirst (G W : arr) : arr :=
  fold_left (fun d sp =>
    let s1 := fst sp in let s2 := snd sp in
    addBlock d s1 s1 (fun sa sb r t =>
      Cmult (Cmult (RtoC (-1)) (G s2 sa s2 sb r t))
            (W (spin2Index s1 s2) sa (spin2Index s2 s1) sb r t)))
    spinPairs zeroArr.

(* G(tau=-0) up to the sign: 1.5*G[..., -1] - 0.5*G[..., -2].  With a single
   bin Python raises IndexError; here bins >= 2. *)
Definition lastExtrapolated (bins : nat) (g : nat -> C) : C :=
  Cminus (Cmult (RtoC (3/2)) (g (bins - 1)%nat)) (Cmult (RtoC (1/2)) (g (bins - 2)%nat)).

(* SigmaDeltaT_FirstOrder, calculator.py:27-58; first the Fock diagram *)
Definition addBlockD (d : arrD) (p q : nat) (x : nat -> nat -> nat -> C) : arrD :=
  fun a sa b sb r =>
    if Nat.eqb a p && Nat.eqb b q then Cplus (d a sa b sb r) (x sa sb r) else d a sa b sb r.
Definition fockDelta (bins : nat) (G : arr) (W0 : arrD) (d : arrD) : arrD :=
  fold_left (fun d sp =>
    let s1 := fst sp in let s2 := snd sp in
    addBlockD d s1 s1 (fun sa sb r =>
      Cmult (Cmult (RtoC ((-1) * (-1))) (lastExtrapolated bins (G s2 sa s2 sb r)))
            (W0 (spin2Index s1 s2) sa (spin2Index s2 s1) sb r)))
    spinPairs d.

(* one element += x *)
Definition addAtD (d : arrD) (p sp q sq v : nat) (x : C) : arrD :=
  fun a sa b sb r =>
    if Nat.eqb a p && Nat.eqb sa sp && Nat.eqb b q && Nat.eqb sb sq && Nat.eqb r v
    then Cplus (d a sa b sb r) x else d a sa b sb r.

(* then the Hartree diagram, the loops over sp1, sp2, sub1, sub2 and r *)
Definition hartreeDelta (nsub vol bins : nat) (G : arr) (W0 : arrD) (d : arrD) : arrD :=
  fold_left (fun d sp =>
    let s1 := fst sp in let s2 := snd sp in
    fold_left (fun d sub =>
      let b1 := fst sub in let b2 := snd sub in
      fold_left (fun d r =>
        addAtD d s1 b1 s1 b1 0
          (Cmult (Cmult (RtoC ((-1) * (-1) * (-1))) (lastExtrapolated bins (G s2 b2 s2 b2 0%nat)))
                 (W0 (spin2Index s1 s1) b1 (spin2Index s2 s2) b2 r)))
        (seq 0 vol) d)
      (list_prod (seq 0 nsub) (seq 0 nsub)) d)
    spinPairs d.
Definition sigmaDeltaFirst (nsub vol bins : nat) (G : arr) (W0 : arrD) : arrD :=
  hartreeDelta nsub vol bins G W0 (fockDelta bins G W0 zeroArrD).

(* Polar_FirstOrder, calculator.py:60-79; ::-1 reverses the bins *)
Definition addSub (d : arr) (p sp q sq : nat) (x : nat -> nat -> C) : arr :=
  fun a sa b sb r t =>
    if Nat.eqb a p && Nat.eqb sa sp && Nat.eqb b q && Nat.eqb sb sq
    then Cplus (d a sa b sb r t) (x r t) else d a sa b sb r t.
Definition polarFirst (nsub bins : nat) (G : arr) : arr :=
  fold_left (fun d sp =>
    let s1 := fst sp in let s2 := snd sp in
    fold_left (fun d sub =>
      let sA := fst sub in let sB := snd sub in
      addSub d (spin2Index s1 s2) sA (spin2Index s2 s1) sB (fun r t =>
        Cmult (Cmult (RtoC ((-1) * (-1) * (-1))) (G s1 sB s1 sA r (bins - 1 - t)%nat))
              (G s2 sA s2 sB r t)))
      (list_prod (seq 0 nsub) (seq 0 nsub)) d)
    spinPairs zeroArr.

(* Add_ChiTensor_ZerothOrder, calculator.py:161-183.  The unit cell array is
   filled by assignment for all spins and sublattices (the loop over tau
   repeats the assignment), then added at every site and bin. *)
Definition addChiZeroth (bins : nat) (G chi : arr) : arr :=
  fun a sa b sb r t =>
    Cplus (chi a sa b sb r t)
      (Cmult (lastExtrapolated bins (G (a / 2)%nat sa (a mod 2)%nat sa 0%nat))
             (lastExtrapolated bins (G (b / 2)%nat sb (b mod 2)%nat sb 0%nat))).

(* Calculate_Chi, calculator.py:186-209: SzSz/4 contracted with the two spin
   indices of ChiTensor, SxSx and SySy being commented out.  UP is 1, DOWN 0:
   UU is 3, DD is 0. *)
Definition szsz (i k : nat) : R :=
  if (Nat.eqb i 3 && Nat.eqb k 3) || (Nat.eqb i 0 && Nat.eqb k 0) then 1
  else if (Nat.eqb i 3 && Nat.eqb k 0) || (Nat.eqb i 0 && Nat.eqb k 3) then -1
  else 0.
Definition calculateChi (chi : arr) (m n v t : nat) : C :=
  csum 4 (fun i => csum 4 (fun k => Cmult (RtoC (szsz i k / 4)) (chi k m i n v t))).
