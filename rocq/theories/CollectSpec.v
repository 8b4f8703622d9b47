(* What the gathering of statistics is held to, in words that do not mention
   how collect.py works. *)
Require Import Reals List Arith Bool.
From Coquelicot Require Import Complex.
Require Import Verif.Collect.
Import ListNotations.
Local Open Scope R_scope.

(* A histogram read from a file with this Norm and this many orders. *)
Definition alikeStat (norm : R) (orders : nat) (s : stat) : Prop :=
  sNorm s = norm /\ length (sAccu s) = orders.

(* A file that cannot be read, or one whose two histograms have the Norm and
   the number of orders shared by all. *)
Definition regular (ns np : R) (ks kp : nat) (f : option file) : Prop :=
  match f with
  | None => True
  | Some f => exists s p, fSigma f = Some s /\ fPolar f = Some p /\
                          alikeStat ns ks s /\ alikeStat np kp p
  end.

(* The histograms found in the files. *)
Definition sigmas (fs : list (option file)) : list stat :=
  flat_map (fun f => match f with
                     | Some (File (Some s) _) => [s]
                     | _ => []
                     end) fs.
Definition polars (fs : list (option file)) : list stat :=
  flat_map (fun f => match f with
                     | Some (File _ (Some p)) => [p]
                     | _ => []
                     end) fs.

(* The same when a file may lack one histogram or both. *)
Definition keyed (ns np : R) (ks kp : nat) (f : option file) : Prop :=
  match f with
  | None => True
  | Some f => (forall s, fSigma f = Some s -> alikeStat ns ks s) /\
              (forall p, fPolar f = Some p -> alikeStat np kp p)
  end.
Definition complete (f : option file) : bool :=
  match f with Some (File (Some _) (Some _)) => true | _ => false end.

(* How many of the files can be read. *)
Definition readableCount (fs : list (option file)) : nat :=
  length (filter (fun f => match f with Some _ => true | None => false end) fs).

(* The weight that one run estimates: accumulated weight over accumulated
   normalisation, times the known value of the normalisation. *)
Definition estimate (s : stat) (o e t : nat) : C :=
  Cmult (RtoC (sNorm s / sNormAccu s)) (nth o (sAccu s) slabZero e t).

Definition sumR (l : list R) : R := fold_right Rplus 0 l.
Definition sumC (l : list C) : C := fold_right Cplus (RtoC 0) l.

(* The average of the runs' estimates, each counted with its accumulated
   normalisation. *)
Definition pooledAverage (l : list stat) (o e t : nat) : C :=
  Cdiv (sumC (map (fun s => Cmult (RtoC (sNormAccu s)) (estimate s o e t)) l))
       (RtoC (sumR (map sNormAccu l))).

(* The sum over orders 1..n. *)
Definition upTo (n : nat) (w : nat -> C) : C := sumC (map w (seq 0 n)).

Section Noise.
Variable smooth : (nat -> C) -> R * R.
Variables elements bins : nat.

(* Element e of one order carries a signal: some time bin is above 1e-8 and
   its smoothed curve has a positive average. *)
Definition carries (y : slab) (e : nat) : Prop :=
  (e < elements)%nat /\ (exists t, (t < bins)%nat /\ 1e-8 < Cmod (y e t)) /\
  0 < fst (smooth (y e)).

(* The noise of an order: the spread of the data around the smoothed curve,
   for the first of the elements with the largest average. *)
Definition noise (y : slab) (r : R) : Prop :=
  exists e, carries y e /\ r = snd (smooth (y e)) /\
    forall e', carries y e' ->
      fst (smooth (y e')) <= fst (smooth (y e)) /\
      ((e' < e)%nat -> fst (smooth (y e')) < fst (smooth (y e))).

Definition silent (y : slab) : Prop := forall e, ~ carries y e.

(* The noise of the last order, up to and including order o+1, that carries
   a signal. *)
Definition lastNoise (ys : nat -> slab) (o : nat) (r : R) : Prop :=
  exists o', (o' <= o)%nat /\ noise (ys o') r /\
    forall i, (o' < i <= o)%nat -> silent (ys i).
End Noise.

(* Accepted orders (of Sigma, of Polar) that never go down. *)
Fixpoint rising (a : nat * nat) (l : list (nat * nat)) : Prop :=
  match l with
  | [] => True
  | b :: l => (fst a <= fst b /\ snd a <= snd b)%nat /\ rising b l
  end.

