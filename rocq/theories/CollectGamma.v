(** * Collecting the three-point functions, and collecting only.
    /repo/dyson/collect.py 152-222 with runGamma3, /repo/dyson/main.py 250 and 384-393. *)
Require Import Reals List Arith Bool.
From Coquelicot Require Import Complex.
Require Import Verif.Collect.
Import ListNotations.
Local Open Scope R_scope.

(** Dict["GammaGStatis"] or Dict["GammaWStatis"]; the elements of WeightAccu are flattened.
    Simplification: all files have arrays of the same shape. *)
Record gstat := GStat { gNorm : R; gNormAccu : R; gAccu : nat -> C }.

(** 184-192 and 194-203: None before the first file; the flag is false when Assert raises, after the data
    were added *)
Definition mergeG (e : option gstat) (d : gstat) : option gstat * bool :=
  match e with
  | None => (Some d, true)
  | Some s => (Some (GStat (gNorm s) (gNormAccu s + gNormAccu d) (fun i => Cplus (gAccu s i) (gAccu d i))),
               if Req_EM_T (gNorm s) (gNorm d) then true else false)
  end.

(** A file that LoadBigDict reads; None is a missing key *)
Record gfile := GFile { base : file; fGammaG : option gstat; fGammaW : option gstat }.

(** The four accumulations: Sigma, Polar, GammaG, GammaW *)
Record acc := Acc { aMC : option stat * option stat; aG : option gstat; aW : option gstat }.
Definition noAcc : acc := Acc (None, None) None None.

(** One file, 177-208 *)
Definition mergeAll (a : acc) (f : option gfile) : acc * bool :=
  match f with
  | None => (a, false)
  | Some f =>
      let '(mc, ok) := mergeFile (aMC a) (Some (base f)) in
      if ok then
        match fGammaG f with
        | None => (Acc mc (aG a) (aW a), false)
        | Some d =>
            let (g, ok) := mergeG (aG a) d in
            if ok then
              match fGammaW f with
              | None => (Acc mc g (aW a), false)
              | Some d => let (w, ok) := mergeG (aW a) d in (Acc mc g w, ok)
              end
            else (Acc mc g (aW a), false)
        end
      else (Acc mc (aG a) (aW a), false)
  end.
Definition mergeGFiles (fs : list (option gfile)) : acc * nat :=
  fold_left (fun st f => let (a, ok) := mergeAll (fst st) f in (a, if ok then S (snd st) else snd st)) fs (noAcc, O).

(** 213-214, complex64 rounding left out *)
Definition scaled (e : gstat) : nat -> C :=
  fun i => Cmult (gAccu e i) (RtoC (1 / gNormAccu e * gNorm e)).

(** CollectStatis with runGamma3, 171-221: None when CollectStatisFailure is raised.  A NormAccu of 0 divides
    by zero there.  At least one file merged, so that all four are present. *)
Definition collectGamma (fs : list (option gfile)) : option ((option stat * option stat) * (nat -> C) * (nat -> C)) :=
  let (a, n) := mergeGFiles fs in
  if Nat.eqb (length fs) 0 then None
  else if Rlt_dec (INR n / INR (length fs)) (3 / 4) then None
  else match aG a, aW a with Some g, Some w => Some (aMC a, scaled g, scaled w) | _, _ => None end.

(** What CollectStatis returns without runGamma3, 221: a tuple of four *)
Inductive pyValue := Est (e : option stat) | PyNone.
Definition collectTuple (fs : list (option file)) : option (list pyValue) :=
  match collectStatis fs with
  | None => None
  | Some st => Some [Est (fst st); Est (snd st); PyNone; PyNone]
  end.

(** main.py -c, 384-393.  Unpacking a tuple into two names raises ValueError for any other length;
    nothing there catches it.  Simplification: UpdateWeight (387) raises nothing. *)
Inductive outcome := Saved (sigma polar : pyValue) | Failure | ValueError.
Definition collectOnly (fs : list (option file)) : outcome :=
  match collectTuple fs with
  | None => Failure
  | Some [a; b] => Saved a b
  | Some _ => ValueError
  end.
