(* The indices of dyson/weight.py: the class IndexMap and the position of an
   element in the memory of Weight.Data.  Integers are unbounded as in Python;
   / between two ints is Python 2's floor division. *)
Require Import Reals ZArith List.
Import ListNotations.
Local Open Scope Z_scope.

(* CoordiIndex, weight.py:52-57.  An empty L or Out, an IndexError in Python,
   gives 0 here. *)
Definition pyCoordiIndex (L out : list Z) : Z :=
  fold_left (fun index lo => index * fst lo + snd lo) (combine (tl L) (tl out)) (hd 0 out).

(* IndexToCoordi, weight.py:58-65: the loop from the last dimension down to 1,
   over the reversed L; what is left becomes Out[0] *)
Fixpoint pyToCoordiRev (rL : list Z) (index : Z) : list Z :=
  match rL with
  | [] => []
  | [_] => [index]
  | l :: rL => index mod l :: pyToCoordiRev rL (index / l)
  end.
Definition pyIndexToCoordi (L : list Z) (index : Z) : list Z := rev (pyToCoordiRev (rev L) index).

(* Spin2Index, weight.py:80-81; SPIN is 2, DOWN 0, UP 1 *)
Definition pySpin2Index (spinIn spinOut : Z) : Z := spinIn * 2 + spinOut.

(* TauIndex, weight.py:38-41, over the reals; math.floor gives a float with an
   integral value in Python 2 *)
Definition pyTauIndex (beta : R) (bins : Z) (tin tout : R) : Z :=
  let tau := (tout - tin)%R in
  let index := Int_part (tau * (1 / (beta / IZR bins)))%R in
  if Rle_dec 0 tau then index else index + bins.

(* IndexToTau, weight.py:43-44 *)
Definition pyIndexToTau (beta : R) (bins index : Z) : R :=
  ((IZR index + 1 / 2) * (beta / IZR bins))%R.

(* self.Shape, weight.py:143-149: SPIN, SUBLAT, SPIN, SUBLAT, VOL and TAU;
   self.Vol, weight.py:26-28 *)
Definition pyVol (L : list Z) : Z := fold_left Z.mul L 1.
Definition pyShape (nspin nsublat : Z) (L : list Z) (bins : Z) : list Z :=
  [nspin; nsublat; nspin; nsublat; pyVol L; bins].
Definition pyShapeDelta (nspin nsublat : Z) (L : list Z) : list Z :=
  [nspin; nsublat; nspin; nsublat; pyVol L].

(* Where numpy keeps element idx of a C-contiguous array, counted in elements:
   the last index runs fastest *)
Fixpoint cOffset (shape idx : list Z) : Z :=
  match shape, idx with
  | _ :: shape, i :: idx => i * fold_right Z.mul 1 shape + cOffset shape idx
  | _, _ => 0
  end.
