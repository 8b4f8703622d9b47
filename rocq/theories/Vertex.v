(** * The steps that build the three-point functions in Python on one sublattice.
    /repo/dyson/gamma3_calc.py 12-190, 410-447, and their use in /repo/dyson/main.py 170-246. *)
Require Import Reals List Arith Bool ZArith.
From Coquelicot Require Import Complex.
Require Import Verif.PyWeight.
Local Open Scope C_scope.
Local Open Scope nat_scope.

(** [G s t] is G.Data[s,0,s,0,0,t]; [v s r t1 t2] is GGGammaG[s,r,t1,t2]; [w s r1 r2 t1 t2] is
    GammaW[s,r1,r2,t1,t2].  UP is 1 and DOWN is 0 (weight.py 14). *)
Definition line := nat -> nat -> C.
Definition vertex := nat -> nat -> nat -> nat -> C.
Definition vertexW := nat -> nat -> nat -> nat -> nat -> C.
Definition UP : nat := 1.
Definition DOWN : nat := 0.

(** "if tg<0: tg+=MaxTauBin; sign=-sign" *)
Definition folded (N : nat) (g : nat -> C) (k : Z) : C :=
  if (k <? 0)%Z then Copp (g (Z.to_nat (k + Z.of_nat N))) else g (Z.to_nat k).

(** SimpleGG, 12-32: spin UP and site 0 only *)
Definition simpleGG (N : nat) (G : line) : vertex :=
  fun s r t1 t2 =>
    if (s =? UP) && (r =? 0) then Cmult (G UP t1) (folded N (G UP) (- Z.of_nat t2 - 1)) else RtoC 0.

(** Wshift, 43-48 *)
Definition wshift (N : nat) (W : nat -> C) (t : nat) : C :=
  Cmult (RtoC (1 / 2)) (Cplus (W (if t =? 0 then N - 1 else t - 1)) (W t)).

(** AddW_To_GGGammaG, 34-61.  [W a b] is W.Data[a,0,b,0,0,:] for the pairs of spins below. *)
Inductive pair := UU | DD | UD | DU.
Definition addW (N : nat) (v : vertex) (W : pair -> pair -> nat -> C) : vertex :=
  fun s r t1 t2 =>
    let dt := if t1 <? t2 then t1 + N - t2 else t1 - t2 in
    Cmult (if s =? UP then
        Cplus (Cmult (v UP r t1 t2) (wshift N (W UU UU) dt)) (Cmult (v DOWN r t1 t2) (wshift N (W UD DU) dt))
      else
        Cplus (Cmult (v UP r t1 t2) (wshift N (W DU UD) dt)) (Cmult (v DOWN r t1 t2) (wshift N (W DD DD) dt)))
      (RtoC (-1)).

(** The mean of two neighbouring bins, 75-86, 93-104, 119-131 and others *)
Definition halfG (N : nat) (g : nat -> C) (d : Z) : C :=
  Cplus (Cmult (RtoC (1 / 2)) (folded N g (d - 1))) (Cmult (RtoC (1 / 2)) (folded N g d)).

(** AddTwoG_To_GammaG, 63-106 *)
Definition addTwoG (N : nat) (beta : R) (v : vertex) (G : line) : vertex :=
  let GG : vertex := fun s r t tin =>
    csum N (fun tout => Cmult (halfG N (G s) (Z.of_nat t - Z.of_nat tout)) (v s r tout tin)) in
  fun s r t' t =>
    Cmult (csum N (fun tin => Cmult (halfG N (G s) (Z.of_nat tin - Z.of_nat t)) (GG s r t' tin)))
          (RtoC (beta * beta / (INR N * INR N))).

(** AddG_To_GGGammaG, 108-193: first index 0 is UPUP+DOWNDOWN, 1 is in DOWNUP out UPDOWN; complex64
    rounding left out *)
Definition addG (N : nat) (v : vertex) (G : line) : vertexW :=
  fun s r1 r2 tout tin =>
    let d := (Z.of_nat tin - Z.of_nat tout)%Z in
    let g := fun sp => halfG N (G sp) d in
    let h := fun sp => halfG N (G sp) (- d) in
    let loc :=
      if s =? 0 then
        Cplus (Cplus (Cmult (g UP) (v UP r1 tout tin)) (Cmult (g DOWN) (v DOWN r1 tout tin)))
              (Cplus (Cmult (h UP) (v UP r1 tin tout)) (Cmult (h DOWN) (v DOWN r1 tin tout)))
      else
        Cplus (Cmult (g DOWN) (v UP r1 tout tin)) (Cmult (h UP) (v DOWN r1 tin tout)) in
    Cmult (RtoC (-1)) (if r1 =? r2 then loc else RtoC 0).

(** AddG_To_WWGammaW, 410-447 *)
Definition addGW (N : nat) (w : vertexW) (G : line) : vertex :=
  fun s r tout tin =>
    let g := fun sp => halfG N (G sp) (Z.of_nat tout - Z.of_nat tin) in
    if s =? UP then
      Cplus (Cmult (g UP) (w 0 r r tout tin)) (Cmult (g DOWN) (w 1 r r tout tin))
    else
      Cplus (Cmult (g DOWN) (Copp (Cconj (w 0 r r tout tin)))) (Cmult (g UP) (Copp (Cconj (w 1 r r tout tin)))).

(** One pass of the loop in main.py 218-246 with MaxTauBin = MaxTauBinTiny.  [WW] stands for
    AddTwoW_To_GammaW, which goes through Fourier transforms. *)
Definition pass (N : nat) (beta : R) (G : line) (W : pair -> pair -> nat -> C) (WW : vertexW -> vertexW) (v : vertex) : vertex :=
  fun s r t1 t2 =>
    Cminus (Cplus (simpleGG N G s r t1 t2) (addTwoG N beta (addW N v W) G s r t1 t2))
           (addTwoG N beta (addGW N (WW (addG N v G)) G) G s r t1 t2).
