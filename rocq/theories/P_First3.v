Require Import Reals ZArith List Arith Bool Lra Lia.
From Coquelicot Require Complex.
Require Import Verif.PyWeight Verif.DysonSpec Verif.FirstOrder Verif.FirstOrderSpec Verif.P_PyIndex
  Verif.P_First Verif.P_First2.
From Verif Require Import Base Num NumR Complex Lattice P_Lattice IndexMap P_IndexMap Weights PyIndex.
Import ListNotations.
Import Coquelicot.Complex.
Local Open Scope R_scope.

Definition zeroTab : Z -> @cplx NumR := fun _ => @mkC NumR (0:R) (0:R).
Definition real' (z : Z) : @cplx NumR := @mkC NumR (IZR z : R) (0 : R).
Definition tabOf (L : lattice) (f : Z -> @cplx NumR) : @tables NumR :=
  @mkTab NumR (@mkIM NumR (1:R) 4 L (-1) 2) (@mkIM NumR (1:R) 4 L 1 4) f zeroTab zeroTab zeroTab zeroTab None None (1:R).
(* what numpy finds in a table *)
Definition arrOf (m : @imap NumR) (f : Z -> @cplx NumR) : arr := fun a sa b sb r t =>
  toC (f (cOffset (pyShape (im_nsp m) (SublatVol (im_lat m)) (Size (im_lat m)) (im_maxtau m))
            [Z.of_nat a; Z.of_nat sa; Z.of_nat b; Z.of_nat sb; Z.of_nat r; Z.of_nat t])).
Lemma arrOf_holds m f : holds m f (arrOf m f).
Proof. unfold holds, arrOf. reflexivity. Qed.

(* a chain with two sites per cell and hopping 1 inside a cell, 2 between cells *)
Definition dimerVal (sa sb r : Z) : Z :=
  match sa, sb, r with
  | 0, 1, 0 => 1 | 0, 1, 2 => 2 | 1, 0, 0 => 1 | 1, 0, 1 => 2 | _, _, _ => 0
  end%Z.
Definition dimerG (i : Z) : @cplx NumR :=
  real' (dimerVal ((i / 48) mod 2) ((i / 12) mod 2) ((i / 4) mod 3)).
Definition dimerT : @tables NumR := tabOf (mkLat [3%Z] 2) dimerG.
Definition dimerA : arr := arrOf (gmap dimerT) dimerG.

Lemma dimer_job : jobTables dimerT.
Proof.
  constructor; try reflexivity; try (cbn; lra);
    constructor; simpl; try lia; try discriminate; repeat constructor; vm_compute; reflexivity.
Qed.
Lemma dimer_holds : holds (gmap dimerT) (g_smooth dimerT) dimerA.
Proof. apply arrOf_holds. Qed.

Lemma dimer_val a sa b sb r t : (a < 2)%nat -> (sa < 2)%nat -> (b < 2)%nat -> (sb < 2)%nat -> (r < 3)%nat -> (t < 4)%nat ->
  dimerA a sa b sb r t = RtoC (IZR (dimerVal (Z.of_nat sa) (Z.of_nat sb) (Z.of_nat r))).
Proof.
  intros Ha Hsa Hb Hsb Hr Ht.
  (destruct a as [|[|a]]; [| |lia]); (destruct sa as [|[|sa]]; [| |lia]);
  (destruct b as [|[|b]]; [| |lia]); (destruct sb as [|[|sb]]; [| |lia]);
  (destruct r as [|[|[|r]]]; [| | |lia]); (destruct t as [|[|[|[|t]]]]; [| | | |lia]); reflexivity.
Qed.

Lemma dimer_rev : reversibleG dimerT dimerA.
Proof.
  intros s a b r r' t Hs Ha Hb Hr Hr' Ht E. cbn in Ha, Hb, Hr, Hr', Ht.
  rewrite !dimer_val by lia.
  (destruct a as [|[|a]]; [| |lia]); (destruct b as [|[|b]]; [| |lia]);
  (destruct r as [|[|[|r]]]; [| | |lia]); (destruct r' as [|[|[|r']]]; [| | |lia]);
  (reflexivity || (cbn in E; discriminate)).
Qed.

Definition siteA := mkSite 0 [0%Z].
Definition siteB := mkSite 1 [2%Z].
Lemma off_grid : forall n, 1/8 - 0 <> IZR n * (im_beta (gmap dimerT) / IZR (im_maxtau (gmap dimerT))).
Proof.
  intros n E. cbn in E. assert (H : IZR (2 * n) = IZR 1) by (rewrite mult_IZR; lra).
  apply eq_IZR in H. lia.
Qed.
Lemma dimer_bin : binOf dimerT 0 (1/8) = 0%nat.
Proof.
  unfold binOf. destruct (tau_bin (gmap dimerT) (jt_pos _ dimer_job) (mo_tau _ (jt_g _ dimer_job))) as [Q _].
  replace (@TauIndex NumR (gmap dimerT) 0 (1/8)) with 0%Z; [reflexivity|]. symmetry.
  apply Q; [cbn; lra|cbn; lra|]. exists 0%Z. cbn. split; [right; split; [lra|reflexivity]|lra].
Qed.

Lemma bubble_refuted : exists T G s1 s2 A B tA tB g g',
  jobTables T /\ holds (gmap T) (g_smooth T) G /\ reversibleG T G /\
  onLattice T A /\ onLattice T B /\ inTime T tA /\ inTime T tB /\
  (forall n, tB - tA <> IZR n * (im_beta (gmap T) / IZR (im_maxtau (gmap T)))) /\
  lineG T s2 A B tA tB = Ok g /\ lineG T s1 B A tB tA = Ok g' /\
  Cmult (toC g') (toC g) = RtoC (-4) /\
  polarFirst (Z.to_nat (SublatVol (im_lat (gmap T)))) (Z.to_nat (im_maxtau (gmap T))) G
    (spin2Index (spinN s1) (spinN s2)) (subN A) (spin2Index (spinN s2) (spinN s1)) (subN B)
    (siteOf T A B) (binOf T tA tB) = RtoC 0.
Proof.
  assert (SA : onLattice dimerT siteA) by (split; cbn; [lia|repeat constructor; lia]).
  assert (SB : onLattice dimerT siteB) by (split; cbn; [lia|repeat constructor; lia]).
  assert (TA : inTime dimerT 0) by (unfold inTime; cbn; lra).
  assert (TB : inTime dimerT (1/8)) by (unfold inTime; cbn; lra).
  destruct (lineG_value dimerT dimerA UP siteA siteB 0 (1/8) dimer_job dimer_holds SA SB TA TB) as (g & E & V).
  destruct (lineG_value dimerT dimerA UP siteB siteA (1/8) 0 dimer_job dimer_holds SB SA TB TA) as (g' & E' & V').
  exists dimerT, dimerA, UP, UP, siteA, siteB, 0, (1/8), g, g'.
  repeat (split; [first [exact dimer_job|exact dimer_holds|exact dimer_rev|exact SA|exact SB|exact TA|exact TB
                        |exact off_grid|exact E|exact E']|]).
  assert (B2 : binOf dimerT (1/8) 0 = 3%nat).
  { rewrite (bin_back dimerT 0 (1/8) dimer_job TA TB off_grid), dimer_bin. reflexivity. }
  assert (S1 : siteOf dimerT siteA siteB = 2%nat) by reflexivity.
  assert (S2 : siteOf dimerT siteB siteA = 1%nat) by reflexivity.
  rewrite dimer_bin, S1 in V. rewrite B2, S2 in V'.
  change (subN siteA) with 0%nat in *. change (subN siteB) with 1%nat in *. cbn [spinN] in *.
  rewrite dimer_val in V by lia. rewrite dimer_val in V' by lia.
  change (Z.of_nat 0) with 0%Z in *. change (Z.of_nat 1) with 1%Z in *. change (Z.of_nat 2) with 2%Z in *.
  cbn [dimerVal] in V, V'.
  split.
  - rewrite V, V'. unfold TauSym. cbn [rltb NumR].
    destruct (Rltb 0 (1/8)) eqn:F; [|apply Rltb_false in F; lra].
    destruct (Rltb (1/8) 0) eqn:F'; [apply Rltb_spec in F'; lra|].
    cbn [im_sym gmap dimerT tabOf]. apply injective_projections; cbn; ring.
  - rewrite dimer_bin, S1.
    change (Z.to_nat (SublatVol (im_lat (gmap dimerT)))) with 2%nat.
    change (Z.to_nat (im_maxtau (gmap dimerT))) with 4%nat.
    rewrite (polar_closed 2 4 dimerA 1 1 0 1 2 0) by lia.
    change (4 - 1 - 0)%nat with 3%nat.
    rewrite (dimer_val 1 1 1 0 2 3), (dimer_val 1 0 1 1 2 0) by lia.
    change (Z.of_nat 0) with 0%Z in *. change (Z.of_nat 1) with 1%Z in *. change (Z.of_nat 2) with 2%Z in *.
    cbn [dimerVal]. apply injective_projections; cbn; ring.
Qed.

(* a local G rising over the four bins: 1, 2, 3, 4 *)
Definition stairG (i : Z) : @cplx NumR := real' (1 + i mod 4).
Definition stairT : @tables NumR := tabOf (mkLat [1%Z] 1) stairG.
Definition stairA : arr := arrOf (gmap stairT) stairG.
Lemma stair_job : jobTables stairT.
Proof.
  constructor; try reflexivity; try (cbn; lra);
    constructor; simpl; try lia; try discriminate; repeat constructor; vm_compute; reflexivity.
Qed.

Lemma equal_refuted : exists T G s A t z,
  jobTables T /\ holds (gmap T) (g_smooth T) G /\ onLattice T A /\ inTime T t /\
  lineG T s A A t t = Ok z /\ toC z = RtoC (-1) /\
  lastExtrapolated (Z.to_nat (im_maxtau (gmap T))) (G (spinN s) (subN A) (spinN s) (subN A) 0%nat) = RtoC (9/2) /\
  forall t', inTime T t' -> t' < t -> t - t' <= 1/4 ->
    exists z', lineG T s A A t t' = Ok z' /\ toC z' = RtoC (-4).
Proof.
  set (A := mkSite 0 [0%Z]).
  assert (SA : onLattice stairT A) by (split; cbn; [lia|repeat constructor; lia]).
  assert (HT : inTime stairT (1/2)) by (unfold inTime; cbn; lra).
  assert (HD : holds (gmap stairT) (g_smooth stairT) stairA) by apply arrOf_holds.
  destruct (equal_law stairT stairA UP A A stair_job HD SA SA (1/2) HT) as [(z & E & V) L].
  exists stairT, stairA, UP, A, (1/2), z.
  split; [exact stair_job|]. split; [exact HD|]. split; [exact SA|]. split; [exact HT|]. split; [exact E|].
  change (spinN UP) with 1%nat in *. change (subN A) with 0%nat in *. change (siteOf stairT A A) with 0%nat in *.
  change (Z.to_nat (im_maxtau (gmap stairT))) with 4%nat in *.
  assert (X : forall n, (n < 4)%nat -> stairA 1%nat 0%nat 1%nat 0%nat 0%nat n = RtoC (IZR (1 + Z.of_nat n))).
  { intros n Hn. destruct n as [|[|[|[|n]]]]; [reflexivity|reflexivity|reflexivity|reflexivity|lia]. }
  split; [|split].
  - rewrite V, X by lia. apply injective_projections; cbn; ring.
  - unfold lastExtrapolated. cbn [Nat.sub]. rewrite !X by lia. apply injective_projections; cbn; field.
  - intros t' Ht' L1 L2. destruct (L t' Ht' L1) as (z' & E' & V').
    { cbn. exact L2. }
    exists z'. split; [exact E'|]. rewrite V'. cbn [Nat.sub]. rewrite X by lia. apply injective_projections; cbn; ring.
Qed.
