Require Import Reals ZArith List Arith Bool Lra Lia.
From Coquelicot Require Complex.
Require Import Verif.PyWeight Verif.DysonSpec Verif.FirstOrder Verif.FirstOrderSpec Verif.P_PyIndex Verif.P_First.
From Verif Require Import Base Num NumR Complex Lattice P_Lattice IndexMap P_IndexMap Weights PyIndex.
Import ListNotations.
Import Coquelicot.Complex.
Local Open Scope R_scope.

(* ---- sums over lists ---- *)
Definition lsum {A} (f : A -> C) (l : list A) : C := fold_right (fun e s => Cplus (f e) s) (RtoC 0) l.

Lemma lsum_app {A} (f : A -> C) l m : lsum f (l ++ m) = Cplus (lsum f l) (lsum f m).
Proof.
  induction l as [|x l IH]; [cbn; now rewrite Cplus_0_l|]. cbn [app lsum fold_right].
  fold (lsum f (l ++ m)). rewrite IH. fold (lsum f l). ring.
Qed.
Lemma lsum_ext {A} (f g : A -> C) l : (forall x, In x l -> f x = g x) -> lsum f l = lsum g l.
Proof.
  induction l as [|x l IH]; intros H; [reflexivity|]. cbn [lsum fold_right].
  fold (lsum f l). fold (lsum g l). rewrite IH by (intros; apply H; now right). rewrite H by now left. reflexivity.
Qed.
Lemma lsum_map {A B} (h : A -> B) (f : B -> C) l : lsum f (map h l) = lsum (fun x => f (h x)) l.
Proof. induction l as [|x l IH]; [reflexivity|]. cbn. unfold lsum in IH. now rewrite IH. Qed.
Lemma lsum_prod {A B} (f : A * B -> C) l m :
  lsum f (list_prod l m) = lsum (fun a => lsum (fun b => f (a, b)) m) l.
Proof.
  induction l as [|x l IH]; [reflexivity|]. cbn [list_prod]. rewrite lsum_app, lsum_map, IH. reflexivity.
Qed.
Lemma lsum_seq f n : lsum f (seq 0 n) = csum n f.
Proof.
  induction n as [|n IH]; [reflexivity|]. rewrite seq_S, lsum_app, IH. cbn. now rewrite Cplus_0_r.
Qed.
Lemma lsum_zero {A} (l : list A) : lsum (fun _ => RtoC 0) l = RtoC 0.
Proof. induction l as [|x l IH]; [reflexivity|]. cbn. unfold lsum in IH. rewrite IH. apply Cplus_0_l. Qed.
Lemma lsum_pick {A} (l : list A) (f : A -> C) p (dec : A -> bool) : NoDup l -> In p l ->
  (forall x, dec x = true <-> x = p) -> lsum (fun x => if dec x then f x else RtoC 0) l = f p.
Proof.
  intros N I D. induction N as [|x l H N IH]; [destruct I|]. cbn [lsum fold_right].
  fold (lsum (fun x => if dec x then f x else RtoC 0) l). destruct I as [->|I].
  - rewrite (proj2 (D p) eq_refl). rewrite (lsum_ext _ (fun _ => RtoC 0)).
    + rewrite lsum_zero. apply Cplus_0_r.
    + intros y Hy. destruct (dec y) eqn:E; [|reflexivity]. apply D in E. now subst.
  - destruct (dec x) eqn:E; [apply D in E; now subst|]. rewrite IH by assumption. apply Cplus_0_l.
Qed.

Lemma foldAdd {A D} (F : D -> A -> D) (pt : D -> C) (g : A -> C) l :
  (forall d e, In e l -> pt (F d e) = Cplus (pt d) (g e)) ->
  forall d, pt (fold_left F l d) = Cplus (pt d) (lsum g l).
Proof.
  induction l as [|x l IH]; intros H d; [cbn; now rewrite Cplus_0_r|].
  cbn [fold_left lsum fold_right]. rewrite IH by (intros; apply H; now right). fold (lsum g l).
  rewrite H by now left. ring.
Qed.

(* ---- Hartree and Fock ---- *)
Lemma extrapolated bins g p q beta : (2 <= bins)%nat -> 
  (forall t, t = (bins - 1)%nat \/ t = (bins - 2)%nat ->
     g t = Cplus p (Cmult q (RtoC ((INR t + 1/2) * (beta / INR bins))))) ->
  lastExtrapolated bins g = Cplus p (Cmult q (RtoC beta)).
Proof.
  intros H E. unfold lastExtrapolated. rewrite !E by auto.
  rewrite !minus_INR by lia. cbn [INR].
  assert (NZ : INR bins <> 0) by (apply not_0_INR; lia).
  assert (X : (3/2) * ((INR bins - 1 + 1/2) * (beta / INR bins)) - (1/2) * ((INR bins - (1 + 1) + 1/2) * (beta / INR bins)) = beta)
    by (field; exact NZ).
  rewrite <- X at 3.
  apply injective_projections; cbn; field; exact NZ.
Qed.

Definition fockSum (bins : nat) (G : arr) (W0 : arrD) (s sa sb r : nat) : C :=
  csum 2 (fun s2 => Cmult (lastExtrapolated bins (G s2 sa s2 sb r)) (W0 (spin2Index s s2) sa (spin2Index s2 s) sb r)).
Definition hartreeSum (nsub vol bins : nat) (G : arr) (W0 : arrD) (s sa : nat) : C :=
  csum 2 (fun s2 => csum nsub (fun b2 => csum vol (fun r =>
    Cmult (lastExtrapolated bins (G s2 b2 s2 b2 0%nat)) (W0 (spin2Index s s) sa (spin2Index s2 s2) b2 r)))).

Lemma fock_closed bins G W0 s sa sb r : (s < 2)%nat ->
  fockDelta bins G W0 zeroArrD s sa s sb r = fockSum bins G W0 s sa sb r.
Proof.
  intros H. unfold fockDelta, spinPairs, fockSum.
  destruct s as [|[|s]]; [| |lia]; cbn [seq list_prod map app fold_left fst snd csum];
    unfold addBlockD; cbn [Nat.eqb andb]; unfold zeroArrD;
    apply injective_projections; cbn; ring.
Qed.

Lemma csum_opp n f : csum n (fun x => Copp (f x)) = Copp (csum n f).
Proof. induction n as [|n IH]; cbn; [apply injective_projections; cbn; ring|]. rewrite IH. ring. Qed.
Lemma csum_ext' n f g : (forall x, (x < n)%nat -> f x = g x) -> csum n f = csum n g.
Proof. induction n as [|n IH]; intros H; cbn; [reflexivity|]. rewrite IH, H by auto. reflexivity. Qed.

Lemma zz {A} n (m : list A) : csum n (fun _ => lsum (fun _ => RtoC 0) m) = RtoC 0.
Proof. induction n as [|n IH]; cbn [csum]; [reflexivity|]. rewrite IH, lsum_zero. apply Cplus_0_l. Qed.

Lemma hartree_closed nsub vol bins G W0 d s sa sb r : (s < 2)%nat -> (sa < nsub)%nat ->
  hartreeDelta nsub vol bins G W0 d s sa s sb r
  = if Nat.eqb sa sb && Nat.eqb r 0 then Cminus (d s sa s sb r) (hartreeSum nsub vol bins G W0 s sa)
    else d s sa s sb r.
Proof.
  intros Hs Ha.
  set (pt := fun d : arrD => d s sa s sb r).
  set (val := fun s1 s2 b1 b2 r => Cmult (Cmult (RtoC ((-1) * (-1) * (-1))) (lastExtrapolated bins (G s2 b2 s2 b2 0%nat)))
                 (W0 (spin2Index s1 s1) b1 (spin2Index s2 s2) b2 r)).
  set (g3 := fun s1 s2 b1 b2 r' => if Nat.eqb s s1 && Nat.eqb sa b1 && Nat.eqb s s1 && Nat.eqb sb b1 && Nat.eqb r 0
        then val s1 s2 b1 b2 r' else RtoC 0).
  assert (E3 : forall s1 s2 b1 b2 d, pt (fold_left (fun d r => addAtD d s1 b1 s1 b1 0 (val s1 s2 b1 b2 r)) (seq 0 vol) d)
     = Cplus (pt d) (lsum (g3 s1 s2 b1 b2) (seq 0 vol))).
  { intros. apply (foldAdd (fun d r => addAtD d s1 b1 s1 b1 0 (val s1 s2 b1 b2 r)) pt (g3 s1 s2 b1 b2)).
    intros d1 e _. unfold pt, g3, addAtD. destruct (_ && _)%bool; [reflexivity|]. now rewrite Cplus_0_r. }
  set (g2 := fun s1 s2 (b : nat * nat) => lsum (g3 s1 s2 (fst b) (snd b)) (seq 0 vol)).
  set (L := list_prod (seq 0 nsub) (seq 0 nsub)).
  assert (E2 : forall s1 s2 d, pt (fold_left (fun d sub => fold_left (fun d r =>
       addAtD d s1 (fst sub) s1 (fst sub) 0 (val s1 s2 (fst sub) (snd sub) r)) (seq 0 vol) d) L d)
     = Cplus (pt d) (lsum (g2 s1 s2) L)).
  { intros. apply (foldAdd (fun d sub => fold_left (fun d r =>
       addAtD d s1 (fst sub) s1 (fst sub) 0 (val s1 s2 (fst sub) (snd sub) r)) (seq 0 vol) d) pt (g2 s1 s2)).
    intros d1 e _. apply E3. }
  set (g1 := fun sp : nat * nat => lsum (g2 (fst sp) (snd sp)) L).
  assert (E1 : pt (hartreeDelta nsub vol bins G W0 d) = Cplus (pt d) (lsum g1 spinPairs)).
  { unfold hartreeDelta.
    apply (foldAdd (fun d sp => fold_left (fun d sub => fold_left (fun d r =>
       addAtD d (fst sp) (fst sub) (fst sp) (fst sub) 0 (val (fst sp) (snd sp) (fst sub) (snd sub) r)) (seq 0 vol) d) L d) pt g1).
    intros d1 e _. apply E2. }
  unfold pt in E1. rewrite E1. clear E1 E2 E3.
  unfold g1, spinPairs. rewrite lsum_prod, lsum_seq.
  assert (K : forall s1 s2, lsum (g2 s1 s2) L
     = if Nat.eqb s s1 && Nat.eqb sa sb && Nat.eqb r 0
       then csum nsub (fun b2 => csum vol (fun r' => val s s2 sa b2 r')) else RtoC 0).
  { intros s1 s2. unfold L. rewrite lsum_prod. unfold g2. cbn [fst snd].
    rewrite (lsum_ext _ (fun b1 => if Nat.eqb b1 sa then
       (if Nat.eqb s s1 && Nat.eqb sb b1 && Nat.eqb r 0 then csum nsub (fun b2 => csum vol (fun r' => val s1 s2 b1 b2 r')) else RtoC 0)
       else RtoC 0)).
    - rewrite lsum_pick with (p := sa); [|apply seq_NoDup|apply in_seq; lia|intros x; apply Nat.eqb_eq].
      rewrite (Nat.eqb_sym sb sa). destruct (Nat.eqb_spec s s1); [|reflexivity]. subst s1. reflexivity.
    - intros b1 _. unfold g3. rewrite (Nat.eqb_sym b1 sa).
      rewrite lsum_seq. destruct (Nat.eqb sa b1); cbn [andb]; cycle 1.
      { rewrite andb_false_r; cbn [andb]. apply zz. }
      rewrite andb_true_r. destruct (Nat.eqb s s1); cbn [andb]; cycle 1.
      { apply zz. }
      destruct (Nat.eqb sb b1); cbn [andb]; cycle 1.
      { apply zz. }
      destruct (Nat.eqb r 0); cycle 1.
      { apply zz. }
      apply csum_ext'. intros. now rewrite lsum_seq. }
  rewrite (csum_ext' 2 _ (fun s1 => csum 2 (fun s2 => lsum (g2 s1 s2) L))) by (intros; now rewrite lsum_seq).
  assert (V : csum 2 (fun s1 => csum 2 (fun s2 => lsum (g2 s1 s2) L))
     = if Nat.eqb sa sb && Nat.eqb r 0 then Copp (hartreeSum nsub vol bins G W0 s sa) else RtoC 0).
  { rewrite (csum_ext' 2 _ (fun s1 => csum 2 (fun s2 => if Nat.eqb s s1 && Nat.eqb sa sb && Nat.eqb r 0
       then csum nsub (fun b2 => csum vol (fun r' => val s s2 sa b2 r')) else RtoC 0)))
      by (intros; apply csum_ext'; intros; apply K).
    assert (VV : forall s2, csum nsub (fun b2 => csum vol (fun r' => val s s2 sa b2 r'))
       = Copp (csum nsub (fun b2 => csum vol (fun r' =>
           Cmult (lastExtrapolated bins (G s2 b2 s2 b2 0%nat)) (W0 (spin2Index s s) sa (spin2Index s2 s2) b2 r'))))).
    { intros s2. rewrite <- csum_opp. apply csum_ext'. intros b2 _. rewrite <- csum_opp. apply csum_ext'. intros r' _.
      unfold val. apply injective_projections; cbn; ring. }
    unfold hartreeSum. rewrite <- csum_opp.
    destruct (Nat.eqb sa sb && Nat.eqb r 0)%bool eqn:Z.
    - destruct s as [|[|s]]; [| |lia]; cbn [csum Nat.eqb andb]; rewrite Z, !VV; ring.
    - destruct s as [|[|s]]; [| |lia]; cbn [csum Nat.eqb andb]; rewrite Z; ring. }
  rewrite V. destruct (Nat.eqb sa sb && Nat.eqb r 0)%bool; [reflexivity|apply Cplus_0_r].
Qed.

Lemma hf_law nsub vol bins beta (G : arr) (W0 : arrD) (g : nat -> nat -> nat -> nat -> C) :
  (2 <= bins)%nat ->
  (forall s a b r, exists p q, g s a b r = Cplus p (Cmult q (RtoC beta)) /\
     forall t, t = (bins - 1)%nat \/ t = (bins - 2)%nat ->
     G s a s b r t = Cplus p (Cmult q (RtoC ((INR t + 1/2) * (beta / INR bins))))) ->
  forall s a b r, (s < 2)%nat -> (a < nsub)%nat ->
  sigmaDeltaFirst nsub vol bins G W0 s a s b r
  = Cminus
      (csum 2 (fun s2 => Cmult (g s2 a b r) (W0 (s * 2 + s2)%nat a (s2 * 2 + s)%nat b r)))
      (if Nat.eqb a b && Nat.eqb r 0 then
         csum 2 (fun s2 => csum nsub (fun c => csum vol (fun r' =>
           Cmult (g s2 c c 0%nat) (W0 (s * 2 + s)%nat a (s2 * 2 + s2)%nat c r'))))
       else RtoC 0).
Proof.
  intros HB HG s a b r Hs Ha.
  assert (X : forall s a b r, lastExtrapolated bins (G s a s b r) = g s a b r).
  { intros s' a' b' r'. destruct (HG s' a' b' r') as (p & q & -> & E).
    now apply extrapolated. }
  unfold sigmaDeltaFirst. rewrite hartree_closed by assumption. rewrite fock_closed by assumption.
  assert (EF : fockSum bins G W0 s a b r
    = csum 2 (fun s2 => Cmult (g s2 a b r) (W0 (s * 2 + s2)%nat a (s2 * 2 + s)%nat b r))).
  { apply csum_ext'. intros. rewrite X. reflexivity. }
  assert (EH : hartreeSum nsub vol bins G W0 s a
    = csum 2 (fun s2 => csum nsub (fun c => csum vol (fun r' =>
           Cmult (g s2 c c 0%nat) (W0 (s * 2 + s)%nat a (s2 * 2 + s2)%nat c r'))))).
  { apply csum_ext'. intros. apply csum_ext'. intros. apply csum_ext'. intros. rewrite X. reflexivity. }
  rewrite EF, EH. destruct (Nat.eqb a b && Nat.eqb r 0)%bool; [reflexivity|].
  apply injective_projections; cbn; ring.
Qed.

(* ---- equal times ---- *)
Lemma equal_law T G s A B : jobTables T -> holds (gmap T) (g_smooth T) G ->
  onLattice T A -> onLattice T B -> forall t, inTime T t ->
  (exists z, lineG T s A B t t = Ok z /\
     toC z = Copp (G (spinN s) (subN A) (spinN s) (subN B) (siteOf T A B) 0%nat)) /\
  forall t', inTime T t' -> t' < t -> t - t' <= im_beta (gmap T) / IZR (im_maxtau (gmap T)) ->
   exists z, lineG T s A B t t' = Ok z /\
     toC z = Copp (G (spinN s) (subN A) (spinN s) (subN B) (siteOf T A B) (Z.to_nat (im_maxtau (gmap T)) - 1)%nat).
Proof.
  intros J HG SA SB t Ht.
  destruct (tau_bin (gmap T) (jt_pos T J) (mo_tau _ (jt_g T J))) as [Q _].
  pose proof (mo_tau _ (jt_g T J)) as MP0. pose proof MP0 as MP. apply IZR_lt in MP.
  pose proof (jt_pos T J) as BP.
  set (M := IZR (im_maxtau (gmap T))) in *. set (Bt := im_beta (gmap T) : R) in *.
  assert (MB : M * (Bt / M) = Bt) by (field; lra).
  assert (HP : 0 < Bt / M) by (apply Rdiv_lt_0_compat; assumption).
  set (h := Bt / M) in *.
  split.
  - destruct (lineG_value T G s A B t t) as (z & E & V); auto.
    exists z. split; [exact E|]. rewrite V.
    assert (EB : binOf T t t = 0%nat).
    { unfold binOf. replace (@TauIndex NumR (gmap T) t t) with 0%Z; [reflexivity|]. symmetry.
      apply (Q t t Ht Ht). exists 0%Z. fold M. fold Bt. fold h. split; [right; split; [lra|reflexivity]|].
      cbn [Z.add]. lra. }
    rewrite EB. unfold TauSym. rewrite (jt_sym T J). cbn [rltb NumR].
    destruct (Rltb t t) eqn:F; [apply Rltb_spec in F; lra|].
    apply injective_projections; cbn; ring.
  - intros t' Ht' L1 L2.
    destruct (lineG_value T G s A B t t') as (z & E & V); auto.
    exists z. split; [exact E|]. rewrite V.
    assert (EB : binOf T t t' = (Z.to_nat (im_maxtau (gmap T)) - 1)%nat).
    { unfold binOf. replace (@TauIndex NumR (gmap T) t t') with (im_maxtau (gmap T) - 1)%Z; [lia|]. symmetry.
      apply (Q t t' Ht Ht'). exists 1%Z. fold M. fold Bt. fold h. split; [left; split; [lra|reflexivity]|].
      rewrite plus_IZR, minus_IZR. fold M. lra. }
    rewrite EB. unfold TauSym. rewrite (jt_sym T J). cbn [rltb NumR].
    destruct (Rltb t t') eqn:F; [apply Rltb_spec in F; lra|].
    apply injective_projections; cbn; ring.
Qed.

(* ---- Chi ---- *)
Lemma chi_law chi m n v t :
  calculateChi chi m n v t
  = Cmult (RtoC (1/4))
      (Cminus (Cplus (chi 3%nat m 3%nat n v t) (chi 0%nat m 0%nat n v t))
              (Cplus (chi 3%nat m 0%nat n v t) (chi 0%nat m 3%nat n v t))).
Proof.
  unfold calculateChi. cbn [csum]. unfold szsz. cbn [Nat.eqb andb orb].
  apply injective_projections; cbn; field.
Qed.
Lemma chi_zeroth bins G chi m n v t :
  calculateChi (addChiZeroth bins G chi) m n v t
  = Cplus (calculateChi chi m n v t)
      (Cmult (Cmult (RtoC (1/2)) (Cminus (lastExtrapolated bins (G 1%nat m 1%nat m 0%nat))
                                         (lastExtrapolated bins (G 0%nat m 0%nat m 0%nat))))
             (Cmult (RtoC (1/2)) (Cminus (lastExtrapolated bins (G 1%nat n 1%nat n 0%nat))
                                         (lastExtrapolated bins (G 0%nat n 0%nat n 0%nat))))).
Proof.
  rewrite !chi_law. unfold addChiZeroth.
  change (3 / 2)%nat with 1%nat. change (3 mod 2)%nat with 1%nat.
  change (0 / 2)%nat with 0%nat. change (0 mod 2)%nat with 0%nat.
  set (a := lastExtrapolated bins (G 1%nat m 1%nat m 0%nat)). set (b := lastExtrapolated bins (G 0%nat m 0%nat m 0%nat)).
  set (c := lastExtrapolated bins (G 1%nat n 1%nat n 0%nat)). set (e := lastExtrapolated bins (G 0%nat n 0%nat n 0%nat)).
  apply injective_projections; cbn; field.
Qed.
