Require Import Reals ZArith List Arith Bool Lra Lia.
From Coquelicot Require Complex.
Require Import Verif.PyWeight Verif.DysonSpec Verif.FirstOrder Verif.FirstOrderSpec Verif.P_PyIndex.
From Verif Require Import Base Num NumR Complex Lattice P_Lattice IndexMap P_IndexMap Weights PyIndex.
Import ListNotations.
Import Coquelicot.Complex.
Local Open Scope R_scope.

(* ---- closed forms ---- *)
Lemma sigma_closed G W s sa sb r t : (s < 2)%nat ->
  sigmaFirst G W s sa s sb r t
  = Copp (Cplus (Cmult (G 0%nat sa 0%nat sb r t) (W (spin2Index s 0) sa (spin2Index 0 s) sb r t))
                (Cmult (G 1%nat sa 1%nat sb r t) (W (spin2Index s 1) sa (spin2Index 1 s) sb r t))).
Proof.
  intros H. unfold sigmaFirst, spinPairs.
  destruct s as [|[|s]]; [| |lia]; cbn [seq list_prod map app fold_left fst snd];
    unfold addBlock; cbn [Nat.eqb andb]; unfold zeroArr; ring_simplify;
    apply injective_projections; cbn; ring.
Qed.
Lemma sigma_off G W s s' sa sb r t : s <> s' -> sigmaFirst G W s sa s' sb r t = RtoC 0.
Proof.
  intros H. unfold sigmaFirst, spinPairs. cbn [seq list_prod map app fold_left fst snd].
  unfold addBlock.
  destruct s as [|[|s]], s' as [|[|s']]; try lia; cbn [Nat.eqb andb]; reflexivity.
Qed.


Section Fold.
Variables (p q : nat) (x : nat -> nat -> nat -> nat -> C).
Let step := fun (d : arr) (sub : nat * nat) => addSub d p (fst sub) q (snd sub) (x (fst sub) (snd sub)).

Lemma addSub_other l : forall d a sa b sb r t, (a <> p \/ b <> q \/ ~ In (sa, sb) l) ->
  fold_left step l d a sa b sb r t = d a sa b sb r t.
Proof.
  induction l as [|[u v] l IH]; intros d a sa b sb r t H; [reflexivity|].
  cbn [fold_left]. rewrite IH by (cbn [In] in H; tauto).
  unfold step, addSub. cbn [fst snd].
  destruct (Nat.eqb_spec a p), (Nat.eqb_spec sa u), (Nat.eqb_spec b q), (Nat.eqb_spec sb v); cbn [andb]; auto.
  subst. exfalso. cbn [In] in H. tauto.
Qed.
Lemma addSub_one l : forall d sa sb r t, NoDup l -> In (sa, sb) l ->
  fold_left step l d p sa q sb r t = Cplus (d p sa q sb r t) (x sa sb r t).
Proof.
  induction l as [|[u v] l IH]; intros d sa sb r t N H; [destruct H|].
  inversion N as [|? ? N1 N2]; subst. cbn [fold_left].
  destruct H as [E|H].
  - injection E as -> ->. rewrite addSub_other by tauto.
    unfold step, addSub. cbn [fst snd]. now rewrite !Nat.eqb_refl.
  - rewrite IH by assumption. f_equal.
    unfold step, addSub. cbn [fst snd]. rewrite !Nat.eqb_refl.
    destruct (Nat.eqb_spec sa u), (Nat.eqb_spec sb v); cbn [andb]; auto. subst. contradiction.
Qed.
End Fold.

Lemma NoDup_prod {A B} (l : list A) (m : list B) : NoDup l -> NoDup m -> NoDup (list_prod l m).
Proof.
  induction 1 as [|a l H N IH]; intros M; [constructor|]. cbn [list_prod].
  assert (K : forall y, In y (map (fun y : B => (a, y)) m) -> ~ In y (list_prod l m)).
  { intros [u v] Hy Hz. apply in_map_iff in Hy. destruct Hy as (y & E & _). injection E as <- <-.
    apply in_prod_iff in Hz. tauto. }
  assert (P : NoDup (map (fun y : B => (a, y)) m)).
  { clear - M. induction M as [|y m Hy M IH]; cbn; constructor; auto.
    intros X. apply in_map_iff in X. destruct X as (z & E & Z). injection E as <-. contradiction. }
  specialize (IH M). revert K P. generalize (map (fun y : B => (a, y)) m) as k. clear - IH.
  induction k as [|y k IH2]; intros K P; [exact IH|]. inversion P; subst. cbn. constructor.
  - intros X. apply in_app_or in X. destruct X as [X|X]; [contradiction|]. apply (K y); [now left|assumption].
  - apply IH2; auto. intros z Hz. apply K. now right.
Qed.
Lemma in_subs n a b : (a < n)%nat -> (b < n)%nat -> In (a, b) (list_prod (seq 0 n) (seq 0 n)).
Proof. intros. apply in_prod; apply in_seq; lia. Qed.
Lemma nodup_subs n : NoDup (list_prod (seq 0 n) (seq 0 n)).
Proof. apply NoDup_prod; apply seq_NoDup. Qed.

Lemma polar_closed nsub bins G s1 s2 sa sb r t : (s1 < 2)%nat -> (s2 < 2)%nat ->
  (sa < nsub)%nat -> (sb < nsub)%nat ->
  polarFirst nsub bins G (spin2Index s1 s2) sa (spin2Index s2 s1) sb r t
  = Copp (Cmult (G s1 sb s1 sa r (bins - 1 - t)%nat) (G s2 sa s2 sb r t)).
Proof.
  intros H1 H2 Ha Hb. unfold polarFirst.
  set (L := list_prod (seq 0 nsub) (seq 0 nsub)).
  assert (NL : NoDup L) by apply nodup_subs.
  assert (IL : In (sa, sb) L) by now apply in_subs.
  set (val := fun s1 s2 sa sb r t => Cmult (Cmult (RtoC ((-1) * (-1) * (-1))) (G s1 sb s1 sa r (bins - 1 - t)%nat))
              (G s2 sa s2 sb r t)).
  assert (O : forall u v d, (u <> s1 \/ v <> s2) -> (u < 2)%nat -> (v < 2)%nat ->
     fold_left (fun d sub => addSub d (spin2Index u v) (fst sub) (spin2Index v u) (snd sub) (val u v (fst sub) (snd sub))) L d
       (spin2Index s1 s2) sa (spin2Index s2 s1) sb r t = d (spin2Index s1 s2) sa (spin2Index s2 s1) sb r t).
  { intros u v d X Hu Hv. apply (addSub_other (spin2Index u v) (spin2Index v u) (val u v)).
    unfold spin2Index. lia. }
  assert (I1 : forall d,
     fold_left (fun d sub => addSub d (spin2Index s1 s2) (fst sub) (spin2Index s2 s1) (snd sub) (val s1 s2 (fst sub) (snd sub))) L d
       (spin2Index s1 s2) sa (spin2Index s2 s1) sb r t
     = Cplus (d (spin2Index s1 s2) sa (spin2Index s2 s1) sb r t) (val s1 s2 sa sb r t)).
  { intros d. now apply (addSub_one (spin2Index s1 s2) (spin2Index s2 s1) (val s1 s2)). }
  assert (R : Cplus (RtoC 0) (val s1 s2 sa sb r t)
     = Copp (Cmult (G s1 sb s1 sa r (bins - 1 - t)%nat) (G s2 sa s2 sb r t))).
  { unfold val. apply injective_projections; cbn; ring. }
  rewrite <- R. clear R.
  change spinPairs with [(0, 0); (0, 1); (1, 0); (1, 1)]%nat.
  cbn [fold_left fst snd]. fold (val 0%nat 0%nat).
  destruct s1 as [|[|]]; [| |lia]; (destruct s2 as [|[|]]; [| |lia]).
  - rewrite (O 1 1)%nat, (O 1 0)%nat, (O 0 1)%nat by lia. now rewrite I1.
  - rewrite (O 1 1)%nat, (O 1 0)%nat by lia. rewrite I1. now rewrite (O 0 0)%nat by lia.
  - rewrite (O 1 1)%nat by lia. rewrite I1. now rewrite (O 0 1)%nat, (O 0 0)%nat by lia.
  - rewrite I1. now rewrite (O 1 0)%nat, (O 0 1)%nat, (O 0 0)%nat by lia.
Qed.

(* ---- the lines of the Monte Carlo ---- *)
Lemma coordi_py L a b : site_ok L a -> site_ok L b ->
  pyCoordiIndex (Size L) (disp (Size L) (coord a) (coord b)) = CoordiIndex L a b.
Proof. intros [_ A] [_ B]. unfold CoordiIndex. now rewrite LShift_disp. Qed.
Lemma tau_py (m : @imap NumR) tin tout :
  pyTauIndex (im_beta m) (im_maxtau m) tin tout = @TauIndex NumR m tin tout.
Proof.
  unfold TauIndex, TauIndex1, pyTauIndex. cbv zeta. cbn [rltb rsub rofZ rmul rfloor NumR].
  unfold dBetaInverse, dBeta. cbn [rdiv rofZ NumR].
  destruct (Rle_dec 0 (tout - tin)) as [G|G].
  - destruct (Rltb (tout - tin) 0) eqn:E; [apply Rltb_spec in E; lra|reflexivity].
  - destruct (Rltb (tout - tin) 0) eqn:E; [reflexivity|apply Rltb_false in E; lra].
Qed.

Lemma toC_scale k z : toC (rmul_c (rofZ k) z) = Cmult (RtoC (IZR k)) (toC z).
Proof. destruct z. unfold toC, rmul_c. apply injective_projections; cbn; ring. Qed.

Lemma tau_range (m : @imap NumR) tin tout : imap_ok m -> 0 < (im_beta m : R) ->
  0 <= tin < im_beta m -> 0 <= tout < im_beta m -> (0 <= @TauIndex NumR m tin tout < im_maxtau m)%Z.
Proof. intros H B Ti To. destruct (tau_bin m B (mo_tau m H)) as [T _]. now apply T. Qed.

Lemma table_value (m : @imap NumR) f d a b A B tA tB : imap_ok m -> 0 < (im_beta m : R) ->
  holds m f d -> (0 <= a < im_nsp m)%Z -> (0 <= b < im_nsp m)%Z ->
  site_ok (im_lat m) A -> site_ok (im_lat m) B ->
  0 <= tA < im_beta m -> 0 <= tB < im_beta m ->
  exists i, @GetIndexSmooth NumR m a b A B tA tB = Ok i /\
    toC (f i) = d (Z.to_nat a) (Z.to_nat (sub A)) (Z.to_nat b) (Z.to_nat (sub B))
                  (Z.to_nat (CoordiIndex (im_lat m) A B)) (Z.to_nat (@TauIndex NumR m tA tB)).
Proof.
  intros H HB D Ha Hb SA SB TA TB.
  eexists. split; [apply element_smooth; auto; now repeat split; try apply Ha; try apply Hb; try apply SA; try apply SB|].
  rewrite coordi_py, tau_py by assumption.
  pose proof (tau_range m tA tB H HB TA TB) as RT.
  pose proof (CoordiIndex_range (im_lat m) A B (mo_size m H) (proj2 SA) (proj2 SB)) as RC.
  destruct SA as [SA CA], SB as [SB CB].
  rewrite <- D by (rewrite Z2Nat.id; lia).
  do 2 f_equal. rewrite !Z2Nat.id by lia. reflexivity.
Qed.

Lemma spin_nat s : Z.to_nat (spinZ s) = spinN s.
Proof. now destruct s. Qed.

Lemma lineG_value T G s A B tA tB : jobTables T -> holds (gmap T) (g_smooth T) G ->
  onLattice T A -> onLattice T B -> inTime T tA -> inTime T tB ->
  exists z, lineG T s A B tA tB = Ok z /\
    toC z = Cmult (RtoC (IZR (@TauSym NumR (gmap T) tA tB)))
              (G (spinN s) (subN A) (spinN s) (subN B) (siteOf T A B) (binOf T tA tB)).
Proof.
  intros J D SA SB TA TB.
  destruct (table_value (gmap T) (g_smooth T) G (spinZ s) (spinZ s) A B tA tB) as (i & E & V); auto;
    try apply J; try (rewrite (jt_nsp2 T J); destruct s; cbn; lia).
  unfold lineG, GWeight. rewrite E. cbn [obind]. eexists. split; [reflexivity|].
  rewrite toC_scale. f_equal. rewrite V. now rewrite spin_nat.
Qed.

Lemma spin4_range sp : (0 <= spin4 sp < 4)%Z.
Proof. unfold spin4. destruct (sp IN), (sp OUT); cbn; lia. Qed.
Lemma spin4_nat i o : Z.to_nat (spin4 (ends i o)) = spin2Index (spinN i) (spinN o).
Proof. now destruct i, o. Qed.

Lemma lineW_value T W sA sB A B tA tB : jobTables T -> holds (wmap T) (w_smooth T) W ->
  onLattice T A -> onLattice T B -> inTime T tA -> inTime T tB ->
  exists z, lineW T sA sB A B tA tB = Ok z /\
    toC z = W (Z.to_nat (spin4 sA)) (subN A) (Z.to_nat (spin4 sB)) (subN B) (siteOf T A B) (binOf T tA tB).
Proof.
  intros J D SA SB TA TB. unfold onLattice, inTime in *.
  destruct (table_value (wmap T) (w_smooth T) W (spin4 sA) (spin4 sB) A B tA tB) as (i & E & V); auto;
    try apply (jt_w T J);
    try (rewrite (jt_nsp4 T J); apply spin4_range); try (rewrite (jt_lat T J); assumption);
    try (rewrite (jt_beta T J); first [assumption|apply (jt_pos T J)]).
  unfold lineW, WWeight. rewrite E. cbn [obind]. eexists. split; [reflexivity|].
  rewrite V. unfold siteOf, binOf. rewrite (jt_lat T J). do 2 f_equal.
  rewrite <- !tau_py. now rewrite (jt_beta T J), (jt_bins T J).
Qed.

Lemma fock_law T G W : jobTables T -> holds (gmap T) (g_smooth T) G -> holds (wmap T) (w_smooth T) W ->
  forall s A B tA tB, onLattice T A -> onLattice T B -> inTime T tA -> inTime T tB ->
  exists g w : spin -> cplx,
    (forall s2, lineG T s2 A B tA tB = Ok (g s2)) /\
    (forall s2, lineW T (ends s s2) (ends s2 s) A B tA tB = Ok (w s2)) /\
    Cmult (RtoC (IZR (@TauSym NumR (gmap T) tA tB)))
      (sigmaFirst G W (spinN s) (subN A) (spinN s) (subN B) (siteOf T A B) (binOf T tA tB))
    = Copp (Cplus (Cmult (toC (g DOWN)) (toC (w DOWN))) (Cmult (toC (g UP)) (toC (w UP)))).
Proof.
  intros J HG HW s A B tA tB SA SB TA TB.
  destruct (lineG_value T G DOWN A B tA tB) as (g0 & E0 & V0); auto.
  destruct (lineG_value T G UP A B tA tB) as (g1 & E1 & V1); auto.
  destruct (lineW_value T W (ends s DOWN) (ends DOWN s) A B tA tB) as (w0 & F0 & U0); auto.
  destruct (lineW_value T W (ends s UP) (ends UP s) A B tA tB) as (w1 & F1 & U1); auto.
  exists (fun s => match s with DOWN => g0 | UP => g1 end), (fun s => match s with DOWN => w0 | UP => w1 end).
  split; [now intros []|]. split; [now intros []|].
  rewrite sigma_closed by (destruct s; cbn; lia).
  rewrite V0, V1, U0, U1, !spin4_nat. cbn [spinN]. ring.
Qed.

(* ---- the bubble ---- *)
Lemma bin_back T tA tB : jobTables T -> inTime T tA -> inTime T tB ->
  (forall n, tB - tA <> IZR n * (im_beta (gmap T) / IZR (im_maxtau (gmap T)))) ->
  binOf T tB tA = (Z.to_nat (im_maxtau (gmap T)) - 1 - binOf T tA tB)%nat.
Proof.
  intros J TA TB N. unfold binOf.
  destruct (tau_bin (gmap T) (jt_pos T J) (mo_tau _ (jt_g T J))) as [Q _].
  destruct (Q tA tB TA TB) as [R1 C1]. destruct (Q tB tA TB TA) as [R2 C2].
  set (n := @TauIndex NumR (gmap T) tA tB) in *.
  enough (E : @TauIndex NumR (gmap T) tB tA = (im_maxtau (gmap T) - 1 - n)%Z) by (rewrite E; lia).
  apply C2. destruct (proj1 (C1 n) eq_refl) as (k & K & L1 & L2).
  assert (NE : tA <> tB). { intros ->. apply (N 0%Z). lra. }
  pose proof (mo_tau _ (jt_g T J)) as MP. apply IZR_lt in MP.
  set (M := IZR (im_maxtau (gmap T))) in *. set (Bt := im_beta (gmap T) : R) in *.
  assert (MB : M * (Bt / M) = Bt) by (field; lra).
  set (h := Bt / M) in *.
  exists (1 - k)%Z. split.
  { destruct K as [[K1 K2]|[K1 K2]]; [right|left]; split; try lia; lra. }
  assert (NB : IZR n * h <> tB - tA + IZR k * Bt).
  { intros E. apply (N (n - k * im_maxtau (gmap T))%Z). rewrite minus_IZR, mult_IZR.
    fold M. fold Bt. fold h. rewrite <- MB in E. lra. }
  rewrite !plus_IZR, !minus_IZR in *. fold M.
  split; [|]; lra.
Qed.

Lemma sym_back T tA tB : jobTables T -> tA <> tB ->
  (@TauSym NumR (gmap T) tA tB * @TauSym NumR (gmap T) tB tA = -1)%Z.
Proof.
  intros J N. unfold TauSym. rewrite (jt_sym T J). cbn [rltb NumR].
  destruct (Rltb tA tB) eqn:E; destruct (Rltb tB tA) eqn:F; try reflexivity; exfalso.
  - apply Rltb_spec in E. apply Rltb_spec in F. lra.
  - apply Rltb_false in E. apply Rltb_false in F. lra.
Qed.

Lemma site_self L a : Size L <> [] -> site_ok L a -> CoordiIndex L a a = 0%Z.
Proof.
  intros N A. destruct (CoordiIndex_nrank L a a N A A) as (_ & _ & ->).
  destruct A as [_ A]. unfold vec_ok in A. clear N. induction A as [|s x S v H F IH]; [reflexivity|].
  cbn [disp zrank]. rewrite Z.sub_diag, IH. rewrite Z.mod_0_l by lia. lia.
Qed.

Lemma bubble_law T G : jobTables T -> holds (gmap T) (g_smooth T) G ->
  forall s1 s2 A B tA tB, onLattice T A -> onLattice T B -> inTime T tA -> inTime T tB ->
  (forall n, tB - tA <> IZR n * (im_beta (gmap T) / IZR (im_maxtau (gmap T)))) ->
  exists g g' : cplx,
    lineG T s2 A B tA tB = Ok g /\ lineG T s1 B A tB tA = Ok g' /\
    (evenG T G ->
     polarFirst (Z.to_nat (SublatVol (im_lat (gmap T)))) (Z.to_nat (im_maxtau (gmap T))) G
       (spin2Index (spinN s1) (spinN s2)) (subN A) (spin2Index (spinN s2) (spinN s1)) (subN B)
       (siteOf T A B) (binOf T tA tB)
     = Cmult (toC g') (toC g)).
Proof.
  intros J HG s1 s2 A B tA tB SA SB TA TB N.
  destruct (lineG_value T G s2 A B tA tB) as (g & E & V); auto.
  destruct (lineG_value T G s1 B A tB tA) as (g' & E' & V'); auto.
  exists g, g'. split; [exact E|]. split; [exact E'|]. intros EV.
  pose proof (mo_size _ (jt_g T J)) as NS.
  rewrite polar_closed; try (destruct s1; cbn; lia); try (destruct s2; cbn; lia);
    [|unfold subN; destruct SA; lia|unfold subN; destruct SB; lia].
  rewrite V, V'. rewrite (bin_back T tA tB J TA TB N).
  assert (S : addSite (map Z.to_nat (Size (im_lat (gmap T)))) (siteOf T A B) (siteOf T B A) = 0%nat).
  { unfold siteOf. rewrite (site_chain _ A B A NS SA SB SA). now rewrite site_self. }
  pose proof (CoordiIndex_range _ A B NS (proj2 SA) (proj2 SB)) as R1.
  pose proof (CoordiIndex_range _ B A NS (proj2 SB) (proj2 SA)) as R2.
  rewrite (EV (spinN s1) (subN B) (subN A) (siteOf T A B) (siteOf T B A)); auto;
    try (unfold siteOf; rewrite Z2Nat.id; lia).
  assert (NE : tA <> tB). { intros ->. apply (N 0%Z). lra. }
  pose proof (sym_back T tA tB J NE) as Y.
  set (x := G (spinN s1) _ _ _ _ _). set (y := G (spinN s2) _ _ _ _ _).
  transitivity (Cmult (RtoC (IZR (@TauSym NumR (gmap T) tA tB * @TauSym NumR (gmap T) tB tA))) (Cmult x y)).
  - rewrite Y. apply injective_projections; cbn; ring.
  - rewrite mult_IZR, RtoC_mult. ring.
Qed.
