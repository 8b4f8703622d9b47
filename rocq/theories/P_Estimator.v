(** Proofs about Estimator.v *)
From Coq Require Import ZArith List Bool Arith Lia Reals Lra String.
From Verif Require Import Base Num NumR Estimator.
Import ListNotations.
Open Scope Z_scope.

Section General.
Context {N : Num}.
(** the public operations that change an estimator *)
Inductive eop := OMeasure (x : real) | OAdd | OClear | OSqueeze (f : real) | OEstimate.
Definition eop1 (o : eop) (e : est) : outcome est :=
  match o with
  | OMeasure x => Ok (eMeasure x e) | OAdd => eAdd e | OClear => Ok (Clear e)
  | OSqueeze f => eSqueeze f e | OEstimate => Ok (snd (eEstimate e))
  end.
Fixpoint erun (l : list eop) (e : est) : outcome est :=
  match l with [] => Ok e | o :: r => obind (eop1 o e) (erun r) end.
Definition eop_ok (o : eop) : Prop := match o with OSqueeze f => rltb (rofZ 0) f = true | _ => True end.

(** subsequence *)
Inductive sub {A} : list A -> list A -> Prop :=
| sub_nil l : sub [] l
| sub_keep x l m : sub l m -> sub (x :: l) (x :: m)
| sub_skip x l m : sub l m -> sub l (x :: m).
Lemma sub_app_r {A} (l m : list A) x : sub l m -> sub l (m ++ x).
Proof. induction 1; cbn; constructor; auto. Qed.
Lemma sub_snoc {A} (l m : list A) x : sub l m -> sub (l ++ [x]) (m ++ [x]).
Proof.
  induction 1 as [l|y l m H IH|y l m H IH]; cbn [app].
  - induction l as [|z l IH]; cbn; [apply sub_keep, sub_nil|now apply sub_skip].
  - now apply sub_keep.
  - now apply sub_skip.
Qed.
Lemma evens_sub {A} (l m : list A) : sub l m -> sub (evens l) m.
Proof.
  enough (G : forall n l m, (List.length l <= n)%nat -> sub l m -> sub (evens l) m) by (intros; now apply (G (List.length l))).
  clear. induction n as [|n IH]; intros l m L H; [destruct l; [constructor|cbn in L; lia]|].
  destruct l as [|x [|y l]]; [constructor|constructor|]. cbn [evens].
  revert L. remember (x :: y :: l) as l0 eqn:E. induction H as [m|z l' m H IHs|z l' m H IHs]; intros L.
  - discriminate.
  - injection E as -> ->. apply sub_keep. apply IH; [cbn in L; lia|].
    remember (y :: l) as l1 eqn:E1. clear - H E1. induction H as [m|z l' m H IHs|z l' m H IHs]; [discriminate| |apply sub_skip; auto].
    injection E1 as -> ->. now apply sub_skip.
  - apply sub_skip. auto.
Qed.
Lemma evens_length {A} (l : list A) : List.length (evens l) = (List.length l / 2)%nat.
Proof.
  enough (G : forall n l, (List.length l <= n)%nat -> List.length (@evens A l) = (List.length l / 2)%nat) by (now apply (G (List.length l))).
  clear. induction n as [|n IH]; intros l L; [destruct l; [reflexivity|cbn in L; lia]|].
  destruct l as [|x [|y l]]; [reflexivity|reflexivity|]. cbn [evens List.length]. rewrite IH by (cbn in L; lia).
  replace (S (S (List.length l)))%nat with (List.length l + 1 * 2)%nat by lia. rewrite Nat.div_add by lia. lia.
Qed.

(** the running averages at the AddStatistics calls since the last ClearStatistics *)
Fixpoint trace (l : list eop) (e : est) (t : list real) : list real :=
  match l with
  | [] => t
  | o :: r =>
      match eop1 o e with
      | Ok e' => trace r e' (match o with OAdd => t ++ [rdiv (eValue e) (eNorm e)] | OClear => [] | _ => t end)
      | _ => t
      end
  end.
Definition EI (e : est) (t : list real) : Prop :=
  Z.of_nat (List.length (e_hist e)) <= HSIZE /\ sub (e_hist e) t /\ (Z.of_nat (List.length t) <= HSIZE -> e_hist e = t /\ e_int e = 1 /\ e_cnt e = 0).
Lemma update_hist e : e_hist (eUpdate e) = e_hist e /\ e_int (eUpdate e) = e_int e /\ e_cnt (eUpdate e) = e_cnt e /\
  e_acc (eUpdate e) = e_acc e /\ e_norm (eUpdate e) = e_norm e /\ e_mean (eUpdate e) = rdiv (e_acc e) (e_norm e).
Proof.
  unfold eUpdate. destruct (e_end e =? 0); [repeat split|]. destruct (minmax _ _ _ _ _ _) as [[[mn mx] mni] mxi]. repeat split.
Qed.
Lemma erun_inv : forall l e t, Forall eop_ok l -> EI e t -> exists e', erun l e = Ok e' /\ EI e' (trace l e t).
Proof.
  induction l as [|o l IH]; intros e t F (H1 & H2 & H3); cbn [erun trace]; [exists e; repeat split; auto; tauto|].
  inversion F as [|? ? F1 F2]; subst. destruct o as [x| | |f|]; cbn [eop1 obind].
  - apply IH; auto. repeat split; auto; apply H3; auto.
  - unfold eAdd. assert (E : e_end e <= HSIZE) by exact H1.
    destruct (Z.eqb_spec (e_end e) HSIZE) as [Eq|Ne].
    + cbn [obind]. apply IH; auto. split; [|split]; cbn [e_hist e_int e_cnt].
      * rewrite evens_length. assert (X : (List.length (e_hist e) / 2 <= List.length (e_hist e))%nat) by (apply Nat.div_le_upper_bound; lia). lia.
      * apply evens_sub. now apply sub_app_r.
      * rewrite app_length. cbn. unfold e_end in Eq. intros L. exfalso. destruct H3 as [H3 _]; [lia|]. rewrite H3 in Eq. lia.
    + destruct (Z.ltb_spec (e_end e) HSIZE) as [Lt|Ge]; [|lia]. unfold e_end in *. destruct (e_int e <=? u32 (e_cnt e + 1)) eqn:Ci.
      * cbn [obind]. apply IH; auto. split; [|split]; cbn [e_hist e_int e_cnt].
        -- rewrite app_length. cbn. lia.
        -- now apply sub_snoc.
        -- rewrite app_length. cbn. intros L. destruct H3 as (H3 & H4 & H5); [lia|]. now rewrite H3.
      * cbn [obind]. apply IH; auto. split; [|split]; cbn [e_hist e_int e_cnt]; auto.
        -- now apply sub_app_r.
        -- rewrite app_length. cbn. intros L. destruct H3 as (H3 & H4 & H5); [lia|]. rewrite H4, H5 in Ci. discriminate.
  - apply IH; auto. split; [discriminate|]. split; [constructor|]. intros _. auto.
  - unfold eSqueeze. rewrite F1. cbn [obind]. apply IH; auto. repeat split; auto; apply H3; auto.
  - apply IH; auto. destruct (update_hist e) as (U1 & U2 & U3 & _). unfold EI, eEstimate. cbn [snd]. rewrite U1, U2, U3. auto.
Qed.
Lemma EI_new : EI est_new [].
Proof. split; [discriminate|]. split; [constructor|]. intros _. repeat split. Qed.

(** *** save and load *)
Lemma save_load e e0 : Z.of_nat (List.length (e_hist e)) <= HSIZE -> exists e', eFromDict (eToDict e) e0 = Ok e' /\
  eValue e' = eValue e /\ eNorm e' = eNorm e /\ e_hist e' = e_hist e /\
  (e_hist e <> [] -> fst (eEstimate e') = fst (eEstimate e)) /\ fst (fst (eEstimate e')) = fst (fst (eEstimate e)).
Proof.
  intros L. unfold eFromDict. cbn [eToDict ed_hist ed_accu ed_norm]. destruct (Z.ltb_spec HSIZE (Z.of_nat (List.length (e_hist e)))) as [X|_]; [lia|].
  eexists. split; [reflexivity|].
  match goal with |- context [eUpdate ?x] => set (e1 := x) end.
  destruct (update_hist e1) as (U1 & U2 & U3 & U4 & U5 & U6).
  unfold eValue, eNorm. rewrite U1, U4, U5. split; [reflexivity|]. split; [reflexivity|]. split; [reflexivity|]. split.
  - intros Ne.
    assert (Q : forall e, e_hist e <> [] -> fst (eEstimate e) = (rdiv (e_acc e) (e_norm e),
       let i0 := rfloor (rmul (rofZ (Z.of_nat (List.length (e_hist e)))) ThrowRatio) in
       let '(mn, mx, _, _) := minmax i0 (skipn (Z.to_nat i0) (e_hist e)) MaxReal MinReal 0 0 in rdiv (e_abs (rsub mx mn)) (rofZ 2))).
    { intros z Hz. unfold eEstimate, eUpdate, e_end. destruct (Z.eqb_spec (Z.of_nat (List.length (e_hist z))) 0) as [Q|_].
      - destruct (e_hist z); [contradiction|cbn in Q; lia].
      - cbv zeta. destruct (minmax _ _ _ _ _ _) as [[[mn mx] mni] mxi]. reflexivity. }
    rewrite !Q by (rewrite ?U1; auto). rewrite U1, U4, U5. reflexivity.
  - unfold eEstimate. cbn [fst]. destruct (update_hist (eUpdate e1)) as (_ & _ & _ & _ & _ & ->). destruct (update_hist e) as (_ & _ & _ & _ & _ & ->).
    now rewrite U4, U5.
Qed.
Lemma adds_n : forall n, Z.of_nat n <= HSIZE -> exists e, erun (repeat OAdd n) est_new = Ok e /\ List.length (e_hist e) = n /\ e_int e = 1 /\ e_cnt e = 0.
Proof.
  assert (T : forall n e t, Z.of_nat (List.length (e_hist e) + n) <= HSIZE -> e_int e = 1 -> e_cnt e = 0 -> exists e', erun (repeat OAdd n) e = Ok e' /\
    List.length (e_hist e') = (List.length (e_hist e) + n)%nat /\ e_int e' = 1 /\ e_cnt e' = 0 /\ t = t :> nat).
  { induction n as [|n IH]; intros e t L I C; cbn [repeat erun]; [exists e; repeat split; auto|]. cbn [eop1]. unfold eAdd.
    destruct (Z.eqb_spec (e_end e) HSIZE) as [X|_]; [unfold e_end in X; lia|].
    destruct (Z.ltb_spec (e_end e) HSIZE) as [_|X]; [|unfold e_end in X; lia]. rewrite I, C. cbn [obind].
    change (1 <=? u32 (0 + 1)) with true. cbn [obind].
    match goal with |- context [erun _ ?x] => destruct (IH x t) as (e' & A & B & R) end; [cbn [e_hist]; rewrite app_length; cbn; lia|reflexivity|reflexivity|].
    exists e'. split; [exact A|]. split; [|exact R]. rewrite B. cbn [e_hist]. rewrite app_length. cbn. lia. }
  intros n L. destruct (T n est_new 0%nat) as (e & A & B & C & D & _); auto. exists e. auto.
Qed.
Lemma erun_app l m e : erun (l ++ m) e = obind (erun l e) (erun m).
Proof. revert e. induction l as [|o l IH]; intros e; [reflexivity|]. cbn [app erun]. destruct (eop1 o e); cbn [obind]; auto. Qed.
(** the recording interval is lost *)
Lemma interval_lost : exists l e e' r r', Forall eop_ok l /\ erun l est_new = Ok e /\ eFromDict (eToDict e) est_new = Ok e' /\
  eAdd e = Ok r /\ eAdd e' = Ok r' /\ e_hist r <> e_hist r' /\ List.length (e_hist r) <> List.length (e_hist r').
Proof.
  destruct (adds_n (Z.to_nat HSIZE)) as (e0 & A & B & C & D); [now rewrite Z2Nat.id|].
  assert (Eq : e_end e0 =? HSIZE = true) by (apply Z.eqb_eq; unfold e_end; rewrite B; unfold HSIZE; lia).
  set (e := mkEst (u32 (e_int e0 * 2)) (e_cnt e0) (e_acc e0) (e_norm e0) (e_ratio e0) (e_mean e0) (e_err e0) (evens (e_hist e0))).
  assert (L : List.length (e_hist e) = Z.to_nat 5000).
  { unfold e. cbn [e_hist]. rewrite evens_length, B. unfold HSIZE. 
    replace (Z.to_nat 10000) with (Z.to_nat 5000 * 2)%nat by lia. now rewrite Nat.div_mul by lia. }
  destruct (save_load e est_new) as (e' & S1 & S2 & S3 & S4 & _ & _); [rewrite L; unfold HSIZE; lia|].
  assert (S5 : e_int e' = 1 /\ e_cnt e' = 0).
  { unfold eFromDict in S1. destruct (HSIZE <? _); [discriminate|]. injection S1 as <-. 
    match goal with |- context [eUpdate ?x] => destruct (update_hist x) as (_ & -> & -> & _) end. auto. }
  assert (X : forall z, List.length (e_hist z) = Z.to_nat 5000 -> (e_end z =? HSIZE) = false /\ (e_end z <? HSIZE) = true).
  { intros z Hz. unfold e_end. rewrite Hz. unfold HSIZE. split; [apply Z.eqb_neq; lia|apply Z.ltb_lt; lia]. }
  exists (repeat OAdd (Z.to_nat HSIZE) ++ [OAdd]), e, e'. do 2 eexists. split; [|split; [|split; [exact S1|split; [|split]]]].
  - apply Forall_app. split; [|repeat constructor]. apply Forall_forall. intros x Hx. apply repeat_spec in Hx. now subst.
  - rewrite erun_app, A. cbn [obind erun eop1]. unfold eAdd. rewrite Eq. cbn [obind]. reflexivity.
  - unfold eAdd. destruct (X e L) as [-> ->]. assert (Q : e_int e <=? u32 (e_cnt e + 1) = false) by (unfold e; cbn [e_int e_cnt]; rewrite C, D; reflexivity).
    rewrite Q. reflexivity.
  - unfold eAdd. destruct (X e' ltac:(now rewrite S4)) as [-> ->]. destruct S5 as [-> ->]. reflexivity.
  - cbn [e_hist]. rewrite S4. split; [|rewrite app_length; cbn; lia]. intros Q. apply (f_equal (@List.length _)) in Q. rewrite app_length in Q. cbn in Q. lia.
Qed.

(** *** bundles *)
Fixpoint eb_adds (l : list string) (b : ebundle) : outcome ebundle :=
  match l with [] => Ok b | n :: r => obind (ebAdd n b) (eb_adds r) end.
Lemma eb_adds_ok : forall l b, NoDup l -> (forall n, In n l -> eb_map b n = None) ->
  (forall n i, eb_map b n = Some i -> (i < List.length (eb_vec b))%nat /\ nth_error (eb_vec b) i = Some (n, est_new)) ->
  exists b', eb_adds l b = Ok b' /\ eb_vec b' = eb_vec b ++ map (fun n => (n, est_new)) l /\
    (forall n i, nth_error l i = Some n -> eb_map b' n = Some (List.length (eb_vec b) + i)%nat) /\
    (forall n, ~ In n l -> eb_map b' n = eb_map b n).
Proof.
  induction l as [|a l IH]; intros b ND Fr Ok0; cbn [eb_adds].
  - exists b. split; auto. split; [cbn; now rewrite app_nil_r|]. split; [intros n [|i]; discriminate|auto].
  - inversion ND as [|? ? Na ND']; subst. unfold ebAdd. rewrite (Fr a) by now left. cbn [obind].
    match goal with |- context [eb_adds l ?x] => set (b1 := x) end.
    destruct (IH b1 ND') as (b' & E & V & M1 & M2).
    { intros n Hn. unfold b1, upds; cbn [eb_map]. destruct (String.eqb_spec n a) as [->|]; [contradiction|]. apply Fr. now right. }
    { intros n i. unfold b1, upds; cbn [eb_map eb_vec]. rewrite app_length. cbn. destruct (String.eqb_spec n a) as [->|].
      - intros [= <-]. split; [lia|]. rewrite nth_error_app2, Nat.sub_diag by lia. reflexivity.
      - intros Q. destruct (Ok0 n i Q) as [Q1 Q2]. split; [lia|]. now rewrite nth_error_app1. }
    exists b'. split; [exact E|]. split; [|split].
    + rewrite V. unfold b1. cbn [eb_vec map]. now rewrite <- app_assoc.
    + intros n [|i] Hi; cbn in Hi.
      * injection Hi as ->. rewrite M2 by auto. unfold b1, upds. cbn [eb_map]. rewrite String.eqb_refl. f_equal. lia.
      * rewrite (M1 n i Hi). unfold b1. cbn [eb_vec]. rewrite app_length. cbn. f_equal. lia.
    + intros n Hn. rewrite M2; [|intros Q; apply Hn; now right]. unfold b1, upds; cbn [eb_map]. destruct (String.eqb_spec n a) as [->|]; auto. exfalso. apply Hn. now left.
Qed.
End General.

(** *** exact arithmetic *)
Notation estR := (@est NumR).
Definition rsum (l : list R) : R := fold_right Rplus 0%R l.
Lemma measures : forall (l : list R) (e : estR), fold_left (fun e x => @eMeasure NumR x e) l e =
  s_norm (s_acc e (e_acc e + rsum l)%R) (e_norm e + INR (List.length l))%R.
Proof.
  induction l as [|x l IH]; intros e; cbn [fold_left rsum fold_right].
  - destruct e as [q1 q2 q3 q4 q5 q6 q7 q8]. unfold s_norm, s_acc. cbn. rewrite !Rplus_0_r. reflexivity.
  - rewrite IH. destruct e as [q1 q2 q3 q4 q5 q6 q7 q8]. unfold eMeasure, s_norm, s_acc. cbn [e_int e_cnt e_acc e_norm e_ratio e_mean e_err e_hist]. change (List.length (x :: l)) with (S (List.length l)).
    rewrite S_INR. cbn [radd NumR rofZ]. f_equal; unfold rsum; ring.
Qed.

Lemma minmax_spec : forall (l : list R) i (mn mx : R) mni mxi,
  let '(mn', mx', _, _) := @minmax NumR i l mn mx mni mxi in
  (mn' <= mn)%R /\ (mx <= mx')%R /\ (forall x, In x l -> (mn' <= x <= mx')%R) /\
  (mn' = mn \/ In mn' l) /\ (mx' = mx \/ In mx' l).
Proof.
  induction l as [|x l IH]; intros i mn mx mni mxi; cbn [minmax].
  - repeat split; auto; try lra; contradiction.
  - assert (E1 : exists (mn1 : R) mni1, (if @rltb NumR x mn then @pair (@real NumR) Z x i else @pair (@real NumR) Z mn mni) = @pair (@real NumR) Z mn1 mni1 /\ (mn1 <= mn)%R /\ (mn1 <= x)%R /\ (mn1 = mn \/ mn1 = x)).
    { change (@rltb NumR x mn) with (Rltb x mn). destruct (Rltb x mn) eqn:E; [apply Rltb_spec in E|apply Rltb_false in E]; eexists _, _; (split; [reflexivity|]); repeat split; try lra; auto. }
    assert (E2 : exists (mx1 : R) mxi1, (if @rltb NumR mx x then @pair (@real NumR) Z x i else @pair (@real NumR) Z mx mxi) = @pair (@real NumR) Z mx1 mxi1 /\ (mx <= mx1)%R /\ (x <= mx1)%R /\ (mx1 = mx \/ mx1 = x)).
    { change (@rltb NumR mx x) with (Rltb mx x). destruct (Rltb mx x) eqn:E; [apply Rltb_spec in E|apply Rltb_false in E]; eexists _, _; (split; [reflexivity|]); repeat split; try lra; auto. }
    destruct E1 as (mn1 & mni1 & -> & A1 & A2 & A3). destruct E2 as (mx1 & mxi1 & -> & B1 & B2 & B3).
    specialize (IH (i + 1) mn1 mx1 mni1 mxi1). destruct (@minmax NumR (i + 1) l mn1 mx1 mni1 mxi1) as [[[mn' mx'] a] b]. change (@real NumR) with R in mn', mx'.
    destruct IH as (C1 & C2 & C3 & C4 & C5). split; [lra|]. split; [lra|]. split; [|split].
    + intros y [<-|Hy]; [lra|auto].
    + destruct C4 as [->|C4]; [|right; now right]. destruct A3 as [->| ->]; [now left|right; now left].
    + destruct C5 as [->|C5]; [|right; now right]. destruct B3 as [->| ->]; [now left|right; now left].
Qed.
Lemma floor_third (n : nat) : Int_part (IZR (Z.of_nat n) * (1 / 3)) = Z.of_nat n / 3.
Proof.
  set (q := Z.of_nat n / 3). pose proof (Z.div_mod (Z.of_nat n) 3 ltac:(lia)) as E. pose proof (Z.mod_pos_bound (Z.of_nat n) 3 ltac:(lia)) as B. fold q in E.
  symmetry. unfold Int_part. rewrite <- (up_tech (IZR (Z.of_nat n) * (1 / 3)) q); [lia| |].
  - assert (IZR (3 * q) <= IZR (Z.of_nat n))%R by (apply IZR_le; lia). rewrite mult_IZR in H. lra.
  - assert (IZR (Z.of_nat n) < IZR (3 * (q + 1)))%R by (apply IZR_lt; lia). rewrite mult_IZR in H. rewrite plus_IZR in *. lra.
Qed.
Lemma error_bar (e : estR) : e_hist e <> [] -> (forall x : R, In x (e_hist e) -> (- 10 ^ 30 < x < 10 ^ 30)%R) ->
  let tail := skipn (List.length (e_hist e) / 3) (e_hist e) in
  let err : R := snd (fst (eEstimate e)) in
  (forall x y : R, In x tail -> In y tail -> (Rabs (x - y) <= 2 * err)%R) /\
  (exists x y : R, In x tail /\ In y tail /\ (x - y = 2 * err)%R).
Proof.
  intros Ne Bd tail err.
  assert (Q : exists mn mx a b, @minmax NumR (Z.of_nat (List.length (e_hist e)) / 3) tail (10 ^ 30)%R (- 10 ^ 30)%R 0 0 = (mn, mx, a, b) /\
             err = ((if Rleb 0 (mx - mn) then mx - mn else - (mx - mn)) / 2)%R).
  { unfold err, eEstimate, eUpdate, e_end. destruct (Z.eqb_spec (Z.of_nat (List.length (e_hist e))) 0) as [Q|_].
    { destruct (e_hist e); [contradiction|cbn in Q; lia]. }
    cbv zeta. 
    assert (E1 : @rfloor NumR (rmul (rofZ (Z.of_nat (List.length (e_hist e)))) ThrowRatio) = Z.of_nat (List.length (e_hist e)) / 3) by exact (floor_third _).
    rewrite E1. assert (E2 : Z.to_nat (Z.of_nat (List.length (e_hist e)) / 3) = (List.length (e_hist e) / 3)%nat).
    { rewrite <- (Nat2Z.id (List.length (e_hist e) / 3)). f_equal. rewrite Nat2Z.inj_div. reflexivity. }
    rewrite E2. fold tail.
    assert (E3 : @MaxReal NumR = (10 ^ 30)%R) by (rewrite (pow_IZR 10 30); reflexivity).
    assert (E4 : @MinReal NumR = (- 10 ^ 30)%R) by (rewrite (pow_IZR 10 30); reflexivity).
    rewrite E3, E4. destruct (minmax _ _ _ _ _ _) as [[[mn mx] a] b] eqn:E. exists mn, mx, a, b. split; [reflexivity|]. reflexivity. }
  destruct Q as (mn & mx & a & b & M & Er). pose proof (minmax_spec tail (Z.of_nat (List.length (e_hist e)) / 3) (10 ^ 30)%R (- 10 ^ 30)%R 0 0) as S.
  rewrite M in S. destruct S as (_ & _ & S3 & S4 & S5). clear M.
  assert (TN : tail <> []).
  { unfold tail. intros T. apply (f_equal (@List.length R)) in T. rewrite skipn_length in T. change (List.length (@nil R)) with 0%nat in T.
    assert (L : (0 < List.length (e_hist e))%nat) by (destruct (e_hist e); [contradiction|cbn; lia]).
    pose proof (Nat.div_lt (List.length (e_hist e)) 3 L ltac:(lia)) as DL. match type of DL with (?a < ?b)%nat => set (p := a) in *; set (q := b) in * end. cbn [List.length] in T. clear - T DL. lia. }
  assert (TB : forall x : R, In x tail -> (- 10 ^ 30 < x < 10 ^ 30)%R).
  { intros x Hx. apply Bd. rewrite <- (firstn_skipn (List.length (e_hist e) / 3) (e_hist e)). apply in_or_app. now right. }
  assert (X : exists x0, In x0 tail) by (destruct tail as [|x0 t]; [contradiction|exists x0; now left]). destruct X as (x0 & X0).
  assert (I1 : In mn tail). { destruct S4 as [S4|]; auto. pose proof (S3 x0 X0). pose proof (TB x0 X0). lra. }
  assert (I2 : In mx tail). { destruct S5 as [S5|]; auto. pose proof (S3 x0 X0). pose proof (TB x0 X0). lra. }
  pose proof (S3 x0 X0) as B0. assert (Er' : err = ((mx - mn) / 2)%R).
  { rewrite Er. unfold Rleb. destruct (Rle_dec 0 (mx - mn)); [reflexivity|lra]. }
  split.
  - intros x y Hx Hy. pose proof (S3 x Hx). pose proof (S3 y Hy). rewrite Er'. apply Rabs_le. lra.
  - exists mx, mn. split; auto. split; auto. rewrite Er'. lra.
Qed.
