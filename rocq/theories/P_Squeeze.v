Require Import ZArith List Bool Arith Lia.
From Coq Require FinFun.
From Coquelicot Require Complex.
From Verif Require Import Squeeze SqueezeSpec.
Import ListNotations.
Local Open Scope nat_scope.

(** ** Times *)
Lemma set2_same {A} (f : nat -> nat -> A) i j x : set2 f i j x i j = x.
Proof. unfold set2. now rewrite !Nat.eqb_refl. Qed.
Lemma set2_other {A} (f : nat -> nat -> A) i j x a b : (a, b) <> (i, j) -> set2 f i j x a b = f a b.
Proof.
  intros H. unfold set2. destruct (Nat.eqb_spec a i), (Nat.eqb_spec b j); simpl; try reflexivity. subst. now elim H.
Qed.

Definition ordered (l : list (nat * nat)) := forall p, In p l -> fst p <= snd p.
Definition start := mkTimes (fun _ _ => 0) (fun _ _ => 0) (fun _ _ => 0) [] 0.

Lemma tau_inv l : NoDup l -> ordered l ->
  let s := fold_left tauStep l start in
  tauIndex s = length l /\ tauRestore s = l /\
  (forall i a b, nth_error l i = Some (a, b) ->
    tauSqueeze s a b = i /\ tauSqueeze s b a = i /\
    tauSym s a b = (if same a b then 1 else 2) /\ tauSym s b a = (if same a b then 1 else 2) /\
    tauFlag s b a = (if same a b then 0 else 1) /\ (a < b -> tauFlag s a b = 0)) /\
  (forall a b, ~ In (a, b) l -> tauFlag s b a = 0 \/ (In (b, a) l /\ a <> b)).
Proof.
  induction l as [|p l IH] using rev_ind; intros N O; simpl.
  { repeat split; try reflexivity; try (destruct i; discriminate). left. reflexivity. }
  rewrite fold_left_app. simpl.
  assert (N' : NoDup l) by (apply NoDup_remove_1 in N; now rewrite app_nil_r in N).
  assert (Np : ~ In p l) by (apply NoDup_remove_2 in N; now rewrite app_nil_r in N).
  assert (O' : ordered l) by (intros q Hq; apply O, in_or_app; now left).
  specialize (IH N' O'). simpl in IH. destruct IH as (I1 & I2 & I3 & I4).
  generalize dependent (fold_left tauStep l start). intros s I1 I2 I3 I4.
  destruct p as [x y].
  assert (Hxy : x <= y) by (apply (O (x, y)), in_or_app; right; now left).
  assert (Sd : same x y = true -> x = y) by (unfold same; intros E; apply andb_prop in E as [E _]; now apply Nat.eqb_eq in E).
  assert (Old : forall i a b, nth_error l i = Some (a, b) ->
     (a, b) <> (x, y) /\ (a, b) <> (y, x) /\ (b, a) <> (x, y) /\ (b, a) <> (y, x) /\ (a, b) <> (x, x) /\ (b, a) <> (x, x) \/
     (same x y = false /\ (a, b) <> (x, y) /\ (a, b) <> (y, x) /\ (b, a) <> (x, y) /\ (b, a) <> (y, x))).
  { intros i a b H. apply nth_error_In in H.
    assert (a <= b) by (apply (O' (a, b)), H).
    assert (A1 : (a, b) <> (x, y)) by (intros E; rewrite E in H; now apply Np).
    assert (A2 : (a, b) <> (y, x)) by (intros E; injection E as -> ->; assert (x = y) by lia; subst; now apply Np).
    assert (A3 : (b, a) <> (x, y)) by (intros E; injection E as -> ->; assert (x = y) by lia; subst; now apply Np).
    assert (A4 : (b, a) <> (y, x)) by (intros E; injection E as -> ->; now apply Np).
    destruct (same x y) eqn:E; [left|right; tauto]. specialize (Sd eq_refl). subst. tauto. }
  assert (Len : tauIndex (tauStep s (x, y)) = length (l ++ [(x, y)])).
  { unfold tauStep. rewrite app_length, I1. simpl. destruct (same x y); simpl; lia. }
  assert (Res : tauRestore (tauStep s (x, y)) = l ++ [(x, y)]).
  { unfold tauStep. rewrite I2. destruct (same x y); reflexivity. }
  split; [exact Len|]. split; [exact Res|]. split.
  - intros i a b H.
    destruct (lt_dec i (length l)) as [Hi|Hi].
    + rewrite nth_error_app1 in H by assumption.
      specialize (I3 _ _ _ H) as (J1 & J2 & J3 & J4 & J5 & J6).
      unfold tauStep. destruct (Old _ _ _ H) as [(A1 & A2 & A3 & A4 & A5 & A6)|(E & A1 & A2 & A3 & A4)].
      * destruct (same x y); simpl; rewrite ?set2_other by assumption; repeat split; assumption.
      * rewrite E. simpl. rewrite ?set2_other by assumption. repeat split; assumption.
    + rewrite nth_error_app2 in H by lia.
      destruct (i - length l) as [|k] eqn:Ek; [|destruct k; discriminate]. simpl in H. injection H as <- <-.
      assert (i = length l) by lia. subst i.
      unfold tauStep. rewrite I1. destruct (same x y) eqn:E; simpl.
      * specialize (Sd eq_refl). subst y. rewrite !set2_same. repeat split; try lia.
        destruct (I4 x x Np) as [F|[F _]]; [exact F|now elim Np].
      * rewrite !set2_same. destruct (Nat.eq_dec x y) as [->|Hn].
        -- rewrite !set2_same. repeat split; lia.
        -- rewrite !(set2_other _ y x) by congruence. rewrite !set2_same. repeat split.
           intros Hlt. destruct (I4 y x) as [F|[F _]]; [|exact F|now elim Np].
           intros F. apply O' in F. simpl in F. lia.
  - intros a b H.
    assert (H1 : ~ In (a, b) l) by (intros F; apply H, in_or_app; now left).
    assert (H2 : (a, b) <> (x, y)) by (intros F; apply H, in_or_app; right; left; congruence).
    unfold tauStep. destruct (same x y) eqn:E; simpl.
    + destruct (I4 a b H1) as [F|[F1 F2]]; [now left|right; split; [apply in_or_app; now left|assumption]].
    + rewrite (set2_other _ y x) by congruence.
      destruct (I4 a b H1) as [F|[F1 F2]]; [now left|right; split; [apply in_or_app; now left|assumption]].
Qed.

Lemma pairs_in n a b : In (a, b) (timePairs n) <-> a <= b < n.
Proof.
  unfold timePairs. rewrite in_flat_map. split.
  - intros (t & Ht & H). apply in_map_iff in H as (u & E & Hu). injection E as -> ->.
    apply in_seq in Ht. apply in_seq in Hu. lia.
  - intros H. exists a. split; [apply in_seq; lia|]. apply in_map_iff. exists b. split; [reflexivity|]. apply in_seq. lia.
Qed.
Lemma nodup_app {A} (l m : list A) : NoDup l -> NoDup m -> (forall x, In x l -> ~ In x m) -> NoDup (l ++ m).
Proof.
  intros H Hm D. induction H as [|x l Hx Hl IH]; simpl; [assumption|]. constructor.
  - rewrite in_app_iff. intros [F|F]; [now apply Hx|]. apply (D x); [now left|exact F].
  - apply IH. intros z Hz. apply D. now right.
Qed.
Lemma pairs_nodup n : NoDup (timePairs n).
Proof.
  unfold timePairs. generalize (seq_NoDup n 0). generalize (seq 0 n). intros l H.
  induction H as [|x l Hx Hl IH]; simpl; [constructor|].
  apply nodup_app; [|exact IH|].
  - apply FinFun.Injective_map_NoDup; [intros u v E; congruence|apply seq_NoDup].
  - intros [a b] H1 H2. apply in_map_iff in H1 as (u & E & _). injection E as -> ->.
    apply in_flat_map in H2 as (t & Ht & H2). apply in_map_iff in H2 as (w & E & _). injection E as -> ->. now apply Hx.
Qed.
Lemma pairs_ordered n : ordered (timePairs n).
Proof. intros [a b] H. apply pairs_in in H. simpl. lia. Qed.

Lemma time_inv n t1 t2 : t1 < n -> t2 < n ->
  let s := timeMap n in
  nth_error (tauRestore s) (tauSqueeze s t1 t2) = Some (Nat.min t1 t2, Nat.max t1 t2) /\
  tauSqueeze s t2 t1 = tauSqueeze s t1 t2 /\
  tauSym s t1 t2 = (if same t1 t2 then 1 else 2) /\
  tauFlag s t1 t2 = (if t1 <? t2 then 0 else if same t1 t2 then 0 else 1).
Proof.
  intros H1 H2. simpl. unfold timeMap.
  destruct (tau_inv _ (pairs_nodup n) (pairs_ordered n)) as (_ & R & I & _). unfold start in *. rewrite R.
  assert (Sc : forall a b, a <> b -> same a b = false) by (intros a b Hn; unfold same; apply Nat.eqb_neq in Hn; now rewrite Hn).
  destruct (le_lt_dec t1 t2) as [Hle|Hlt].
  - assert (Hin : In (t1, t2) (timePairs n)) by (apply pairs_in; lia).
    apply In_nth_error in Hin as [i Hi]. destruct (I _ _ _ Hi) as (J1 & J2 & J3 & J4 & J5 & J6).
    rewrite J1, J2, J3, Nat.min_l, Nat.max_r by lia. repeat split; try assumption.
    destruct (Nat.ltb_spec t1 t2) as [L|L]; [now apply J6|]. assert (t1 = t2) by lia. subst. exact J5.
  - assert (Hin : In (t2, t1) (timePairs n)) by (apply pairs_in; lia).
    apply In_nth_error in Hin as [i Hi]. destruct (I _ _ _ Hi) as (J1 & J2 & J3 & J4 & J5 & J6).
    rewrite J1, J2, J4, J5, Nat.min_r, Nat.max_l by lia. repeat split; try assumption.
    + now rewrite !Sc by lia.
    + destruct (Nat.ltb_spec t1 t2) as [L|L]; [lia|]. now rewrite !Sc by lia.
Qed.

Lemma time_count n : forall i, i < length (tauRestore (timeMap n)) ->
  exists t1 t2, nth_error (tauRestore (timeMap n)) i = Some (t1, t2) /\ t1 <= t2 < n /\ tauSqueeze (timeMap n) t1 t2 = i.
Proof.
  unfold timeMap. destruct (tau_inv _ (pairs_nodup n) (pairs_ordered n)) as (_ & R & I & _). unfold start in *. rewrite R.
  intros i Hi. destruct (nth_error (timePairs n) i) as [[a b]|] eqn:E; [|apply nth_error_None in E; lia].
  exists a, b. split; [reflexivity|]. split; [apply pairs_in; apply nth_error_In with i; exact E|].
  apply (I _ _ _ E).
Qed.

Lemma time_size n : 2 * length (tauRestore (timeMap n)) = n * (n + 1).
Proof.
  unfold timeMap. destruct (tau_inv _ (pairs_nodup n) (pairs_ordered n)) as (_ & R & _). unfold start in *. rewrite R. clear R.
  assert (H : forall k m, k + m = n -> 2 * length (flat_map (fun t1 => map (fun t2 => (t1, t2)) (seq t1 (n - t1))) (seq k m)) = m * (m + 1)).
  { intros k m. revert k. induction m as [|m IH]; intros k Hk; simpl; [reflexivity|].
    rewrite app_length, map_length, seq_length. specialize (IH (S k)). lia. }
  apply (H 0 n). reflexivity.
Qed.

(** ** Sites *)
Lemma eqP_spec p q : eqP p q = true <-> p = q.
Proof.
  destruct p as [a b], q as [c d]. unfold eqP. simpl. rewrite andb_true_iff, !Z.eqb_eq. split; [intros [-> ->]; reflexivity|intros E; injection E; auto].
Qed.
Lemma eqV_spec u v : eqV u v = true <-> u = v.
Proof.
  destruct u as [a b], v as [c d]. unfold eqV. cbn [fst snd]. rewrite andb_true_iff, !eqP_spec. split; [intros [-> ->]; reflexivity|intros E; injection E; auto].
Qed.
Lemma inV_spec v l : inV v l = true <-> In v l.
Proof.
  unfold inV. rewrite existsb_exists. split.
  - intros (u & Hu & E). apply eqV_spec in E. now subst.
  - intros H. exists v. split; [exact H|now apply eqV_spec].
Qed.
Lemma inV_false v l : inV v l = false <-> ~ In v l.
Proof. rewrite <- inV_spec. destruct (inV v l); split; congruence. Qed.
Lemma distinct_in v l : In v (distinct l) <-> In v l.
Proof.
  induction l as [|u l IH]; simpl; [tauto|]. destruct (inV u l) eqn:E.
  - apply inV_spec in E. rewrite IH. split; [tauto|intros [->|H]; assumption].
  - simpl. now rewrite IH.
Qed.
Lemma distinct_nodup l : NoDup (distinct l).
Proof.
  induction l as [|u l IH]; simpl; [constructor|]. destruct (inV u l) eqn:E; [exact IH|].
  constructor; [|exact IH]. rewrite distinct_in. now apply inV_false.
Qed.
Lemma least_in v l : In (least v l) (v :: l).
Proof.
  unfold least. revert v. induction l as [|u l IH]; intros v; simpl; [now left|].
  destruct (IH (if lessV u v then u else v)) as [E|E]; [|now right; right].
  rewrite <- E. destruct (lessV u v); [right; now left|now left].
Qed.

Section Orbits.
Variable orbit : vec -> list vec.
Variable dom : vec -> Prop.
Hypothesis Orefl : forall v, dom v -> In v (orbit v).
Hypothesis Odom : forall u v, dom v -> In u (orbit v) -> dom u.
Hypothesis Oeq : forall u v w, dom v -> In u (orbit v) -> (In w (orbit u) <-> In w (orbit v)).
Hypothesis Onodup : forall v, NoDup (orbit v).

Lemma orbit_length u v : dom v -> In u (orbit v) -> length (orbit u) = length (orbit v).
Proof.
  intros D H. apply Nat.le_antisymm; apply NoDup_incl_length; try apply Onodup; intros w; rewrite (Oeq u v w D H); auto.
Qed.

Definition empty := mkSites [] (fun _ => 0) (fun _ => 0) [] 0.

Lemma site_inv l : (forall v, In v l -> dom v) ->
  let s := fold_left (siteStep orbit) l empty in
  rIndex s = length (rRestore s) /\
  (forall v, In v l -> In v (points s)) /\
  (forall v, In v (points s) -> dom v /\ (forall u, In u (orbit v) -> In u (points s)) /\
     rSym s v = length (orbit v) /\
     exists w, nth_error (rRestore s) (rSqueeze s v) = Some w /\ In w (orbit v)) /\
  (forall i w, nth_error (rRestore s) i = Some w -> In w (points s) /\ rSqueeze s w = i) /\
  (forall u v, In v (points s) -> In u (orbit v) -> rSqueeze s u = rSqueeze s v).
Proof.
  induction l as [|x l IH] using rev_ind; intros D; simpl.
  { repeat split; try contradiction; try (destruct i; discriminate). }
  rewrite fold_left_app. simpl.
  assert (D' : forall v, In v l -> dom v) by (intros v Hv; apply D, in_or_app; now left).
  specialize (IH D'). simpl in IH. destruct IH as (I1 & I2 & I3 & I4 & I5).
  generalize dependent (fold_left (siteStep orbit) l empty). intros s I1 I2 I3 I4 I5.
  assert (Dx : dom x) by (apply D, in_or_app; right; now left).
  unfold siteStep. destruct (inV x (points s)) eqn:E.
  { apply inV_spec in E. split; [exact I1|]. split; [|now split; [|split]].
    intros v Hv. apply in_app_or in Hv as [Hv|[<-|[]]]; auto. }
  apply inV_false in E. cbn [rIndex rRestore points rSqueeze rSym].
  assert (Dis : forall v, In v (points s) -> ~ In v (orbit x)).
  { intros v Hv F. apply E. destruct (I3 _ Hv) as (Dv & C & _). apply C. apply (Oeq v x x Dx F). now apply Orefl. }
  assert (Lin : In (least x (orbit x)) (orbit x)).
  { destruct (least_in x (orbit x)) as [L|L]; [|exact L]. rewrite <- L. now apply Orefl. }
  split; [rewrite app_length; simpl; lia|]. split; [|split; [|split]].
  - intros v Hv. apply in_or_app. apply in_app_or in Hv as [Hv|[<-|[]]]; [right; auto|left; now apply Orefl].
  - intros v Hv. destruct (inV v (orbit x)) eqn:Ev.
    + apply inV_spec in Ev. split; [eapply Odom; eassumption|]. split; [|split].
      * intros u Hu. apply in_or_app. left. now apply (Oeq v x u Dx Ev).
      * symmetry. now apply orbit_length.
      * exists (least x (orbit x)). split; [|now apply (Oeq v x _ Dx Ev)].
        rewrite I1, nth_error_app2, Nat.sub_diag by lia. reflexivity.
    + apply inV_false in Ev. apply in_app_or in Hv as [Hv|Hv]; [contradiction|].
      destruct (I3 _ Hv) as (Dv & C & S & w & W1 & W2). split; [exact Dv|]. split; [|split; [exact S|]].
      * intros u Hu. apply in_or_app. right. auto.
      * exists w. split; [|exact W2]. rewrite nth_error_app1; [exact W1|]. apply nth_error_Some. congruence.
  - intros i w Hi. destruct (lt_dec i (length (rRestore s))) as [L|L].
    + rewrite nth_error_app1 in Hi by assumption. destruct (I4 _ _ Hi) as [W1 W2]. split; [apply in_or_app; now right|].
      apply Dis, inV_false in W1. now rewrite W1.
    + rewrite nth_error_app2 in Hi by lia. destruct (i - length (rRestore s)) as [|k] eqn:Ek; [|destruct k; discriminate].
      simpl in Hi. injection Hi as <-. split; [apply in_or_app; now left|]. apply inV_spec in Lin. rewrite Lin. lia.
  - intros u v Hv Hu. destruct (inV v (orbit x)) eqn:Ev.
    + apply inV_spec in Ev. assert (Hux : In u (orbit x)) by now apply (Oeq v x u Dx Ev).
      apply inV_spec in Hux. now rewrite Hux.
    + apply inV_false in Ev. apply in_app_or in Hv as [Hv|Hv]; [contradiction|].
      destruct (I3 _ Hv) as (Dv & C & _). assert (Hux : ~ In u (orbit x)) by (apply Dis; auto).
      apply inV_false in Hux. rewrite Hux. now apply I5.
Qed.
End Orbits.

Local Open Scope Z_scope.
Lemma range_in L x : In x (range L) <-> 0 <= x < L.
Proof.
  unfold range. rewrite in_map_iff. split.
  - intros (n & <- & H). apply in_seq in H. lia.
  - intros H. exists (Z.to_nat x). split; [lia|]. apply in_seq. lia.
Qed.
Lemma siteList_in Lx Ly v : In v (siteList Lx Ly) <-> inside Lx Ly v.
Proof.
  unfold siteList, inside, onLattice. destruct v as [[a b] [c d]]. cbn [fst snd].
  rewrite in_flat_map. split.
  - intros (x1 & H1 & H). apply in_flat_map in H as (y1 & H2 & H). apply in_flat_map in H as (x2 & H3 & H).
    apply in_map_iff in H as (y2 & E & H4). injection E as -> -> -> ->. rewrite range_in in *. lia.
  - intros H. exists a. rewrite range_in. split; [lia|]. apply in_flat_map. exists b. rewrite range_in. split; [lia|].
    apply in_flat_map. exists c. rewrite range_in. split; [lia|]. apply in_map_iff. exists d. split; [reflexivity|]. apply range_in. lia.
Qed.

Definition mul (i j : nat) : nat :=
  match i, j with
  | O, k | k, O => k
  | 1, 1 | 2, 2 | 3, 3 => 0 | 1, 2 | 2, 1 => 3 | 1, 3 | 3, 1 => 2 | 2, 3 | 3, 2 => 1 | _, _ => 0
  end%nat.

Ltac wrap := unfold getR; repeat match goal with
  | |- context[if ?a <? ?b then _ else _] => destruct (Z.ltb_spec a b)
  | |- context[if ?a <=? ?b then _ else _] => destruct (Z.leb_spec a b)
  end; try lia.
Lemma getR_mod r L : 0 < L -> - (2 * L) <= r < 3 * L -> getR r L = r mod L.
Proof.
  intros HL H. unfold getR.
  destruct (Z.ltb_spec r 0).
  - cbv zeta. destruct (Z.ltb_spec (r + L) 0).
    + apply (Z.mod_unique_pos _ _ (-2)); lia.
    + apply (Z.mod_unique_pos _ _ (-1)); lia.
  - destruct (Z.leb_spec L r).
    + cbv zeta. destruct (Z.leb_spec L (r - L)).
      * apply (Z.mod_unique_pos _ _ 2); lia.
      * apply (Z.mod_unique_pos _ _ 1); lia.
    + symmetry. apply Z.mod_small. lia.
Qed.
Lemma getR_range r L : 0 < L -> - (2 * L) <= r < 3 * L -> 0 <= getR r L < L.
Proof. intros HL H. rewrite getR_mod by assumption. apply Z.mod_pos_bound. lia. Qed.

Lemma mirror_inside s Lx Ly k p : closed s Lx Ly -> onLattice Lx Ly p -> onLattice Lx Ly (mirror s Lx Ly k p).
Proof.
  destruct p as [x y]. intros C [H1 H2]. cbn [fst snd] in *. unfold onLattice.
  destruct s, k as [|[|[|[|k]]]]; cbn [mirror fst snd closed] in *; split; try lia; apply getR_range; lia.
Qed.

Lemma mirror_mul s Lx Ly i j p : closed s Lx Ly -> onLattice Lx Ly p -> (i < 4)%nat -> (j < 4)%nat ->
  mirror s Lx Ly i (mirror s Lx Ly j p) = mirror s Lx Ly (mul i j) p.
Proof.
  destruct p as [x y]. intros C [H1 H2] Hi Hj. cbn [fst snd] in *.
  destruct i as [|[|[|[|i]]]], j as [|[|[|[|j]]]]; try lia; destruct s; cbn [mirror mul closed] in *;
  try reflexivity; f_equal; try subst Ly; wrap.
Qed.

Lemma mirrorV_in s Lx Ly u v : In u (MirrorR s Lx Ly v) <-> exists k, (k < 4)%nat /\ u = mirrorV s Lx Ly k v.
Proof.
  unfold MirrorR. rewrite distinct_in, in_map_iff. split.
  - intros (k & <- & H). exists k. split; [|reflexivity]. simpl in H. lia.
  - intros (k & H & ->). exists k. split; [reflexivity|]. simpl. lia.
Qed.
Lemma mul_small i j : (i < 4)%nat -> (j < 4)%nat -> (mul i j < 4)%nat.
Proof. intros Hi Hj. destruct i as [|[|[|[|i]]]], j as [|[|[|[|j]]]]; simpl; lia. Qed.
Lemma mul_inv i j : (i < 4)%nat -> (j < 4)%nat -> mul (mul i j) j = i.
Proof. intros Hi Hj. destruct i as [|[|[|[|i]]]], j as [|[|[|[|j]]]]; simpl; lia. Qed.
Lemma mirrorV_mul s Lx Ly i j v : closed s Lx Ly -> inside Lx Ly v -> (i < 4)%nat -> (j < 4)%nat ->
  mirrorV s Lx Ly i (mirrorV s Lx Ly j v) = mirrorV s Lx Ly (mul i j) v.
Proof. intros C [H1 H2] Hi Hj. unfold mirrorV. cbn [fst snd]. rewrite !mirror_mul by assumption. reflexivity. Qed.
Lemma mirrorV_0 s Lx Ly v : mirrorV s Lx Ly 0 v = v.
Proof. destruct v as [[a b] [c d]]. destruct s; reflexivity. Qed.

Lemma M_refl s Lx Ly v : In v (MirrorR s Lx Ly v).
Proof. apply mirrorV_in. exists 0%nat. split; [lia|]. now rewrite mirrorV_0. Qed.
Lemma M_inside s Lx Ly u v : closed s Lx Ly -> inside Lx Ly v -> In u (MirrorR s Lx Ly v) -> inside Lx Ly u.
Proof.
  intros C [H1 H2] H. apply mirrorV_in in H as (k & _ & ->). split; apply mirror_inside; assumption.
Qed.
Lemma M_eq s Lx Ly u v w : closed s Lx Ly -> inside Lx Ly v -> In u (MirrorR s Lx Ly v) ->
  (In w (MirrorR s Lx Ly u) <-> In w (MirrorR s Lx Ly v)).
Proof.
  intros C D H. apply mirrorV_in in H as (j & Hj & ->). rewrite !mirrorV_in. split; intros (k & Hk & ->).
  - exists (mul k j). split; [now apply mul_small|]. now apply mirrorV_mul.
  - exists (mul k j). split; [now apply mul_small|]. rewrite mirrorV_mul by (try assumption; now apply mul_small).
    now rewrite mul_inv.
Qed.

Lemma wrapped r L x : 0 < L -> - (2 * L) <= r < 3 * L -> 0 <= x < L -> (getR r L = x <-> (r - x) mod L = 0).
Proof.
  intros HL Hr Hx. rewrite getR_mod by assumption. split.
  - intros <-. rewrite Zminus_mod_idemp_r, Z.sub_diag. apply Z.mod_0_l. lia.
  - intros E. apply Z.mod_divide in E; [|lia]. destruct E as [q E]. replace r with (x + q * L) by lia.
    rewrite Z.mod_add by lia. now apply Z.mod_small.
Qed.
Lemma same0 L x y : 0 <= x < L -> 0 <= y < L -> ((1 * x + 0 * 0 - y) mod L = 0 <-> x = y).
Proof.
  intros Hx Hy. split; [|intros ->; replace (1 * y + 0 * 0 - y) with 0 by lia; apply Z.mod_0_l; lia].
  intros E. apply Z.mod_divide in E; [|lia]. destruct E as [q E]. assert (q = 0) by nia. lia.
Qed.

Lemma and2 (A B A' B' : Prop) : (A <-> A') -> (B <-> B') -> (A /\ B <-> A' /\ B').
Proof. tauto. Qed.
Definition nthMove (s : sym) (k : nat) : Z * Z * Z := nth k (moves s) (1, 0, 1).
Lemma moved_spec s Lx Ly k p q : closed s Lx Ly -> onLattice Lx Ly p -> onLattice Lx Ly q -> (k < 4)%nat ->
  (mirror s Lx Ly k p = q <-> moved Lx Ly (nthMove s k) p q).
Proof.
  destruct p as [x y], q as [x' y']. intros C [H1 H2] [H3 H4] Hk. cbn [fst snd] in *.
  assert (P : forall a b c d : Z, (a, b) = (c, d) <-> a = c /\ b = d) by (intros; split; [intros E; injection E; auto|intros [-> ->]; reflexivity]).
  assert (X : forall r r', r = r' -> - (2 * Lx) <= r < 3 * Lx -> (getR r Lx = x' <-> (r' - x') mod Lx = 0))
    by (intros r r' <- Hr; apply wrapped; lia).
  assert (Y : forall r r', r = r' -> - (2 * Ly) <= r < 3 * Ly -> (getR r Ly = y' <-> (r' - y') mod Ly = 0))
    by (intros r r' <- Hr; apply wrapped; lia).
  assert (X0 : forall r', x = r' -> (x = x' <-> (r' - x') mod Lx = 0)).
  { intros r' <-. rewrite <- (same0 Lx x x') by lia. now replace (1 * x + 0 * 0 - x') with (x - x') by lia. }
  assert (Y0 : forall r', y = r' -> (y = y' <-> (r' - y') mod Ly = 0)).
  { intros r' <-. rewrite <- (same0 Ly y y') by lia. now replace (1 * y + 0 * 0 - y') with (y - y') by lia. }
  destruct k as [|[|[|[|k]]]]; try lia; destruct s; cbn [mirror nthMove moves nth moved fst snd closed] in *; rewrite P;
  apply and2; first [apply X; lia | apply Y; lia | apply X0; lia | apply Y0; lia].
Qed.

Lemma alike_spec s Lx Ly u v : closed s Lx Ly -> inside Lx Ly u -> inside Lx Ly v ->
  (In u (MirrorR s Lx Ly v) <-> alike s Lx Ly u v).
Proof.
  intros C [U1 U2] [V1 V2]. rewrite mirrorV_in. unfold alike. split.
  - intros (k & Hk & E). unfold mirrorV in E. exists (nthMove s k).
    assert (E1 : mirror s Lx Ly k (fst v) = fst u) by (rewrite E; reflexivity).
    assert (E2 : mirror s Lx Ly k (snd v) = snd u) by (rewrite E; reflexivity).
    split; [|split; apply moved_spec; assumption].
    unfold nthMove. destruct k as [|[|[|[|k]]]]; try lia; destruct s; simpl; tauto.
  - intros (m & Hm & M1 & M2).
    assert (K : exists k, (k < 4)%nat /\ m = nthMove s k).
    { destruct s; simpl in Hm; repeat (destruct Hm as [<-|Hm]); try contradiction;
      first [exists 0%nat; split; [lia|reflexivity]|exists 1%nat; split; [lia|reflexivity]|exists 2%nat; split; [lia|reflexivity]|exists 3%nat; split; [lia|reflexivity]]. }
    destruct K as (k & Hk & ->). exists k. split; [exact Hk|].
    apply (moved_spec s Lx Ly k) in M1; try assumption. apply (moved_spec s Lx Ly k) in M2; try assumption.
    unfold mirrorV. rewrite M1, M2. destruct u; reflexivity.
Qed.

Lemma site_map s Lx Ly : closed s Lx Ly ->
  let m := siteMap s Lx Ly in
  (forall v, inside Lx Ly v -> rSym m v = length (MirrorR s Lx Ly v) /\
     exists w, nth_error (rRestore m) (rSqueeze m v) = Some w /\ In w (MirrorR s Lx Ly v)) /\
  (forall i w, nth_error (rRestore m) i = Some w -> inside Lx Ly w /\ rSqueeze m w = i) /\
  (forall u v, inside Lx Ly v -> In u (MirrorR s Lx Ly v) -> rSqueeze m u = rSqueeze m v).
Proof.
  intros C.
  destruct (site_inv (MirrorR s Lx Ly) (inside Lx Ly)
    (fun v _ => M_refl s Lx Ly v) (fun u v D => M_inside s Lx Ly u v C D) (fun u v w D => M_eq s Lx Ly u v w C D)
    (fun v => distinct_nodup _) (siteList Lx Ly) (fun v => proj1 (siteList_in Lx Ly v))) as (I1 & I2 & I3 & I4 & I5).
  unfold siteMap. unfold empty in *. cbv zeta. split; [|split].
  - intros v D. destruct (I3 v) as (_ & _ & S & W); [apply I2; now apply siteList_in|]. split; assumption.
  - intros i w H. destruct (I4 _ _ H) as [W1 W2]. split; [apply (I3 w W1)|exact W2].
  - intros u v D H. apply I5; [|exact H]. apply I2. now apply siteList_in.
Qed.

Lemma squeeze_restores s Lx Ly v : closed s Lx Ly -> inside Lx Ly v ->
  exists w, nth_error (rRestore (siteMap s Lx Ly)) (rSqueeze (siteMap s Lx Ly) v) = Some w /\ inside Lx Ly w /\ alike s Lx Ly w v.
Proof.
  intros C D. destruct (site_map s Lx Ly C) as (I & _ & _). destruct (I v D) as (_ & w & W1 & W2).
  exists w. assert (Dw := M_inside _ _ _ _ _ C D W2). split; [exact W1|]. split; [exact Dw|]. now apply alike_spec.
Qed.
Lemma squeeze_alike s Lx Ly u v : closed s Lx Ly -> inside Lx Ly u -> inside Lx Ly v ->
  (rSqueeze (siteMap s Lx Ly) u = rSqueeze (siteMap s Lx Ly) v <-> alike s Lx Ly u v).
Proof.
  intros C U V. destruct (site_map s Lx Ly C) as (I & _ & J). rewrite <- alike_spec by assumption. split.
  - intros E. destruct (I u U) as (_ & w & W1 & W2), (I v V) as (_ & w' & W1' & W2').
    rewrite E, W1' in W1. injection W1 as ->.
    apply (M_eq _ _ _ _ _ _ C V W2'). apply (M_eq _ _ _ _ _ _ C U W2). apply M_refl.
  - intros H. now apply J.
Qed.
Lemma squeeze_counts s Lx Ly v : closed s Lx Ly -> inside Lx Ly v ->
  exists l, NoDup l /\ length l = rSym (siteMap s Lx Ly) v /\ forall u, In u l <-> inside Lx Ly u /\ alike s Lx Ly u v.
Proof.
  intros C D. destruct (site_map s Lx Ly C) as (I & _ & _). destruct (I v D) as (S & _).
  exists (MirrorR s Lx Ly v). split; [apply distinct_nodup|]. split; [now rewrite S|].
  intros u. split.
  - intros H. assert (Du := M_inside _ _ _ _ _ C D H). split; [exact Du|]. now apply alike_spec.
  - intros [Du H]. now apply alike_spec.
Qed.
Lemma restore_squeezes s Lx Ly i w : closed s Lx Ly -> nth_error (rRestore (siteMap s Lx Ly)) i = Some w ->
  inside Lx Ly w /\ rSqueeze (siteMap s Lx Ly) w = i.
Proof. intros C H. destruct (site_map s Lx Ly C) as (_ & I & _). now apply I. Qed.

(** ** Compress and uncompress *)
Local Open Scope nat_scope.
Import Coquelicot.Complex.

Lemma compress_at n s Lx Ly G sp v t1 t2 : closed s Lx Ly -> inside Lx Ly v -> symmetric s Lx Ly n G -> t1 < n -> t2 < n ->
  compress n s Lx Ly G sp (rSqueeze (siteMap s Lx Ly) v) (tauSqueeze (timeMap n) t1 t2) = G sp v (Nat.min t1 t2) (Nat.max t1 t2).
Proof.
  intros C D S H1 H2. unfold compress. destruct (squeeze_restores s Lx Ly v C D) as (w & -> & Dw & A).
  destruct (time_inv n t1 t2 H1 H2) as (-> & _). apply S; try assumption; lia.
Qed.
Lemma inside_swap Lx Ly p q : inside Lx Ly (p, q) -> inside Lx Ly (q, p).
Proof. intros [A B]. split; assumption. Qed.

Lemma round_trip n s Lx Ly G sp v t1 t2 : closed s Lx Ly -> symmetric s Lx Ly n G -> exchanged Lx Ly n G ->
  inside Lx Ly v -> t1 < n -> t2 < n ->
  uncompress n s Lx Ly (compress n s Lx Ly G) sp v t1 t2 = G sp v t1 t2.
Proof.
  intros C S X D H1 H2. unfold uncompress. destruct v as [p q]. unfold swapV. cbn [fst snd].
  destruct (Nat.leb_spec t1 t2).
  - rewrite compress_at by assumption. now rewrite Nat.min_l, Nat.max_r by lia.
  - rewrite compress_at by (try assumption; now apply inside_swap). rewrite Nat.min_r, Nat.max_l by lia.
    symmetry. now apply X.
Qed.

Lemma trip_round n s Lx Ly c sp i j : closed s Lx Ly -> i < length (rRestore (siteMap s Lx Ly)) ->
  j < length (tauRestore (timeMap n)) ->
  compress n s Lx Ly (uncompress n s Lx Ly c) sp i j = c sp i j.
Proof.
  intros C Hi Hj. unfold compress. destruct (nth_error (rRestore (siteMap s Lx Ly)) i) as [w|] eqn:E; [|apply nth_error_None in E; lia].
  destruct (time_count n j Hj) as (t1 & t2 & -> & L & Q). unfold uncompress.
  destruct (Nat.leb_spec t1 t2); [|lia]. rewrite Q. now destruct (restore_squeezes s Lx Ly i w C E) as [_ ->].
Qed.

Lemma read_spec n s Lx Ly c sp v t1 t2 : closed s Lx Ly -> inside Lx Ly v -> n <= 257 -> t1 < n -> t2 < n ->
  t1 <= t2 \/ alike s Lx Ly (swapV v) v ->
  read n s Lx Ly c sp v t1 t2 = uncompress n s Lx Ly c sp v t1 t2.
Proof.
  intros C D N H1 H2 H. unfold read, uncompress. destruct (time_inv n t1 t2 H1 H2) as (_ & _ & _ & ->).
  destruct (Nat.leb_spec t1 t2) as [L|L].
  - destruct (Nat.ltb_spec t1 t2); [reflexivity|]. assert (t1 = t2) by lia. subst. unfold same.
    rewrite Nat.eqb_refl. destruct (Nat.leb_spec t2 256); [reflexivity|lia].
  - destruct (Nat.ltb_spec t1 t2); [lia|]. unfold same. destruct (Nat.eqb_spec t1 t2); [lia|]. cbn [andb Nat.eqb].
    destruct H as [H|H]; [lia|]. apply squeeze_alike in H; try assumption; [now rewrite H|].
    destruct v. now apply inside_swap.
Qed.
