(** Proofs about Lattice.v *)
From Coq Require Import ZArith List Bool Lia ZifyBool.
From Verif Require Import Base Lattice.
Import ListNotations.
Open Scope Z_scope.

(** Reversed evaluation: least significant component first. *)
Fixpoint ev (rs rv : list Z) : Z :=
  match rs, rv with
  | [], _ => 0 | _, [] => 0
  | [_], x :: _ => x
  | s :: rs', x :: rv' => ev rs' rv' * s + x
  end.
Fixpoint rvol (rs : list Z) : Z := match rs with [] => 1 | s :: r => rvol r * s end.

Lemma combine_app {A B} (a1 a2 : list A) (b1 b2 : list B) :
  length a1 = length b1 -> combine (a1 ++ a2) (b1 ++ b2) = combine a1 b1 ++ combine a2 b2.
Proof.
  revert b1. induction a1 as [|x a1 IH]; intros [|y b1] H; try discriminate; simpl; auto.
  f_equal. apply IH. now injection H.
Qed.

Definition fhorner (st vt : list Z) (a : Z) : Z :=
  fold_left (fun acc sv => acc * fst sv + snd sv) (combine st vt) a.

Lemma horner_ev s0 v0 : forall st vt, length st = length vt ->
  fhorner st vt v0 = ev (rev (s0 :: st)) (rev (v0 :: vt)).
Proof.
  intros st. induction st as [|s st IH] using rev_ind; intros vt H.
  - destruct vt; [reflexivity|discriminate].
  - destruct (exists_last (l := vt)) as [vt' [x E]].
    { intros ->. rewrite app_length in H. simpl in H. lia. }
    subst vt. rewrite !app_length in H. simpl in H.
    assert (HL : length st = length vt') by lia.
    unfold fhorner. rewrite combine_app by assumption. rewrite fold_left_app. simpl combine.
    simpl fold_left at 1. cbn [fst snd]. fold (fhorner st vt' v0). rewrite (IH vt' HL).
    change (s0 :: st ++ [s]) with ((s0 :: st) ++ [s]).
    change (v0 :: vt' ++ [x]) with ((v0 :: vt') ++ [x]).
    rewrite !rev_app_distr. simpl rev at 3 4.
    cbn [app]. cbn [rev].
    destruct (rev st) as [|? ?]; [destruct (rev vt') as [|? ?]|]; reflexivity.
Qed.

Lemma Forall2_len {A B} (P : A -> B -> Prop) l l' : Forall2 P l l' -> length l = length l'.
Proof. induction 1; simpl; auto. Qed.

Lemma Vec2Index_ev L v : length (Size L) = length v -> Size L <> [] ->
  Vec2Index L v = ev (rev (Size L)) (rev v).
Proof.
  intros H N. unfold Vec2Index. destruct (Size L) as [|s st]; [contradiction|].
  destruct v as [|x vt]; [discriminate|]. cbn [tl hd]. injection H as H.
  apply (horner_ev s x st vt H).
Qed.

Lemma Vol_rvol L : Vol L = rvol (rev (Size L)).
Proof.
  unfold Vol. induction (Size L) as [|s st IH] using rev_ind; auto.
  rewrite fold_left_app, rev_app_distr. simpl. now rewrite IH.
Qed.

Lemma ev_range rs : forall rv, rs <> [] -> Forall2 (fun s x => 0 <= x < s) rs rv ->
  0 <= ev rs rv < rvol rs.
Proof.
  induction rs as [|s rs IH]; intros rv N H; [contradiction|].
  inversion H as [|? x ? rv' Hx Hr]; subst. destruct rs as [|s' rs'].
  - inversion Hr; subst. cbn [ev rvol]. lia.
  - specialize (IH rv' ltac:(discriminate) Hr).
    change (ev (s :: s' :: rs') (x :: rv')) with (ev (s' :: rs') rv' * s + x).
    change (rvol (s :: s' :: rs')) with (rvol (s' :: rs') * s).
    set (e := ev (s' :: rs') rv') in *. set (w := rvol (s' :: rs')) in *. nia.
Qed.

Lemma i2v_ev rs : forall rv, rs <> [] -> Forall2 (fun s x => 0 <= x < s) rs rv ->
  index2vec_rev rs (ev rs rv) = Ok rv.
Proof.
  induction rs as [|s rs IH]; intros rv N H; [contradiction|].
  inversion H as [|? x ? rv' Hx Hr]; subst. destruct rs as [|s' rs'].
  - inversion Hr; subst. reflexivity.
  - pose proof (ev_range (s' :: rs') rv' ltac:(discriminate) Hr) as HR.
    specialize (IH rv' ltac:(discriminate) Hr).
    change (ev (s :: s' :: rs') (x :: rv')) with (ev (s' :: rs') rv' * s + x).
    remember (s' :: rs') as r. set (e := ev r rv') in *.
    assert (Eq : Z.quot (e * s + x) s = e).
    { rewrite Z.quot_div_nonneg by nia. symmetry. apply Z.div_unique with x; lia. }
    assert (Er : Z.rem (e * s + x) s = x).
    { rewrite Z.rem_mod_nonneg by nia. symmetry. apply Z.mod_unique with e; lia. }
    cbn [index2vec_rev]. subst r. cbv beta iota. destruct (Z.eqb_spec s 0); [lia|].
    rewrite Eq, IH, Er. reflexivity.
Qed.

Lemma i2v_onto rs : forall i, rs <> [] -> Forall (fun s => 0 < s) rs -> 0 <= i < rvol rs ->
  exists rv, index2vec_rev rs i = Ok rv /\ Forall2 (fun s x => 0 <= x < s) rs rv /\ ev rs rv = i.
Proof.
  induction rs as [|s rs IH]; intros i N HP Hi; [contradiction|].
  inversion HP as [|? ? Hs Hp]; subst. destruct rs as [|s' rs'].
  - exists [i]. cbn [rvol] in Hi. split; [reflexivity|]. split; [|reflexivity]. constructor; [lia|constructor].
  - change (rvol (s :: s' :: rs')) with (rvol (s' :: rs') * s) in Hi.
    assert (Hq : 0 <= i / s < rvol (s' :: rs')).
    { split; [apply Z.div_pos; lia|]. apply Z.div_lt_upper_bound; [lia|]. rewrite Z.mul_comm. lia. }
    destruct (IH (i / s) ltac:(discriminate) Hp Hq) as [rv [E1 [E2 E3]]].
    exists (i mod s :: rv). cbn [index2vec_rev].
    destruct (Z.eqb_spec s 0); [lia|].
    rewrite (Z.quot_div_nonneg i s), (Z.rem_mod_nonneg i s) by lia. cbn [index2vec_rev] in E1. rewrite E1. split; [reflexivity|].
    split.
    + constructor; auto. apply Z.mod_pos_bound; lia.
    + change (ev (s :: s' :: rs') (i mod s :: rv)) with (ev (s' :: rs') rv * s + i mod s).
      rewrite E3. pose proof (Z.div_mod i s). lia.
Qed.

Lemma Forall2_rev {A B} (P : A -> B -> Prop) l l' : Forall2 P l l' -> Forall2 P (rev l) (rev l').
Proof.
  induction 1; simpl; auto. apply Forall2_app; auto.
Qed.

Lemma vec_ok_size L v : Size L <> [] -> vec_ok L v ->
  length (Size L) = length v /\ Forall (fun s => 0 < s) (Size L).
Proof.
  intros _ H. split; [eapply Forall2_len; eauto|].
  unfold vec_ok in H. induction H; constructor; auto. lia.
Qed.

Lemma rev_nonnil {A} (l : list A) : l <> [] -> rev l <> [].
Proof. intros H E. apply H. rewrite <- (rev_involutive l), E. reflexivity. Qed.

Lemma Vec2Index_range L v : Size L <> [] -> vec_ok L v -> 0 <= Vec2Index L v < Vol L.
Proof.
  intros N H. destruct (vec_ok_size L v N H) as [HL _].
  rewrite Vec2Index_ev, Vol_rvol by auto.
  apply ev_range; [now apply rev_nonnil|now apply Forall2_rev].
Qed.
Lemma Index2Vec_Vec2Index L v : Size L <> [] -> vec_ok L v -> Index2Vec L (Vec2Index L v) = Ok v.
Proof.
  intros N H. destruct (vec_ok_size L v N H) as [HL _]. unfold Index2Vec.
  rewrite Vec2Index_ev by auto.
  rewrite i2v_ev by (try apply rev_nonnil; auto; now apply Forall2_rev).
  simpl. now rewrite rev_involutive.
Qed.
Lemma Index2Vec_onto L i : Size L <> [] -> Forall (fun s => 0 < s) (Size L) -> 0 <= i < Vol L ->
  exists v, vec_ok L v /\ Index2Vec L i = Ok v /\ Vec2Index L v = i.
Proof.
  intros N HP Hi. rewrite Vol_rvol in Hi.
  destruct (i2v_onto (rev (Size L)) i (rev_nonnil _ N) (Forall_rev HP) Hi) as [rv [E1 [E2 E3]]].
  exists (rev rv).
  assert (V : vec_ok L (rev rv)).
  { unfold vec_ok. rewrite <- (rev_involutive (Size L)). now apply Forall2_rev. }
  split; [exact V|]. split.
  - unfold Index2Vec. now rewrite E1.
  - rewrite Vec2Index_ev; auto; [|apply (vec_ok_size L _ N V)].
    now rewrite rev_involutive.
Qed.

Lemma lattice_bijection : forall L, Size L <> [] -> Forall (fun s => 0 < s) (Size L) ->
  (forall v, vec_ok L v -> 0 <= Vec2Index L v < Vol L /\ Index2Vec L (Vec2Index L v) = Ok v) /\
  (forall i, 0 <= i < Vol L ->
     exists v, vec_ok L v /\ Index2Vec L i = Ok v /\ Vec2Index L v = i).
Proof.
  intros L N HP. split.
  - intros v H. split; [now apply Vec2Index_range|now apply Index2Vec_Vec2Index].
  - intros i Hi. now apply Index2Vec_onto.
Qed.

(** ** CoordiIndex *)
Lemma shift1_mod s x : 0 < s -> - s < x < s -> shift1 s x = x mod s.
Proof.
  intros Hs Hx. unfold shift1. cbv zeta.
  destruct (Z.ltb_spec x 0).
  - replace (x mod s) with (x + s) by (apply Z.mod_unique with (-1); lia).
    destruct (x + s >=? s) eqn:E; lia.
  - rewrite Z.mod_small by lia. destruct (x >=? s) eqn:E; lia.
Qed.

(** the displacement modulo the lattice size, component by component *)
Fixpoint disp (sz a b : list Z) : list Z :=
  match sz, a, b with
  | s :: sz', x :: a', y :: b' => (y - x) mod s :: disp sz' a' b'
  | _, _, _ => []
  end.

Lemma LShift_disp L a b : vec_ok L a -> vec_ok L b -> LShift L (vec_sub b a) = disp (Size L) a b.
Proof.
  unfold vec_ok, LShift, vec_sub. intros Ha. revert b.
  induction Ha as [|s x sz a Hx Ha IH]; intros b Hb; inversion Hb as [|? y ? b' Hy Hb']; subst; simpl; auto.
  rewrite shift1_mod by lia. f_equal. now apply IH.
Qed.
Lemma disp_ok L a b : vec_ok L a -> vec_ok L b -> vec_ok L (disp (Size L) a b).
Proof.
  unfold vec_ok. intros Ha. revert b.
  induction Ha as [|s x sz a Hx Ha IH]; intros b Hb; inversion Hb as [|? y ? b' Hy Hb']; subst; simpl; auto.
  constructor; auto. apply Z.mod_pos_bound. lia.
Qed.
Lemma disp_zero L a b : vec_ok L a -> vec_ok L b ->
  (disp (Size L) a b = map (fun _ => 0) (Size L) <-> a = b).
Proof.
  unfold vec_ok. intros Ha. revert b.
  induction Ha as [|s x sz a Hx Ha IH]; intros b Hb; inversion Hb as [|? y ? b' Hy Hb']; subst; simpl.
  - tauto.
  - rewrite <- shift1_mod by lia. specialize (IH b' Hb'). split.
    + intros E. injection E as E1 E2. apply IH in E2. subst.
      rewrite shift1_mod in E1 by lia.
      assert (y - x = 0).
      { destruct (Z.eq_dec (y - x) 0); auto. exfalso.
        pose proof (Z.div_mod (y - x) s). assert ((y-x)/s = 0 \/ (y-x)/s <= -1 \/ (y-x)/s >= 1) by lia. nia. }
      f_equal. lia.
    + intros E. injection E as -> ->. f_equal; [|now apply IH].
      rewrite shift1_mod by lia. rewrite Z.sub_diag. apply Z.mod_0_l. lia.
Qed.

(** translation by t: every coordinate moved by the same amount modulo the size *)
Fixpoint trans (sz t a : list Z) : list Z :=
  match sz, t, a with
  | s :: sz', d :: t', x :: a' => (x + d) mod s :: trans sz' t' a'
  | _, _, _ => []
  end.
Lemma trans_ok L t a : vec_ok L a -> length t = length (Size L) -> vec_ok L (trans (Size L) t a).
Proof.
  unfold vec_ok. intros Ha. revert t.
  induction Ha as [|s x sz a Hx Ha IH]; intros [|d t] HL; try discriminate; simpl; constructor.
  - apply Z.mod_pos_bound; lia.
  - apply IH. now injection HL.
Qed.
Lemma disp_trans L t a b : vec_ok L a -> vec_ok L b -> length t = length (Size L) ->
  disp (Size L) (trans (Size L) t a) (trans (Size L) t b) = disp (Size L) a b.
Proof.
  unfold vec_ok. intros Ha. revert b t.
  induction Ha as [|s x sz a Hx Ha IH]; intros b [|d t] Hb HL; inversion Hb as [|? y ? b' Hy Hb']; subst; try discriminate; simpl; auto.
  f_equal.
  - rewrite <- Zminus_mod. f_equal. lia.
  - apply IH; auto.
Qed.

Lemma Vec2Index_inj L u v : Size L <> [] -> vec_ok L u -> vec_ok L v -> Vec2Index L u = Vec2Index L v -> u = v.
Proof.
  intros N Hu Hv E. pose proof (Index2Vec_Vec2Index L u N Hu) as A.
  rewrite E, (Index2Vec_Vec2Index L v N Hv) in A. now injection A.
Qed.
Lemma zeros_ok L : Forall (fun s => 0 < s) (Size L) -> vec_ok L (map (fun _ => 0) (Size L)).
Proof. unfold vec_ok. induction 1; simpl; constructor; auto. lia. Qed.
Lemma horner0 : forall sz, fhorner sz (map (fun _ => 0) sz) 0 = 0.
Proof. unfold fhorner. induction sz as [|s sz IH]; simpl; auto. Qed.
Lemma Vec2Index_zeros L : Size L <> [] -> Vec2Index L (map (fun _ => 0) (Size L)) = 0.
Proof.
  intros N. unfold Vec2Index. destruct (Size L) as [|s sz]; [contradiction|]. simpl tl. simpl hd.
  apply horner0.
Qed.

Lemma CoordiIndex_disp L a b : vec_ok L (coord a) -> vec_ok L (coord b) ->
  CoordiIndex L a b = Vec2Index L (disp (Size L) (coord a) (coord b)).
Proof. intros. unfold CoordiIndex. now rewrite LShift_disp. Qed.
Lemma CoordiIndex_range L a b : Size L <> [] -> vec_ok L (coord a) -> vec_ok L (coord b) ->
  0 <= CoordiIndex L a b < Vol L.
Proof. intros. rewrite CoordiIndex_disp by auto. apply Vec2Index_range; auto. now apply disp_ok. Qed.

Lemma coordi_spec : forall L, Size L <> [] -> forall a b, vec_ok L (coord a) -> vec_ok L (coord b) ->
  (0 <= CoordiIndex L a b < Vol L /\ Index2Vec L (CoordiIndex L a b) = Ok (disp (Size L) (coord a) (coord b))) /\
  (CoordiIndex L a b = 0 <-> coord a = coord b) /\
  (forall a' b', vec_ok L (coord a') -> vec_ok L (coord b') ->
     (CoordiIndex L a b = CoordiIndex L a' b' <->
      disp (Size L) (coord a) (coord b) = disp (Size L) (coord a') (coord b'))) /\
  (forall t sa sb, length t = length (Size L) ->
     CoordiIndex L (mkSite sa (trans (Size L) t (coord a))) (mkSite sb (trans (Size L) t (coord b)))
     = CoordiIndex L a b).
Proof.
  intros L N a b Ha Hb. split; [split|split; [|split]].
  - now apply CoordiIndex_range.
  - rewrite CoordiIndex_disp by auto. apply Index2Vec_Vec2Index; auto. now apply disp_ok.
  - rewrite CoordiIndex_disp by auto. destruct (vec_ok_size L _ N Ha) as [_ HP]. split.
    + intros E. apply (disp_zero L); auto. apply (Vec2Index_inj L); auto using disp_ok, zeros_ok.
      now rewrite Vec2Index_zeros.
    + intros E. apply (disp_zero L) in E; auto. now rewrite E, Vec2Index_zeros.
  - intros a' b' Ha' Hb'. rewrite !CoordiIndex_disp by auto. split; [|congruence].
    intros E. apply (Vec2Index_inj L); auto using disp_ok.
  - intros t sa sb HL. rewrite !CoordiIndex_disp; simpl coord; auto using trans_ok.
    now rewrite disp_trans.
Qed.
