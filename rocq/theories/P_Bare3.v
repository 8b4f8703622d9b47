(** * Proofs for C135, C136: the bare interaction. *)
Require Import Reals ZArith List Arith Bool Lra Lia Psatz Permutation.
From Coquelicot Require Complex.
Require Import Verif.FirstOrder Verif.BareModel Verif.BareSpec Verif.P_Bare Verif.P_Bare2.
Require Import Verif.PyIndex Verif.P_PyIndex.
Import ListNotations.
Import Coquelicot.Complex.
Local Open Scope R_scope.

(** ** Indices of cells *)

Lemma idx_zrank L c : L <> [] -> cell L c -> pyCoordiIndex L c = zrank L c.
Proof.
  intros N H. destruct H as [|l x L c Hx H]; [congruence|].
  unfold pyCoordiIndex. cbn [tl hd]. rewrite horner_zrank by (now apply F2len in H).
  reflexivity.
Qed.

Lemma zprod_fold L : fold_right Z.mul 1%Z L = zprod L.
Proof. induction L as [|l L IH]; [reflexivity|]. cbn. now rewrite IH. Qed.

Lemma cell_pos L c : cell L c -> (0 < zprod L)%Z.
Proof. induction 1; cbn [zprod]; nia. Qed.

Lemma zrank_range L c : cell L c -> (0 <= zrank L c < zprod L)%Z.
Proof.
  induction 1 as [|l x L c Hx H IH]; cbn [zrank zprod]; [lia|]. pose proof (cell_pos L c H). nia.
Qed.

Lemma zrank_inj L c : cell L c -> forall e, cell L e -> zrank L c = zrank L e -> c = e.
Proof.
  induction 1 as [|l x L c Hx H IH]; intros e He E; inversion He as [|? y ? e' Hy He']; subst; [reflexivity|].
  cbn [zrank] in E. pose proof (zrank_range L c H). pose proof (zrank_range L e' He').
  assert (x = y) by nia. subst y. f_equal. apply IH; [exact He'|]. nia.
Qed.

Lemma idx_eq L c e : L <> [] -> cell L c -> cell L e ->
  Z.eqb (Z.of_nat (Z.to_nat (pyCoordiIndex L c))) (pyCoordiIndex L e) = true <-> e = c.
Proof.
  intros N Hc He. rewrite !idx_zrank by assumption. pose proof (zrank_range L c Hc).
  rewrite Z2Nat.id by lia. rewrite Z.eqb_eq. split; [|now intros ->].
  intros E. symmetry. now apply (zrank_inj L).
Qed.

Lemma wrap_cell L v : length v = length L -> Forall (fun l => (1 <= l)%Z) L -> cell L (wrap L v).
Proof.
  revert v. induction L as [|l L IH]; intros [|x v] E F; try discriminate; [constructor|].
  inversion_clear F. cbn. constructor; [cbn; apply Z.mod_pos_bound; lia|]. apply IH; [now injection E|assumption].
Qed.

Lemma torus_pos n m L : (1 <= m)%Z -> torus n m L -> Forall (fun l => (1 <= l)%Z) L.
Proof. intros Hm [_ F]. eapply Forall_impl; [|exact F]. cbn. intros; lia. Qed.

Lemma torus_nil n m L : torus n m L -> L <> [].
Proof. intros [E _] ->. destruct n; discriminate. Qed.

(** ** What the statements do *)

Definition hit (L : list Z) (c : list Z) (i j : nat) (w : write) : bool :=
  Nat.eqb i (w_i w) && Nat.eqb j (w_j w) && zl_eqb (w_e w) c.

Definition part (L c : list Z) (a i b j : nat) (w : write) : C :=
  if hit L c i j w then Cmult (RtoC (w_J w)) (w_M w a b) else RtoC 0.

Definition csums (l : list C) : C := fold_right Cplus (RtoC 0) l.

Lemma zl_eqb_eq u v : zl_eqb u v = true <-> u = v.
Proof. unfold zl_eqb. destruct (list_eq_dec Z.eq_dec u v); split; congruence. Qed.

Lemma csums_app l m : csums (l ++ m) = Cplus (csums l) (csums m).
Proof.
  induction l as [|x l IH]; cbn; [now rewrite Cplus_0_l|]. unfold csums in IH. rewrite IH. apply Cplus_assoc.
Qed.

Lemma doWrites_ok L ws D : L <> [] -> Forall (fun w => cell L (w_e w)) ws ->
  fst (doWrites L ws D) = true /\
  forall a i b j c, cell L c ->
  snd (doWrites L ws D) a i b j (Z.to_nat (pyCoordiIndex L c))
  = Cplus (D a i b j (Z.to_nat (pyCoordiIndex L c))) (csums (map (part L c a i b j) ws)).
Proof.
  intros N F. revert D. induction F as [|w ws Hw F IH]; intros D; cbn [doWrites].
  - split; [reflexivity|]. intros. cbn. now rewrite Cplus_0_r.
  - unfold doWrite. rewrite zprod_fold. pose proof (zrank_range L _ Hw) as R.
    rewrite <- (idx_zrank L _ N Hw) in R.
    assert (E : (pyCoordiIndex L (w_e w) <? zprod L)%Z = true) by (apply Z.ltb_lt; lia).
    rewrite E. specialize (IH (fun a i b j r =>
      if Nat.eqb i (w_i w) && Nat.eqb j (w_j w) && Z.eqb (Z.of_nat r) (pyCoordiIndex L (w_e w))
      then Cplus (D a i b j r) (Cmult (RtoC (w_J w)) (w_M w a b)) else D a i b j r)).
    destruct IH as [A B]. split; [exact A|]. intros a i b j c Hc. rewrite B by exact Hc.
    cbn [map]. change (csums (?x :: ?l)) with (Cplus x (csums l)). rewrite Cplus_assoc. f_equal.
    unfold part, hit.
    assert (K : Z.eqb (Z.of_nat (Z.to_nat (pyCoordiIndex L c))) (pyCoordiIndex L (w_e w)) = zl_eqb (w_e w) c).
    { apply eq_true_iff_eq. rewrite idx_eq by assumption. now rewrite zl_eqb_eq. }
    rewrite K. destruct (Nat.eqb i (w_i w) && Nat.eqb j (w_j w) && zl_eqb (w_e w) c); [reflexivity|].
    now rewrite Cplus_0_r.
Qed.

(** One shell adds J SS as often as the cell is in the table. *)
Lemma shell_sum L c tab J i' j' a i b j :
  csums (map (part L c a i b j) (shellWrites tab J i' j'))
  = if Nat.eqb i i' && Nat.eqb j j' then Cmult (RtoC (INR (occ c (tab i j)) * J)) (SS a b) else RtoC 0.
Proof.
  unfold shellWrites. rewrite map_map. unfold part, hit. cbn [w_i w_j w_e w_J w_M].
  destruct (Nat.eqb i i') eqn:E1; [destruct (Nat.eqb j j') eqn:E2|]; cbn [andb].
  - apply Nat.eqb_eq in E1, E2. subst i' j'. unfold occ.
    induction (tab i j) as [|e l IH]; cbn [map count_occ].
    + cbn. apply injective_projections; cbn; ring.
    + change (csums (?x :: ?l)) with (Cplus x (csums l)). rewrite IH. unfold zl_eqb.
      destruct (list_eq_dec Z.eq_dec e c).
      * rewrite S_INR. apply injective_projections; cbn; ring.
      * now rewrite Cplus_0_l.
  - induction (tab i' j') as [|e l IH]; [reflexivity|]. cbn [map]. change (csums (?x :: ?l)) with (Cplus x (csums l)).
    rewrite IH. apply Cplus_0_l.
  - induction (tab i' j') as [|e l IH]; [reflexivity|]. cbn [map]. change (csums (?x :: ?l)) with (Cplus x (csums l)).
    rewrite IH. apply Cplus_0_l.
Qed.

Lemma csums_flat {A} (f : A -> list C) l : csums (flat_map f l) = csums (map (fun x => csums (f x)) l).
Proof.
  induction l as [|x l IH]; [reflexivity|]. cbn [flat_map map]. rewrite csums_app, IH. reflexivity.
Qed.

Lemma csums_map_flat {A B} (g : B -> C) (f : A -> list B) l :
  csums (map g (flat_map f l)) = csums (map (fun x => csums (map g (f x))) l).
Proof.
  induction l as [|x l IH]; [reflexivity|]. cbn [flat_map map]. rewrite map_app, csums_app, IH. reflexivity.
Qed.

Lemma csums_pick (m : nat) (i : nat) (z : C) k :
  csums (map (fun x => if Nat.eqb i x then z else RtoC 0) (seq k m))
  = if Nat.leb k i && Nat.ltb i (k + m) then z else RtoC 0.
Proof.
  revert k. induction m as [|m IH]; intros k; cbn [seq map].
  - replace (Nat.leb k i && Nat.ltb i (k + 0)) with false; [reflexivity|]. symmetry. apply not_true_iff_false.
    rewrite andb_true_iff, Nat.leb_le, Nat.ltb_lt. lia.
  - change (csums (?x :: ?l)) with (Cplus x (csums l)). rewrite IH.
    destruct (Nat.eqb_spec i k).
    + subst k. replace (Nat.leb (S i) i) with false by (symmetry; apply Nat.leb_gt; lia).
      replace (Nat.leb i i) with true by (symmetry; apply Nat.leb_le; lia).
      replace (Nat.ltb i (i + S m)) with true by (symmetry; apply Nat.ltb_lt; lia).
      cbn [andb]. now rewrite Cplus_0_r.
    + rewrite Cplus_0_l. replace (Nat.leb (S k) i && Nat.ltb i (S k + m)) with (Nat.leb k i && Nat.ltb i (k + S m)); [reflexivity|].
      apply eq_true_iff_eq. rewrite !andb_true_iff, !Nat.leb_le, !Nat.ltb_lt. lia.
Qed.

(** What a bond between the cells adds up to. *)
Definition bond (n : latName) (L : list Z) (J : nat -> R) (i j : nat) (c : list Z) : R :=
  INR (occ c (nearest n L i j)) * J 0%nat + INR (occ c (nextNearestTable n L i j)) * J 1%nat
  + INR (occ c (nextNextNearest n L i j)) * J 2%nat.

Definition extra (n : latName) (J : nat -> R) (i j : nat) (c : list Z) : R :=
  match n with
  | ValenceBond => if negb (Nat.eqb i j) && zl_eqb c [0; 0]%Z then J 3%nat else 0
  | _ => 0
  end.

Lemma writes_cells n L J : torus n 2 L -> (n = Triangular -> torus n 3 L) ->
  Forall (fun w => cell L (w_e w)) (spinWrites (OnLattice n) L J).
Proof.
  intros HL HT. cbn [spinWrites]. apply Forall_app. split.
  - apply Forall_forall. intros w Hw. apply in_flat_map in Hw. destruct Hw as [i [Hi Hw]].
    apply in_flat_map in Hw. destruct Hw as [j [Hj Hw]]. apply in_seq in Hi, Hj.
    assert (Hi' : (i < NSublat n)%nat) by lia. assert (Hj' : (j < NSublat n)%nat) by lia.
    destruct (offs_spec n i j Hi' Hj') as (G1 & G2 & G3 & _).
    apply offGood_spec in G1, G2, G3. destruct G1 as [_ G1], G2 as [_ G2], G3 as [_ G3].
    assert (K : forall v, length v = Dim n -> cell L (wrap L v)).
    { intros v Hv. apply wrap_cell; [|apply (torus_pos n 2); [lia|exact HL]]. destruct HL as [-> _]. exact Hv. }
    rewrite !in_app_iff in Hw. unfold shellWrites in Hw. rewrite !in_map_iff in Hw.
    destruct Hw as [[e [<- He]]|[[e [<- He]]|[e [<- He]]]]; cbn [w_e].
    + rewrite (wrapped1 n i j L HL Hi' Hj') in He. apply in_map_iff in He. destruct He as [v [<- Hv]]. apply K, G1, Hv.
    + rewrite (wrapped2 n i j L HL HT Hi' Hj') in He. apply in_map_iff in He. destruct He as [v [<- Hv]]. apply K, G2, Hv.
    + rewrite (wrapped3 n i j L HL Hi' Hj') in He. apply in_map_iff in He. destruct He as [v [<- Hv]]. apply K, G3, Hv.
  - destruct n; try constructor; destruct HL as [E F]; destruct L as [|lx [|ly [|]]]; try discriminate E;
    inversion_clear F as [|? ? F1 F2]; inversion_clear F2 as [|? ? F3 F4];
    repeat constructor; cbn; lia.
Qed.

Lemma bareW_law n L Interaction : torus n 2 L -> (n = Triangular -> torus n 3 L) ->
  let J k := nth k Interaction 0 in
  fst (bareW (OnLattice n) L Interaction) = true /\
  forall a i b j c, (i < NSublat n)%nat -> (j < NSublat n)%nat -> cell L c ->
  snd (bareW (OnLattice n) L Interaction) a i b j (Z.to_nat (pyCoordiIndex L c))
  = Cmult (RtoC (bond n L J i j c + extra n J i j c)) (SS a b).
Proof.
  intros HL HT J.
  assert (E0 : bareW (OnLattice n) L Interaction
    = doWrites L (spinWrites (OnLattice n) L Interaction) (fun _ _ _ _ _ => RtoC 0)).
  { unfold bareW. destruct n; try reflexivity. destruct HL as [E F]. destruct L as [|lx [|]]; try discriminate E.
    inversion_clear F. cbn [nth]. apply Z.leb_le in H. now rewrite H. }
  rewrite E0. destruct (doWrites_ok L (spinWrites (OnLattice n) L Interaction) (fun _ _ _ _ _ => RtoC 0)
    (torus_nil n 2 L HL) (writes_cells n L Interaction HL HT)) as [A B].
  split; [exact A|]. intros a i b j c Hi Hj Hc. rewrite B by exact Hc. rewrite Cplus_0_l.
  cbn [spinWrites]. rewrite map_app, csums_app.
  transitivity (Cplus (Cmult (RtoC (bond n L J i j c)) (SS a b)) (Cmult (RtoC (extra n J i j c)) (SS a b)));
    [|generalize (SS a b); intros z; apply injective_projections; cbn; ring].
  f_equal.
  - rewrite csums_map_flat.
    rewrite (map_ext _ (fun i' => if Nat.eqb i i' then Cmult (RtoC (bond n L J i j c)) (SS a b) else RtoC 0)).
    + rewrite csums_pick. replace (Nat.leb 0 i && Nat.ltb i (0 + NSublat n)) with true; [reflexivity|].
      symmetry. rewrite andb_true_iff, Nat.leb_le, Nat.ltb_lt. lia.
    + intros i'. rewrite csums_map_flat.
      rewrite (map_ext _ (fun j' => if Nat.eqb j j' then (if Nat.eqb i i' then Cmult (RtoC (bond n L J i j c)) (SS a b) else RtoC 0) else RtoC 0)).
      * rewrite csums_pick. replace (Nat.leb 0 j && Nat.ltb j (0 + NSublat n)) with true; [reflexivity|].
        symmetry. rewrite andb_true_iff, Nat.leb_le, Nat.ltb_lt. lia.
      * intros j'. rewrite !map_app, !csums_app, !shell_sum.
        destruct (Nat.eqb i i'), (Nat.eqb j j'); cbn [andb]; [|now rewrite !Cplus_0_l..].
        unfold bond. fold (J 0%nat) (J 1%nat) (J 2%nat). generalize (INR (occ c (nearest n L i j))) (INR (occ c (nextNearestTable n L i j))) (INR (occ c (nextNextNearest n L i j))) (J 0%nat) (J 1%nat) (J 2%nat) (SS a b).
        intros o1 o2 o3 j1 j2 j3 z. apply injective_projections; cbn; ring.
  - destruct n; cbn [extra]; try (cbn [map csums fold_right]; generalize (SS a b); intros z; apply injective_projections; cbn; ring).
    cbn in Hi, Hj. cbn [map]. unfold part, hit. cbn [w_i w_j w_e w_J w_M].
    assert (Ez : zl_eqb [0; 0]%Z c = zl_eqb c [0; 0]%Z).
    { apply eq_true_iff_eq. rewrite !zl_eqb_eq. split; congruence. }
    rewrite Ez.
    destruct i as [|[|i]]; [| |lia]; (destruct j as [|[|j]]; [| |lia]); cbn [Nat.eqb andb negb];
    destruct (zl_eqb c [0; 0]%Z); cbn [csums fold_right]; fold (J 3%nat); generalize (J 3%nat) (SS a b); intros j3 z; apply injective_projections; cbn; ring.
Qed.

(** ** The two ends *)

Definition negs (l : list (list Z)) : list (list Z) := map (map Z.opp) l.

Definition incl_b (l m : list (list Z)) : bool := forallb (fun v => inb v m) l.

Definition flipOk (n : latName) : bool :=
  forallb (fun ij => let i := fst ij in let j := snd ij in
    incl_b (negs (off1 n i j)) (off1 n j i) && incl_b (off1 n j i) (negs (off1 n i j)) &&
    incl_b (negs (off2 n i j)) (off2 n j i) && incl_b (off2 n j i) (negs (off2 n i j)) &&
    incl_b (negs (off3 n i j)) (off3 n j i) && incl_b (off3 n j i) (negs (off3 n i j))) (pairs n).

Lemma flip_ok n : flipOk n = true.
Proof. destruct n; vm_compute; reflexivity. Qed.

Lemma incl_b_spec l m : incl_b l m = true -> incl l m.
Proof. unfold incl_b. rewrite forallb_forall. intros H v Hv. apply inb_In. now apply H. Qed.

Lemma opp_inj u v : map Z.opp u = map Z.opp v -> u = v.
Proof.
  revert v. induction u as [|x u IH]; intros [|y v] E; try discriminate; [reflexivity|].
  injection E as E1 E2. f_equal; [lia|now apply IH].
Qed.

Lemma negs_nodup l : NoDup l -> NoDup (negs l).
Proof. apply FinFun.Injective_map_NoDup. exact opp_inj. Qed.

Lemma perm_of (l m : list (list Z)) : NoDup l -> NoDup m -> incl l m -> incl m l -> Permutation l m.
Proof. intros. apply NoDup_Permutation; try assumption. intros v. split; auto. Qed.

Lemma flip_spec n i j : (i < NSublat n)%nat -> (j < NSublat n)%nat ->
  Permutation (negs (off1 n i j)) (off1 n j i) /\
  Permutation (negs (off2 n i j)) (off2 n j i) /\ Permutation (negs (off3 n i j)) (off3 n j i).
Proof.
  intros Hi Hj. pose proof (flip_ok n) as H. unfold flipOk in H. rewrite forallb_forall in H.
  specialize (H _ (pairs_in n i j Hi Hj)). cbn [fst snd] in H. cbv zeta in H. rewrite !andb_true_iff in H.
  destruct H as [[[[[A1 A2] B1] B2] D1] D2].
  destruct (offs_spec n i j Hi Hj) as (G1 & G2 & G3 & _). destruct (offs_spec n j i Hj Hi) as (K1 & K2 & K3 & _).
  apply offGood_spec in G1, G2, G3, K1, K2, K3.
  split; [|split]; apply perm_of; try (apply negs_nodup); try tauto; now apply incl_b_spec.
Qed.

Lemma wrap_opp L v : Forall (fun l => (1 <= l)%Z) L -> wrap L (map Z.opp v) = back L (wrap L v).
Proof.
  unfold back. revert v. induction L as [|l L IH]; intros [|x v] F; try reflexivity.
  inversion_clear F. cbn. f_equal; [|now apply IH]. cbn.
  rewrite <- (Z.sub_0_l x), <- (Z.sub_0_l (x mod l)). now rewrite Zminus_mod_idemp_r.
Qed.

Lemma wrap_id L c : cell L c -> wrap L c = c.
Proof.
  induction 1 as [|l x L c Hx H IH]; [reflexivity|]. cbn. f_equal; [|exact IH]. cbn. now apply Z.mod_small.
Qed.

Lemma F2_length L c : cell L c -> length c = length L.
Proof. induction 1; cbn; congruence. Qed.

Lemma back_cell L c : Forall (fun l => (1 <= l)%Z) L -> cell L c -> cell L (back L c).
Proof.
  intros F H. apply wrap_cell; [|exact F]. rewrite map_length. now apply F2_length.
Qed.

Lemma back_back L c : Forall (fun l => (1 <= l)%Z) L -> cell L c -> back L (back L c) = c.
Proof.
  intros F H. rewrite <- (wrap_id L c H) at 1. rewrite <- wrap_opp by exact F.
  rewrite <- wrap_opp by exact F. rewrite map_map.
  rewrite (map_ext _ (fun x => x)) by (intros; lia). rewrite map_id. now apply wrap_id.
Qed.

Lemma occ_map L l c : Forall (fun l => (1 <= l)%Z) L -> cell L c -> (forall v, In v l -> length v = length L) ->
  occ (back L c) (map (wrap L) (negs l)) = occ c (map (wrap L) l).
Proof.
  intros F Hc Hl. unfold occ. induction l as [|v l IH]; [reflexivity|].
  cbn [negs map count_occ]. rewrite wrap_opp by exact F.
  assert (Hv : cell L (wrap L v)) by (apply wrap_cell; [apply Hl; now left|exact F]).
  destruct (list_eq_dec Z.eq_dec (back L (wrap L v)) (back L c)) as [E|E],
           (list_eq_dec Z.eq_dec (wrap L v) c) as [E'|E'].
  - f_equal. apply IH. intros; apply Hl; now right.
  - exfalso. apply E'. rewrite <- (back_back L _ F Hv), E. now apply back_back.
  - exfalso. apply E. now rewrite E'.
  - apply IH. intros; apply Hl; now right.
Qed.

Lemma occ_perm c l m : Permutation l m -> occ c l = occ c m.
Proof. intros P. unfold occ. apply (Permutation_count_occ (list_eq_dec Z.eq_dec)). exact P. Qed.

Lemma bond_flip n L J i j c : torus n 2 L -> (n = Triangular -> torus n 3 L) ->
  (i < NSublat n)%nat -> (j < NSublat n)%nat -> cell L c ->
  bond n L J i j c = bond n L J j i (back L c).
Proof.
  intros HL HT Hi Hj Hc. unfold bond.
  destruct (flip_spec n i j Hi Hj) as (P1 & P2 & P3).
  destruct (offs_spec n i j Hi Hj) as (G1 & G2 & G3 & _). apply offGood_spec in G1, G2, G3.
  pose proof (torus_pos n 2 L ltac:(lia) HL) as F. pose proof (proj1 HL) as E.
  rewrite !(wrapped1 n _ _ L HL) by assumption. rewrite !(wrapped2 n _ _ L HL HT) by assumption.
  rewrite !(wrapped3 n _ _ L HL) by assumption.
  rewrite <- (occ_perm _ _ _ (Permutation_map (wrap L) P1)), <- (occ_perm _ _ _ (Permutation_map (wrap L) P2)),
    <- (occ_perm _ _ _ (Permutation_map (wrap L) P3)).
  rewrite !occ_map; try assumption; [reflexivity|..]; intros v Hv; rewrite E; [apply G3|apply G2|apply G1]; exact Hv.
Qed.

Lemma extra_flip n L J i j c : torus n 2 L -> cell L c -> extra n J i j c = extra n J j i (back L c).
Proof.
  intros HL Hc. destruct n; cbn [extra]; try reflexivity. rewrite (Nat.eqb_sym j i).
  pose proof (torus_pos _ 2 L ltac:(lia) HL) as F.
  assert (E : zl_eqb c [0; 0]%Z = zl_eqb (back L c) [0; 0]%Z).
  { apply eq_true_iff_eq. rewrite !zl_eqb_eq.
    assert (Z0 : back L [0; 0]%Z = [0; 0]%Z).
    { destruct HL as [El _]. destruct L as [|lx [|ly [|]]]; try discriminate El. cbn -[Z.modulo]. now rewrite !Zmod_0_l. }
    split; intros H; [now rewrite H|]. rewrite <- (back_back L c F Hc), H. exact Z0. }
  now rewrite E.
Qed.

Lemma SS_sym a b : SS a b = SS b a.
Proof. unfold SS, outer. rewrite (Cmult_comm (Sx a)), (Cmult_comm (Sy a)), (Cmult_comm (Sz a)). reflexivity. Qed.

Lemma symmetric_law n L Interaction : torus n 2 L -> (n = Triangular -> torus n 3 L) ->
  forall a i b j c, (i < NSublat n)%nat -> (j < NSublat n)%nat -> cell L c ->
  let W := snd (bareW (OnLattice n) L Interaction) in
  W a i b j (Z.to_nat (pyCoordiIndex L c)) = W b j a i (Z.to_nat (pyCoordiIndex L (back L c))).
Proof.
  intros HL HT a i b j c Hi Hj Hc W. unfold W. destruct (bareW_law n L Interaction HL HT) as [_ H].
  rewrite (H a i b j c Hi Hj Hc).
  rewrite (H b j a i (back L c) Hj Hi (back_cell L c (torus_pos n 2 L ltac:(lia) HL) Hc)).
  rewrite (bond_flip n L _ i j c HL HT Hi Hj Hc), (extra_flip n L _ i j c HL Hc), (SS_sym a b). reflexivity.
Qed.

(** ** Spin *)

Lemma SS_swap s t u v : (s < 2)%nat -> (t < 2)%nat -> (u < 2)%nat -> (v < 2)%nat ->
  SS (vert s t) (vert u v)
  = RtoC ((if Nat.eqb s v && Nat.eqb t u then 1/2 else 0) - (if Nat.eqb s t && Nat.eqb u v then 1/4 else 0)).
Proof.
  intros. destruct s as [|[|s]]; [| |lia]; (destruct t as [|[|t]]; [| |lia]);
  (destruct u as [|[|u]]; [| |lia]); (destruct v as [|[|v]]; [| |lia]);
  apply injective_projections; cbn; field.
Qed.
