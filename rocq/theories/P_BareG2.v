(** * Proofs for C140-C142: hopping, the Hubbard model, the annealing of the field. *)
Require Import Reals ZArith List Arith Bool Lra Lia Psatz Permutation.
From Coquelicot Require Complex.
Require Import Verif.FirstOrder Verif.PyIndex Verif.BareModel Verif.BareSpec Verif.BareG.
Require Import Verif.P_Bare Verif.P_Bare2 Verif.P_Bare3 Verif.P_Bare4.
Import ListNotations.
Import Coquelicot.Complex.
Local Open Scope R_scope.

(** ** Hopping *)

Lemma shellM_sum L c l J M i' j' a i b j :
  csums (map (part L c a i b j) (map (fun e => mkWrite i' j' e J M) l))
  = if Nat.eqb i i' && Nat.eqb j j' then Cmult (RtoC (INR (occ c l) * J)) (M a b) else RtoC 0.
Proof.
  rewrite map_map. unfold part, hit. cbn [w_i w_j w_e w_J w_M].
  destruct (Nat.eqb i i' && Nat.eqb j j'); cbn [andb].
  - unfold occ. induction l as [|e l IH]; cbn [map count_occ].
    + cbn [csums fold_right]. generalize (M a b). intros z. apply injective_projections; cbn; ring.
    + change (csums (?x :: ?l)) with (Cplus x (csums l)). rewrite IH. unfold zl_eqb. generalize (M a b). intros z.
      destruct (list_eq_dec Z.eq_dec e c).
      * rewrite S_INR. apply injective_projections; cbn; ring.
      * now rewrite Cplus_0_l.
  - induction l as [|e l IH]; [reflexivity|]. cbn [map]. change (csums (?x :: ?l)) with (Cplus x (csums l)).
    rewrite IH. apply Cplus_0_l.
Qed.

Definition hopWrites (n : latName) (L : list Z) (t0 t1 : R) (M0 M1 : nat -> nat -> C) : list write :=
  flat_map (fun i => flat_map (fun j =>
    map (fun e => mkWrite i j e (- t0) M0) (nearest n L i j) ++
    map (fun e => mkWrite i j e (- t1) M1) (nextNearestTable n L i j)) (seq 0 (NSublat n))) (seq 0 (NSublat n)).

Definition fermionLat (n : latName) : Prop := n = Square \/ n = Honeycomb.

Lemma kineticWrites_eq n L t0 t1 rest phase : fermionLat n ->
  kineticWrites n L (t0 :: t1 :: rest) phase = Some (hopWrites n L t0 t1 (spinOrbit phase 0) (spinOrbit phase 1)).
Proof.
  intros [-> | ->]; [|reflexivity]. unfold hopWrites. cbn [NSublat seq flat_map]. rewrite !app_nil_r. reflexivity.
Qed.

Lemma hop_cells n L t0 t1 M0 M1 : fermionLat n -> torus n 2 L ->
  Forall (fun w => cell L (w_e w)) (hopWrites n L t0 t1 M0 M1).
Proof.
  intros Hn HL. apply Forall_forall. intros w Hw. apply in_flat_map in Hw. destruct Hw as [i [Hi Hw]].
  apply in_flat_map in Hw. destruct Hw as [j [Hj Hw]]. apply in_seq in Hi, Hj.
  assert (Hi' : (i < NSublat n)%nat) by lia. assert (Hj' : (j < NSublat n)%nat) by lia.
  destruct (offs_spec n i j Hi' Hj') as (G1 & G2 & _ & _).
  apply offGood_spec in G1, G2. destruct G1 as [_ G1], G2 as [_ G2].
  assert (K : forall v, length v = Dim n -> cell L (wrap L v)).
  { intros v Hv. apply wrap_cell; [|apply (torus_pos n 2); [lia|exact HL]]. destruct HL as [-> _]. exact Hv. }
  assert (HT : n = Triangular -> torus n 3 L) by (destruct Hn; subst n; discriminate).
  rewrite in_app_iff, !in_map_iff in Hw.
  destruct Hw as [[e [<- He]]|[e [<- He]]]; cbn [w_e].
  - rewrite (wrapped1 n i j L HL Hi' Hj') in He. apply in_map_iff in He. destruct He as [v [<- Hv]]. apply K, G1, Hv.
  - rewrite (wrapped2 n i j L HL HT Hi' Hj') in He. apply in_map_iff in He. destruct He as [v [<- Hv]]. apply K, G2, Hv.
Qed.

Lemma hop_sum n L t0 t1 M0 M1 a i b j c : (i < NSublat n)%nat -> (j < NSublat n)%nat ->
  csums (map (part L c a i b j) (hopWrites n L t0 t1 M0 M1))
  = Copp (Cplus (Cmult (RtoC (INR (occ c (nearest n L i j)) * t0)) (M0 a b))
                (Cmult (RtoC (INR (occ c (nextNearestTable n L i j)) * t1)) (M1 a b))).
Proof.
  intros Hi Hj. unfold hopWrites. rewrite csums_map_flat. set (z := Copp _).
  rewrite (map_ext _ (fun i' => if Nat.eqb i i' then z else RtoC 0)).
  - rewrite csums_pick. replace (Nat.leb 0 i && Nat.ltb i (0 + NSublat n)) with true; [reflexivity|].
    symmetry. rewrite andb_true_iff, Nat.leb_le, Nat.ltb_lt. lia.
  - intros i'. rewrite csums_map_flat.
    rewrite (map_ext _ (fun j' => if Nat.eqb j j' then (if Nat.eqb i i' then z else RtoC 0) else RtoC 0)).
    + rewrite csums_pick. replace (Nat.leb 0 j && Nat.ltb j (0 + NSublat n)) with true; [reflexivity|].
      symmetry. rewrite andb_true_iff, Nat.leb_le, Nat.ltb_lt. lia.
    + intros j'. rewrite map_app, csums_app, !shellM_sum.
      destruct (Nat.eqb_spec i i'), (Nat.eqb_spec j j'); cbn [andb]; [|now rewrite Cplus_0_l..].
      subst i' j'. unfold z.
      generalize (INR (occ c (nearest n L i j))) (INR (occ c (nextNearestTable n L i j))) (M0 a b) (M1 a b).
      intros o1 o2 y1 y2. apply injective_projections; cbn; ring.
Qed.

Lemma kinetic_law n L t0 t1 rest phase : n = Square \/ n = Honeycomb -> torus n 2 L ->
  exists T, kinetic n L (t0 :: t1 :: rest) phase = Some T /\
  forall a i b j c, (i < NSublat n)%nat -> (j < NSublat n)%nat -> cell L c ->
  T a i b j (Z.to_nat (pyCoordiIndex L c))
  = Copp (Cplus (Cmult (RtoC (INR (occ c (nearest n L i j)) * t0)) (spinOrbit phase 0 a b))
                (Cmult (RtoC (INR (occ c (nextNearestTable n L i j)) * t1)) (spinOrbit phase 1 a b))).
Proof.
  intros Hn HL. unfold kinetic. rewrite (kineticWrites_eq n L t0 t1 rest phase Hn).
  destruct (doWrites_ok L _ (fun _ _ _ _ _ => RtoC 0) (torus_nil n 2 L HL)
    (hop_cells n L t0 t1 (spinOrbit phase 0) (spinOrbit phase 1) Hn HL)) as [A B].
  destruct (doWrites L (hopWrites n L t0 t1 (spinOrbit phase 0) (spinOrbit phase 1)) (fun _ _ _ _ _ => RtoC 0)) as [ok D].
  cbn [fst snd] in A, B. subst ok. exists D. split; [reflexivity|]. intros a i b j c Hi Hj Hc.
  rewrite B by exact Hc. rewrite Cplus_0_l. now apply hop_sum.
Qed.

Lemma orbit_unit phase k s t : Forall (fun x => x = 0) phase -> spinOrbit phase k s t = unit2 s t.
Proof.
  intros H. unfold spinOrbit. cbv zeta. destruct (Nat.ltb k (length phase)); [|reflexivity].
  assert (E : fold_right Rplus 0 (map (fun x => x * x) phase) = 0).
  { induction H as [|x l Hx H IH]; [reflexivity|]. cbn. rewrite IH, Hx. ring. }
  rewrite E, sqrt_0. destruct (Rlt_dec (1 / 100000000) 0); [lra|reflexivity].
Qed.

Lemma occ_flip n L i j c : torus n 2 L -> (n = Triangular -> torus n 3 L) ->
  (i < NSublat n)%nat -> (j < NSublat n)%nat -> cell L c ->
  occ c (nearest n L i j) = occ (back L c) (nearest n L j i) /\
  occ c (nextNearestTable n L i j) = occ (back L c) (nextNearestTable n L j i).
Proof.
  intros HL HT Hi Hj Hc. destruct (flip_spec n i j Hi Hj) as (P1 & P2 & _).
  destruct (offs_spec n i j Hi Hj) as (G1 & G2 & _ & _). apply offGood_spec in G1, G2.
  pose proof (torus_pos n 2 L ltac:(lia) HL) as F. pose proof (proj1 HL) as E.
  rewrite !(wrapped1 n _ _ L HL) by assumption. rewrite !(wrapped2 n _ _ L HL HT) by assumption.
  rewrite <- (occ_perm _ _ _ (Permutation_map (wrap L) P1)), <- (occ_perm _ _ _ (Permutation_map (wrap L) P2)).
  rewrite !occ_map; try assumption; try (split; reflexivity); intros v Hv; rewrite E; (apply G2 + apply G1); exact Hv.
Qed.

Lemma hermitian_law n L t0 t1 rest phase : n = Square \/ n = Honeycomb -> torus n 2 L -> Forall (fun x => x = 0) phase ->
  exists T, kinetic n L (t0 :: t1 :: rest) phase = Some T /\
  forall s i t j c, (i < NSublat n)%nat -> (j < NSublat n)%nat -> cell L c ->
  T s i t j (Z.to_nat (pyCoordiIndex L c)) = Cconj (T t j s i (Z.to_nat (pyCoordiIndex L (back L c)))).
Proof.
  intros Hn HL HP. destruct (kinetic_law n L t0 t1 rest phase Hn HL) as [T [E K]]. exists T. split; [exact E|].
  intros s i t j c Hi Hj Hc. rewrite (K s i t j c Hi Hj Hc).
  rewrite (K t j s i (back L c) Hj Hi (back_cell L c (torus_pos n 2 L ltac:(lia) HL) Hc)).
  assert (HT : n = Triangular -> torus n 3 L) by (destruct Hn; subst n; discriminate).
  destruct (occ_flip n L i j c HL HT Hi Hj Hc) as [O1 O2]. rewrite <- O1, <- O2.
  rewrite !orbit_unit by exact HP. unfold unit2. rewrite (Nat.eqb_sym t s).
  generalize (INR (occ c (nearest n L i j))) (INR (occ c (nextNearestTable n L i j))). intros o1 o2.
  destruct (Nat.eqb s t); apply injective_projections; cbn; ring.
Qed.

Lemma hermitian_refuted : exists L t0 t1 phase T s i t j c,
  torus Square 3 L /\ kinetic Square L [t0; t1] phase = Some T /\ cell L c /\
  T s i t j (Z.to_nat (pyCoordiIndex L c)) = Copp Ci /\
  Cconj (T t j s i (Z.to_nat (pyCoordiIndex L (back L c)))) = Ci.
Proof.
  assert (HL : torus Square 3 [3; 3]%Z) by (split; [reflexivity|repeat constructor; lia]).
  assert (HL2 : torus Square 2 [3; 3]%Z) by (split; [reflexivity|repeat constructor; lia]).
  destruct (kinetic_law Square [3; 3]%Z 1 0 [] [0; 0; PI / 2] (or_introl eq_refl) HL2) as [T [E K]].
  exists [3; 3]%Z, 1, 0, [0; 0; PI / 2], T, 0%nat, 0%nat, 0%nat, 0%nat, [0; 1]%Z.
  assert (C1 : cell [3; 3]%Z [0; 1]%Z) by (repeat constructor; lia).
  assert (C2 : cell [3; 3]%Z (back [3; 3]%Z [0; 1]%Z)) by (cbn; repeat constructor; lia).
  assert (Hm : sqrt (0 * 0 + (0 * 0 + (PI / 2 * (PI / 2) + 0))) = PI / 2).
  { replace (0 * 0 + (0 * 0 + (PI / 2 * (PI / 2) + 0))) with (PI / 2 * (PI / 2)) by ring.
    apply sqrt_square. pose proof PI_RGT_0. lra. }
  assert (PP : 1 < PI / 2) by (pose proof PI2_1; lra).
  assert (SO : spinOrbit [0; 0; PI / 2] 0 0 0 = Ci).
  { unfold spinOrbit. cbn [map fold_right length Nat.ltb Nat.leb]. rewrite Hm.
    destruct (Rlt_dec (1 / 100000000) (PI / 2)); [|lra]. rewrite cos_PI2, sin_PI2.
    unfold Pauli, unit2. cbn [nth Nat.eqb]. apply injective_projections; cbn; field; lra. }
  split; [exact HL|]. split; [exact E|]. split; [exact C1|].
  rewrite (K 0%nat 0%nat 0%nat 0%nat _ ltac:(cbn; lia) ltac:(cbn; lia) C1).
  rewrite (K 0%nat 0%nat 0%nat 0%nat _ ltac:(cbn; lia) ltac:(cbn; lia) C2). rewrite SO.
  generalize (spinOrbit [0; 0; PI / 2] 1 0 0). intros z.
  change (occ [0; 1]%Z (nearest Square [3; 3]%Z 0 0)) with 1%nat.
  change (occ (back [3; 3]%Z [0; 1]%Z) (nearest Square [3; 3]%Z 0 0)) with 1%nat.
  change (occ [0; 1]%Z (nextNearestTable Square [3; 3]%Z 0 0)) with 0%nat.
  change (occ (back [3; 3]%Z [0; 1]%Z) (nextNearestTable Square [3; 3]%Z 0 0)) with 0%nat.
  split; apply injective_projections; cbn; ring.
Qed.

Lemma pauli_refuted :
  (exists s t, (s < 2)%nat /\ (t < 2)%nat /\ Pauli 0 s t <> Cconj (Pauli 0 t s)) /\
  exists s, (s < 2)%nat /\ Cplus (Cmult (Pauli 0 s 0) (Pauli 0 0 s)) (Cmult (Pauli 0 s 1) (Pauli 0 1 s)) = RtoC (-1).
Proof.
  split.
  - exists 0%nat, 1%nat. split; [lia|]. split; [lia|]. unfold Pauli. cbn [nth]. intros E. injection E as E _. lra.
  - exists 0%nat. split; [lia|]. unfold Pauli. cbn [nth]. apply injective_projections; cbn; ring.
Qed.

(** ** The Hubbard model *)

Lemma hubbard_refuted : exists nsub U s t u v i r,
  U <> 0 /\ (s + u <> t + v)%nat /\ r <> 0%nat /\
  hubbardW nsub U (fun _ _ _ _ _ => RtoC 0) (vert s t) i (vert u v) i r = RtoC U /\
  hubbardW nsub U (fun _ _ _ _ _ => RtoC 0) (vert 1 1) i (vert 0 0) i 0%nat = RtoC 0.
Proof.
  exists 1%nat, 1, 0%nat, 0%nat, 0%nat, 1%nat, 0%nat, 5%nat. split; [lra|]. split; [lia|]. split; [lia|].
  unfold hubbardW. cbn. split; [|reflexivity]. apply injective_projections; cbn; ring.
Qed.

Lemma build_refuted : exists n L h, torus n 3 L /\
  h_hopping h = Some [1] /\ h_U h = Some 4 /\ h_mu h = Some [2] /\ h_phase h = Some [] /\
  forall solve s i s' j r t a b, fst (buildHubbard solve n L h) s i s' j r t = RtoC 0 /\
    snd (buildHubbard solve n L h) a i b j r = RtoC 0.
Proof.
  exists Square, [4; 4]%Z, (mkHam (Some [1]) (Some []) (Some [2]) (Some 4)).
  split; [split; [reflexivity|repeat constructor; lia]|]. repeat (split; [reflexivity|]).
  intros. split; reflexivity.
Qed.

(** ** Annealing *)

Definition steps (k : nat) (a : anneal) : Prop :=
  length (delta a) = length (interval a) /\
  forall m, nth m (delta a) 0 = - INR k * nth m (interval a) 0.

Lemma zip_nth f u v m : f 0 0 = 0 -> length u = length v -> nth m (zipR f u v) 0 = f (nth m u 0) (nth m v 0).
Proof.
  intros H0. revert v m. induction u as [|x u IH]; intros [|y v] m E; try discriminate; unfold zipR; cbn.
  - destruct m; now rewrite H0.
  - destruct m as [|m]; [reflexivity|]. apply IH. now injection E.
Qed.

Lemma zip_length f u v : length u = length v -> length (zipR f u v) = length u.
Proof. intros E. unfold zipR. rewrite map_length, combine_length. lia. Qed.

Lemma half_nth l m : nth m (map (fun x => x / 2) l) 0 = nth m l 0 / 2.
Proof.
  revert m. induction l as [|x l IH]; intros [|m]; cbn; try (unfold Rdiv; ring). apply IH.
Qed.

Lemma decrease_steps k a : steps k a ->
  (fst (DecreaseField a) = false -> snd (DecreaseField a) = a /\ Rabs (nth 0 (delta a) 0) <= 1/100000) /\
  (fst (DecreaseField a) = true -> exists k', k = S k' /\ steps k' (snd (DecreaseField a)) /\ interval (snd (DecreaseField a)) = interval a).
Proof.
  intros [E H]. unfold DecreaseField. destruct (Rlt_dec (1 / 100000) (Rabs (nth 0 (delta a) 0))) as [G|G]; cbn [fst snd].
  - split; [discriminate|]. intros _. destruct k as [|k].
    { exfalso. rewrite H in G. cbn in G. replace (- 0 * nth 0 (interval a) 0) with 0 in G by ring. rewrite Rabs_R0 in G. lra. }
    exists k. split; [reflexivity|]. split; [|reflexivity]. split; cbn [delta interval].
    + now rewrite zip_length.
    + intros m. rewrite zip_nth by (lra || exact E). rewrite H, S_INR. ring.
  - split; [|discriminate]. intros _. split; [reflexivity|lra].
Qed.

Lemma revert_steps k a : steps k a -> steps (2 * k + 1) (RevertField a).
Proof.
  intros [E H]. unfold RevertField. split; cbn [delta interval].
  - rewrite zip_length; rewrite ?map_length; lia.
  - intros m. rewrite zip_nth by (lra || (rewrite map_length; exact E)). rewrite half_nth, H.
    rewrite plus_INR, mult_INR. cbn [INR]. field.
Qed.

Lemma history a outs : (exists k, steps k a) -> exists k, steps k (fold_left version outs a).
Proof.
  revert a. induction outs as [|o outs IH]; intros a [k Hk]; cbn [fold_left]; [now exists k|].
  apply IH. destruct o; cbn [version].
  - destruct (decrease_steps k a Hk) as [F T]. destruct (fst (DecreaseField a)) eqn:E.
    + destruct (T eq_refl) as (k' & _ & S' & _). now exists k'.
    + destruct (F eq_refl) as [-> _]. now exists k.
  - exists (2 * k + 1)%nat. now apply revert_steps.
Qed.

Lemma iter_r k (f : anneal -> anneal) a : Nat.iter (S k) f a = Nat.iter k f (f a).
Proof. induction k as [|k IH]; [reflexivity|]. cbn in *. now rewrite IH. Qed.

Lemma settle k : forall a, steps k a ->
  let b := Nat.iter k (fun x => version x Success) a in
  fst (DecreaseField b) = false /\ Rabs (nth 0 (delta b) 0) <= 1/100000 /\
  (1/100000 < Rabs (nth 0 (interval a) 0) -> forall m, nth m (delta b) 0 = 0).
Proof.
  induction k as [|k IH]; intros a Ha b.
  - assert (Z : forall m, nth m (delta a) 0 = 0) by (intros m; destruct Ha as [_ H]; rewrite H; cbn; ring).
    cbn in b. subst b. split; [|split; [|intros _; exact Z]].
    + unfold DecreaseField. destruct (Rlt_dec _ _) as [G|G]; [|reflexivity]. exfalso. rewrite Z, Rabs_R0 in G. lra.
    + rewrite Z, Rabs_R0. lra.
  - destruct (decrease_steps (S k) a Ha) as [F T]. destruct (fst (DecreaseField a)) eqn:E.
    + destruct (T eq_refl) as (k' & Ek & S' & EI). injection Ek as <-.
      unfold b. rewrite iter_r. cbn [version]. specialize (IH _ S'). cbv zeta in IH. rewrite EI in IH. exact IH.
    + destruct (F eq_refl) as [Ea B].
      assert (ID : forall m, Nat.iter m (fun x => version x Success) a = a).
      { induction m as [|m IHm]; [reflexivity|]. rewrite iter_r. cbn [version]. rewrite Ea. exact IHm. }
      unfold b. rewrite ID. split; [exact E|]. split; [exact B|]. intros G m. exfalso.
      destruct Ha as [_ H]. rewrite H in B. rewrite Rabs_mult, Rabs_Ropp in B.
      assert (1 <= Rabs (INR (S k))).
      { rewrite Rabs_right; rewrite S_INR; pose proof (pos_INR k); lra. }
      pose proof (Rabs_pos (nth 0 (interval a) 0)). nra.
Qed.

Lemma endless_refuted : exists a, forall k,
  fst (DecreaseField (Nat.iter k (fun x => version x Success) a)) = true /\
  nth 0 (delta (Nat.iter k (fun x => version x Success) a)) 0 = 1 - 3/10 * INR k.
Proof.
  exists (mkAnneal [1] [-3/10]).
  assert (G : forall k, 1/100000 < Rabs (1 - 3/10 * INR k)).
  { intros k. destruct (le_lt_dec k 3) as [H|H].
    - assert (INR k <= 3) by (apply le_INR in H; cbn in H; lra). rewrite Rabs_right; lra.
    - assert (4 <= INR k) by (apply le_INR in H; cbn in H; lra). rewrite Rabs_left; lra. }
  assert (K : forall k, Nat.iter k (fun x => version x Success) (mkAnneal [1] [-3/10]) = mkAnneal [1 - 3/10 * INR k] [-3/10]).
  { induction k as [|k IH].
    - cbn. f_equal. f_equal. ring.
    - change (Nat.iter (S k) ?f ?x) with (f (Nat.iter k f x)). rewrite IH. cbn [version]. unfold DecreaseField. cbn [delta interval nth].
      destruct (Rlt_dec _ _) as [_|N]; [|exfalso; apply N, G]. unfold zipR. cbn [combine map fst snd].
      f_equal. f_equal. rewrite S_INR. field. }
  intros k. rewrite K. split; [|reflexivity]. unfold DecreaseField. cbn [delta nth].
  destruct (Rlt_dec _ _) as [_|N]; [reflexivity|exfalso; apply N, G].
Qed.

Lemma stops_refuted : exists a, nth 1 (delta a) 0 = 1 /\ nth 1 (interval a) 0 = - (1) /\ DecreaseField a = (false, a).
Proof.
  exists (mkAnneal [0; 1] [0; - (1)]). split; [reflexivity|]. split; [reflexivity|].
  unfold DecreaseField. cbn [delta nth]. rewrite Rabs_R0. destruct (Rlt_dec _ _); [lra|reflexivity].
Qed.

(** After a decrease, n failures leave the field at the old one plus a 2^n-th of the step. *)
Lemma retreat a n m : length (delta a) = length (interval a) -> fst (DecreaseField a) = true ->
  nth m (delta (Nat.iter n (fun x => version x TouchZero) (version a Success))) 0
  = nth m (delta a) 0 + nth m (interval a) 0 / 2 ^ n.
Proof.
  intros E F.
  assert (K : let b := Nat.iter n (fun x => version x TouchZero) (version a Success) in
    length (delta b) = length (interval b) /\ nth m (interval b) 0 = nth m (interval a) 0 / 2 ^ n /\
    nth m (delta b) 0 = nth m (delta a) 0 + nth m (interval a) 0 / 2 ^ n); [|now destruct K as (_ & _ & K)].
  cbv zeta. induction n as [|n (L & I & D)].
  - cbn [Nat.iter nat_rect version]. unfold DecreaseField in *. destruct (Rlt_dec _ _); [|discriminate].
    cbn [snd delta interval]. rewrite zip_length by exact E. split; [exact E|].
    rewrite zip_nth by (lra || exact E). cbn [pow]. split; field.
  - change (Nat.iter (S n) ?f ?x) with (f (Nat.iter n f x)).
    set (b := Nat.iter n (fun x => version x TouchZero) (version a Success)) in *. cbn [version].
    unfold RevertField. cbn [delta interval]. rewrite zip_length, map_length by (rewrite map_length; exact L).
    split; [exact L|]. rewrite zip_nth by (lra || (rewrite map_length; exact L)). rewrite half_nth, I, D.
    assert (2 ^ n <> 0) by (apply pow_nonzero; lra). cbn [pow]. split; field; assumption.
Qed.

Lemma history_law a outs k : length (delta a) = length (interval a) ->
  (forall m, nth m (delta a) 0 = - INR k * nth m (interval a) 0) ->
  let b := fold_left version outs a in
  exists k', (forall m, nth m (delta b) 0 = - INR k' * nth m (interval b) 0) /\
  let c := Nat.iter k' (fun x => version x Success) b in
  fst (DecreaseField c) = false /\ Rabs (nth 0 (delta c) 0) <= 1/100000 /\
  (1/100000 < Rabs (nth 0 (interval b) 0) -> forall m, nth m (delta c) 0 = 0).
Proof.
  intros E H b. destruct (history a outs (ex_intro _ k (conj E H))) as [k' S']. exists k'.
  split; [apply S'|]. now apply settle.
Qed.
