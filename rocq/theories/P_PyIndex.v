Require Import Reals ZArith List Arith Bool Lra Lia.
From Coquelicot Require Import Complex.
Require Import Verif.PyWeight Verif.PyWeightSpec Verif.Dyson Verif.DysonSpec
  Verif.P_Fourier Verif.P_PyWeight Verif.P_PyWeight2 Verif.P_Dyson.
From Verif Require Import Base Num NumR Lattice P_Lattice IndexMap P_IndexMap PyIndex.
Import ListNotations.
Local Open Scope nat_scope.

(* ---- row-major rank over nat ---- *)
Fixpoint nrank (L v : list nat) : nat :=
  match L, v with
  | _ :: L, x :: v => x * prod L + nrank L v
  | _, _ => 0
  end.
Definition below (L v : list nat) := Forall2 (fun l x => x < l) L v.

Lemma below_pos L v : below L v -> Forall (fun l => 0 < l) L.
Proof. induction 1; constructor; auto; lia. Qed.

Lemma nrank_lt L v : below L v -> nrank L v < prod L.
Proof.
  induction 1 as [|l x L v H F IH]; cbn [nrank fold_right]; [cbn; lia|].
  change (prod (l :: L)) with (l * prod L). nia.
Qed.

Lemma coords_nrank L v : below L v -> coords L (nrank L v) = v.
Proof.
  induction 1 as [|l x L v H F IH]; [reflexivity|].
  cbn [nrank]. rewrite coords_split.
  - now rewrite IH.
  - now apply below_pos with v.
  - now apply nrank_lt.
Qed.

Fixpoint addv (L u v : list nat) : list nat :=
  match L, u, v with
  | l :: L, x :: u, y :: v => (x + y) mod l :: addv L u v
  | _, _, _ => []
  end.

Lemma split_div (p x r : nat) : r < p -> (x * p + r) / p = x.
Proof. intros. rewrite Nat.div_add_l by lia. rewrite Nat.div_small; lia. Qed.
Lemma split_mod (p x r : nat) : r < p -> (x * p + r) mod p = r.
Proof. intros. rewrite Nat.add_comm, Nat.mod_add by lia. now apply Nat.mod_small. Qed.

Lemma addSite_nrank L u : below L u -> forall v, below L v ->
  addSite L (nrank L u) (nrank L v) = nrank L (addv L u v).
Proof.
  induction 1 as [|l x L u H F IH]; intros v K; inversion K as [|? y ? v' Hy Hv]; subst; [reflexivity|].
  cbn [nrank addSite addv]. cbv zeta. fold (prod L).
  rewrite !split_div, !split_mod by (now apply nrank_lt). now rewrite IH.
Qed.

(* ---- from Z ---- *)
Definition nats (l : list Z) : list nat := map Z.to_nat l.

Lemma below_nats sz v : Forall2 (fun s x => (0 <= x < s)%Z) sz v -> below (nats sz) (nats v).
Proof. induction 1; cbn; constructor; auto; lia. Qed.

Fixpoint zprod (sz : list Z) : Z := match sz with [] => 1 | s :: sz => (s * zprod sz)%Z end.
Fixpoint zrank (sz v : list Z) : Z :=
  match sz, v with s :: sz, x :: v => (x * zprod sz + zrank sz v)%Z | _, _ => 0%Z end.

Lemma zprod_nats sz : Forall (fun s => (0 < s)%Z) sz -> (0 < zprod sz)%Z /\ Z.to_nat (zprod sz) = prod (nats sz).
Proof.
  induction 1 as [|s sz Hs F [P E]]; cbn [zprod nats map]; [cbn; lia|].
  change (prod (Z.to_nat s :: map Z.to_nat sz)) with (Z.to_nat s * prod (nats sz)).
  split; [lia|]. rewrite Z2Nat.inj_mul by lia. now rewrite E.
Qed.

Lemma horner_zrank sz v a : length sz = length v ->
  fold_left (fun acc sv => (acc * fst sv + snd sv)%Z) (combine sz v) a = (a * zprod sz + zrank sz v)%Z.
Proof.
  revert v a. induction sz as [|s sz IH]; intros [|x v] a H; try discriminate; cbn [combine fold_left zprod zrank]; [lia|].
  rewrite IH by now injection H. cbn [fst snd]. ring.
Qed.

Lemma Vec2Index_zrank L v : Size L <> [] -> length (Size L) = length v -> Vec2Index L v = zrank (Size L) v.
Proof.
  intros H E. unfold Vec2Index. destruct (Size L) as [|s sz]; [congruence|]. destruct v as [|x v]; [discriminate|].
  cbn [tl hd]. rewrite horner_zrank by now injection E. reflexivity.
Qed.

Lemma pos_of sz v : Forall2 (fun s x => (0 <= x < s)%Z) sz v -> Forall (fun s => (0 < s)%Z) sz.
Proof. induction 1; constructor; auto; lia. Qed.

Lemma zrank_nats sz v : Forall2 (fun s x => (0 <= x < s)%Z) sz v ->
  (0 <= zrank sz v)%Z /\ Z.to_nat (zrank sz v) = nrank (nats sz) (nats v).
Proof.
  induction 1 as [|s x sz v H F [P E]]; cbn [zrank nats map nrank]; [cbn; lia|].
  destruct (zprod_nats sz (pos_of sz v F)) as [Q G].
  split; [nia|]. rewrite Z2Nat.inj_add by nia. rewrite Z2Nat.inj_mul by lia. rewrite G, E. reflexivity.
Qed.

Lemma F2len {A B} (P : A -> B -> Prop) l m : Forall2 P l m -> length l = length m.
Proof. induction 1; cbn; congruence. Qed.

Lemma vec_ok_F2 L v : vec_ok L v -> Forall2 (fun s x => (0 <= x < s)%Z) (Size L) v.
Proof. exact (fun H => H). Qed.

Lemma CoordiIndex_nrank L a b : Size L <> [] -> site_ok L a -> site_ok L b ->
  Z.to_nat (CoordiIndex L a b) = nrank (nats (Size L)) (nats (disp (Size L) (coord a) (coord b)))
  /\ below (nats (Size L)) (nats (disp (Size L) (coord a) (coord b)))
  /\ CoordiIndex L a b = zrank (Size L) (disp (Size L) (coord a) (coord b)).
Proof.
  intros N [_ Ha] [_ Hb]. unfold CoordiIndex. rewrite LShift_disp by assumption.
  pose proof (vec_ok_F2 _ _ (disp_ok L _ _ Ha Hb)) as F.
  rewrite Vec2Index_zrank by (auto; now apply F2len with (P := fun s x => (0 <= x < s)%Z)).
  destruct (zrank_nats _ _ F) as [_ E]. split; [exact E|]. split; [now apply below_nats|reflexivity].
Qed.

Lemma addv_disp sz a b c :
  Forall2 (fun s x => (0 <= x < s)%Z) sz a -> Forall2 (fun s x => (0 <= x < s)%Z) sz b ->
  Forall2 (fun s x => (0 <= x < s)%Z) sz c ->
  addv (nats sz) (nats (disp sz a b)) (nats (disp sz b c)) = nats (disp sz a c).
Proof.
  intros Ha. revert b c. induction Ha as [|s x sz a Hx Ha IH]; intros b c Hb Hc;
    inversion Hb as [|? y ? b' Hy Hb']; inversion Hc as [|? z ? c' Hz Hc']; subst; [reflexivity|].
  cbn [disp nats map addv]. f_equal; [|now apply IH].
  pose proof (Z.mod_pos_bound (y - x) s ltac:(lia)). pose proof (Z.mod_pos_bound (z - y) s ltac:(lia)).
  rewrite <- Z2Nat.inj_add by lia. rewrite <- Z2Nat.inj_mod by lia.
  rewrite <- Zplus_mod. f_equal. f_equal. lia.
Qed.

Lemma site_chain L a b c : Size L <> [] -> site_ok L a -> site_ok L b -> site_ok L c ->
  addSite (map Z.to_nat (Size L)) (Z.to_nat (CoordiIndex L a b)) (Z.to_nat (CoordiIndex L b c))
  = Z.to_nat (CoordiIndex L a c).
Proof.
  intros N A B D.
  destruct (CoordiIndex_nrank L a b N A B) as [-> [P _]].
  destruct (CoordiIndex_nrank L b c N B D) as [-> [Q _]].
  destruct (CoordiIndex_nrank L a c N A D) as [-> _].
  fold (nats (Size L)). rewrite addSite_nrank by assumption. f_equal.
  destruct A, B, D. now apply addv_disp.
Qed.

Lemma nth_nats l j : nth j (nats l) 0 = Z.to_nat (nth j l 0%Z).
Proof. unfold nats. change 0 with (Z.to_nat 0%Z). now rewrite map_nth. Qed.

Lemma nth_disp sz : forall a b j, length a = length sz -> length b = length sz -> j < length sz ->
  nth j (disp sz a b) 0%Z = ((nth j b 0%Z - nth j a 0%Z) mod nth j sz 0%Z)%Z.
Proof.
  induction sz as [|s sz IH]; intros [|x a] [|y b] j E1 E2 H; cbn in *; try lia.
  destruct j as [|j]; [reflexivity|]. apply IH; lia.
Qed.

Lemma site_coords L a b : Size L <> [] -> site_ok L a -> site_ok L b ->
  length (coords (map Z.to_nat (Size L)) (Z.to_nat (CoordiIndex L a b))) = length (Size L) /\
  forall j, j < length (Size L) ->
    Z.of_nat (nth j (coords (map Z.to_nat (Size L)) (Z.to_nat (CoordiIndex L a b))) 0)
    = ((nth j (coord b) 0%Z - nth j (coord a) 0%Z) mod nth j (Size L) 0%Z)%Z.
Proof.
  intros N A B. destruct (CoordiIndex_nrank L a b N A B) as [-> [P _]]. fold (nats (Size L)).
  rewrite coords_nrank by exact P.
  destruct A as [_ A], B as [_ B].
  pose proof (F2len _ _ _ (disp_ok L _ _ A B)) as E.
  split. { unfold nats. now rewrite map_length. }
  intros j H. rewrite nth_nats.
  rewrite nth_disp by (try exact H; symmetry; eapply F2len; eassumption).
  apply Z2Nat.id. apply Z.mod_pos_bound.
  pose proof (pos_of _ _ A) as F. rewrite Forall_forall in F. apply F, nth_In. exact H.
Qed.

(* ---- Python's IndexToCoordi and C++'s ---- *)
Lemma py_rev_same rs : rs <> [] -> Forall (fun s => (0 < s)%Z) rs -> forall i, (0 <= i)%Z ->
  index2vec_rev rs i = Ok (pyToCoordiRev rs i).
Proof.
  induction rs as [|s rs IH]; intros N F i Hi; [congruence|].
  inversion F as [|? ? Hs F']; subst. destruct rs as [|s' rs]; [reflexivity|].
  change (index2vec_rev (s :: s' :: rs) i) with
    (if (s =? 0)%Z then UB
     else obind (index2vec_rev (s' :: rs) (Z.quot i s)) (fun l => Ok (Z.rem i s :: l))).
  change (pyToCoordiRev (s :: s' :: rs) i) with ((i mod s)%Z :: pyToCoordiRev (s' :: rs) (i / s)%Z).
  destruct (Z.eqb_spec s 0); [lia|].
  rewrite (Z.quot_div_nonneg i s), (Z.rem_mod_nonneg i s) by lia.
  rewrite IH; [reflexivity|discriminate|assumption|]. apply Z.div_pos; lia.
Qed.

Lemma py_index_same L i : Size L <> [] -> Forall (fun s => (0 < s)%Z) (Size L) -> (0 <= i)%Z ->
  Index2Vec L i = Ok (pyIndexToCoordi (Size L) i).
Proof.
  intros N F H. unfold Index2Vec, pyIndexToCoordi.
  rewrite py_rev_same; [reflexivity|now apply rev_nonnil|now apply Forall_rev|assumption].
Qed.

Lemma py_sites L a b : Size L <> [] -> site_ok L a -> site_ok L b ->
  pyIndexToCoordi (Size L) (CoordiIndex L a b)
  = map Z.of_nat (coords (map Z.to_nat (Size L)) (Z.to_nat (CoordiIndex L a b))).
Proof.
  intros N A B.
  assert (F : Forall (fun s => (0 < s)%Z) (Size L)) by (destruct A as [_ A]; exact (pos_of _ _ A)).
  destruct (CoordiIndex_nrank L a b N A B) as [E [P Q]]. rewrite E. fold (nats (Size L)).
  rewrite coords_nrank by exact P.
  assert (K : vec_ok L (disp (Size L) (coord a) (coord b))) by (destruct A, B; now apply disp_ok).
  assert (G : CoordiIndex L a b = Vec2Index L (disp (Size L) (coord a) (coord b))).
  { destruct A, B. unfold CoordiIndex. now rewrite LShift_disp. }
  pose proof (Index2Vec_Vec2Index L _ N K) as I. rewrite <- G in I.
  rewrite py_index_same in I; [|exact N|exact F|rewrite Q; apply zrank_nats; exact K].
  injection I as ->. unfold nats. rewrite map_map.
  clear - K. induction K as [|s x S v H K IH]; [reflexivity|]. cbn. rewrite <- IH. f_equal. lia.
Qed.

(* ---- the element of the array ---- *)
Lemma pyVol_Vol L : pyVol (Size L) = Vol L.
Proof. reflexivity. Qed.

Lemma element_smooth (m : @imap NumR) a b rin rout tin tout :
  imap_ok m -> (0 < (im_beta m : R))%R -> args_ok m a b rin rout ->
  (0 <= tin < im_beta m)%R -> (0 <= tout < im_beta m)%R ->
  @GetIndexSmooth NumR m a b rin rout tin tout
  = Ok (cOffset (pyShape (im_nsp m) (SublatVol (im_lat m)) (Size (im_lat m)) (im_maxtau m))
         [a; sub rin; b; sub rout;
          pyCoordiIndex (Size (im_lat m)) (disp (Size (im_lat m)) (coord rin) (coord rout));
          pyTauIndex (im_beta m) (im_maxtau m) tin tout]).
Proof.
  intros H HB A Ti To.
  destruct (tau_bin m HB (mo_tau m H)) as [T _]. destruct (T tin tout Ti To) as [T1 _].
  destruct (GetIndexSmooth_ok m a b rin rout tin tout H A T1) as [-> _]. f_equal.
  assert (EC : CoordiIndex (im_lat m) rin rout
     = pyCoordiIndex (Size (im_lat m)) (disp (Size (im_lat m)) (coord rin) (coord rout))).
  { destruct A as (_ & _ & [_ A1] & [_ A2]). unfold CoordiIndex. now rewrite LShift_disp. }
  assert (ET : @TauIndex NumR m tin tout = pyTauIndex (im_beta m) (im_maxtau m) tin tout).
  { unfold TauIndex, TauIndex1, pyTauIndex. cbv zeta. cbn [rltb rsub rofZ rmul rfloor NumR].
    unfold dBetaInverse, dBeta. cbn [rdiv rofZ NumR].
    destruct (Rle_dec 0 (tout - tin)) as [G|G].
    - destruct (Rltb (tout - tin) 0) eqn:E; [apply Rltb_spec in E; lra|reflexivity].
    - destruct (Rltb (tout - tin) 0) eqn:E; [reflexivity|apply Rltb_false in E; lra]. }
  rewrite <- EC, <- ET. unfold pyShape. cbn [cOffset fold_right]. rewrite pyVol_Vol. ring.
Qed.

Lemma element_delta (m : @imap NumR) a b rin rout :
  imap_ok m -> args_ok m a b rin rout ->
  @GetIndexDelta NumR m a b rin rout
  = Ok (cOffset (pyShapeDelta (im_nsp m) (SublatVol (im_lat m)) (Size (im_lat m)))
         [a; sub rin; b; sub rout;
          pyCoordiIndex (Size (im_lat m)) (disp (Size (im_lat m)) (coord rin) (coord rout))]).
Proof.
  intros H A.
  destruct (GetIndexDelta_ok m a b rin rout H A) as [-> _]. f_equal.
  assert (EC : CoordiIndex (im_lat m) rin rout
     = pyCoordiIndex (Size (im_lat m)) (disp (Size (im_lat m)) (coord rin) (coord rout))).
  { destruct A as (_ & _ & [_ A1] & [_ A2]). unfold CoordiIndex. now rewrite LShift_disp. }
  rewrite <- EC. unfold pyShapeDelta. cbn [cOffset fold_right]. rewrite pyVol_Vol. ring.
Qed.

Lemma times_same (m : @imap NumR) t :
  @IndexToTau NumR m t = pyIndexToTau (im_beta m) (im_maxtau m) t.
Proof.
  unfold IndexToTau, pyIndexToTau, dBeta. cbn [radd rmul rdiv rofZ NumR].
  change (@real NumR) with R. unfold Rdiv. ring.
Qed.
Lemma times_same_w (s : PyWeight.shape) (m : @imap NumR) t : im_beta m = beta s -> im_maxtau m = Z.of_nat (bins s) ->
  indexToTau s t = @IndexToTau NumR m (Z.of_nat t).
Proof.
  intros E1 E2. rewrite times_same, E1, E2. unfold indexToTau, pyIndexToTau.
  rewrite <- !INR_IZR_INZ. lra.
Qed.
