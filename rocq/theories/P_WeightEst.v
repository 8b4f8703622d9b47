(** Proofs about WeightEstimator.v *)
From Coq Require Import ZArith List Bool Arith Lia Reals Lra.
From Verif Require Import Base Num NumR Complex Lattice IndexMap WeightEstimator P_Lattice P_IndexMap.
Import ListNotations.
Open Scope Z_scope.

Definition prodz (l : list Z) : Z := fold_right Z.mul 1 l.
Lemma prodz_pos l : Forall (fun s => 0 < s) l -> 0 < prodz l.
Proof. induction 1 as [|x l Hx F IH]; unfold prodz in *; cbn [fold_right]; [lia|nia]. Qed.
Lemma prod32_spec l : Forall (fun s => 0 < s) l -> prodz l < 2^32 -> prod32 l = prodz l.
Proof.
  intros F. unfold prod32.
  enough (G : forall a, 0 < a -> a * prodz l < 2^32 -> fold_left (fun p x => u32 (p * x)) l a = a * prodz l).
  { intros B. rewrite G by lia. lia. }
  induction F as [|x l Hx F IH]; intros a Ha B; cbn [fold_left]; [unfold prodz; cbn [fold_right]; lia|].
  pose proof (prodz_pos l F). cbn [prodz fold_right] in *. fold (prodz l) in *.
  assert (a * x <= a * (x * prodz l)) by nia. unfold u32 at 2. rewrite Z.mod_small by nia. rewrite IH; nia.
Qed.
Section WE.
Context {N : Num}.
Lemma shape_prod (m : imap) o : prodz (o :: shape m) = o * tabsize m.
Proof. unfold shape, tabsize. cbn. ring. Qed.
Lemma shape_pos (m : imap) : imap_ok m -> Forall (fun s => 0 < s) (shape m).
Proof. intros H. unfold shape. destruct H as [H1 H2 H3 H4 H5 H6]. pose proof (Vol_pos _ H1 H2). repeat constructor; auto. Qed.
Lemma tab_pos (m : imap) : imap_ok m -> 0 < tabsize m.
Proof. intros H. rewrite <- (Z.mul_1_l (tabsize m)), <- shape_prod. apply prodz_pos. constructor; [lia|now apply shape_pos]. Qed.

(** a well-formed estimator for [o] orders of a table *)
Record WEok (m : imap) (o : Z) (e : west) : Prop := {
  ok_len : wa_size (we_accu e) = o * tabsize m;
  ok_w : we_wsize e = tabsize m;
  ok_shape : wa_shape (we_accu e) = o :: shape m }.
(** the parameters of a usable estimator *)
Definition wepar (m : imap) (o : Z) : Prop := imap_ok m /\ 0 < o /\ o * tabsize m < 2^32.
Lemma wepar_o m o : wepar m o -> o < 2^32 /\ u32 o = o.
Proof. intros (H1 & H2 & H3). pose proof (tab_pos m H1). assert (o < 2^32) by nia. split; auto. unfold u32. now rewrite Z.mod_small by lia. Qed.
Definition cell (m : imap) (e : west) (n i : Z) : option cplx := nth_error (wf_data (weToDict e)) (Z.to_nat ((n - 1) * tabsize m + i)).
Definition inr (m : imap) (o n i : Z) : Prop := 1 <= n <= o /\ 0 <= i < tabsize m.

Lemma nth_repeat {A} (x : A) n i : (i < n)%nat -> nth_error (repeat x n) i = Some x.
Proof. revert i. induction n; intros [|i] L; cbn; [lia|lia|reflexivity|apply IHn; lia]. Qed.
Lemma cell_range m o n i : inr m o n i -> 0 <= (n - 1) * tabsize m + i < o * tabsize m.
Proof. intros [H1 H2]. nia. Qed.
Lemma cell_inj m o n i n' i' : inr m o n i -> inr m o n' i' -> (n - 1) * tabsize m + i = (n' - 1) * tabsize m + i' -> n = n' /\ i = i'.
Proof. intros [H1 H2] [H3 H4] E. assert (n = n') by nia. subst. lia. Qed.

Lemma allocate_ok m o norm : wepar m o -> exists e, weAllocate m o norm = Ok e /\ WEok m o e /\ we_beta e = im_beta m /\
  we_norm e = rdiv (rdiv (rmul norm (rdiv (rofZ (im_maxtau m)) (im_beta m))) (im_beta m)) (rofZ (Vol (im_lat m))) /\
  we_nacc e = rofZ 0 /\ forall n i, inr m o n i -> cell m e n i = Some c0.
Proof.
  intros W. destruct (wepar_o m o W) as [Lo Eo]. destruct W as (H1 & H2 & H3). pose proof (tab_pos m H1) as TP.
  assert (P : prod32 (o :: shape m) = o * tabsize m).
  { rewrite prod32_spec; [apply shape_prod|constructor; [lia|now apply shape_pos]|now rewrite shape_prod]. }
  assert (S : wa_size (waAllocate (o :: shape m)) = o * tabsize m).
  { unfold wa_size, waAllocate. cbn [wa_data]. rewrite repeat_length, P, Z2Nat.id; nia. }
  unfold weAllocate. rewrite Eo. destruct (Z.eqb_spec o 0) as [|_]; [lia|]. eexists. split; [reflexivity|].
  split; [|repeat split].
  - split; unfold weClear; cbn [we_accu we_wsize].
    + unfold wa_size, waFill. cbn [wa_data]. rewrite repeat_length. exact S.
    + rewrite S, Z.mul_comm. apply Z.div_mul. lia.
    + reflexivity.
  - intros n i R. unfold cell. cbn. apply nth_repeat. pose proof (cell_range m o n i R). unfold wa_size in S. cbn in S. rewrite repeat_length in S |- *. lia.
Qed.
Lemma lupd_length {A} (f : A -> A) : forall l n, List.length (lupd n f l) = List.length l.
Proof. induction l as [|x l IH]; intros [|n]; cbn; auto. Qed.
Lemma lupd_nth {A} (f : A -> A) : forall l n k, nth_error (lupd n f l) k = if Nat.eqb n k then option_map f (nth_error l k) else nth_error l k.
Proof.
  induction l as [|x l IH]; intros [|n] [|k]; cbn; auto; try (now destruct (Nat.eqb _ _)).
Qed.
Lemma measure_ok m o e n i w : wepar m o -> WEok m o e -> inr m o n i -> exists e', weMeasure i n w e = Ok e' /\ WEok m o e' /\
  we_beta e' = we_beta e /\ we_norm e' = we_norm e /\ we_nacc e' = we_nacc e /\
  (exists c, cell m e n i = Some c /\ cell m e' n i = Some (cadd c w)) /\
  (forall n' i', inr m o n' i' -> (n', i') <> (n, i) -> cell m e' n' i' = cell m e n' i').
Proof.
  intros (P1 & P2 & P3) [L W S] R. pose proof (cell_range m o n i R) as B.
  unfold weMeasure. rewrite W. unfold u32. rewrite Z.mod_small by lia. unfold waAdd.
  destruct (Z.ltb_spec ((n - 1) * tabsize m + i) 0) as [|_]; [lia|].
  destruct (Z.leb_spec (wa_size (we_accu e)) ((n - 1) * tabsize m + i)) as [|_]; [lia|]. cbn [orb obind].
  eexists. split; [reflexivity|]. split; [|split; [reflexivity|]; split; [reflexivity|]; split; [reflexivity|]; split].
  - split; cbn [we_accu we_wsize wa_shape]; auto. unfold wa_size in *. cbn [wa_data]. now rewrite lupd_length.
  - unfold cell. cbn [weToDict wf_data we_accu wa_data].
    destruct (nth_error (wa_data (we_accu e)) (Z.to_nat ((n - 1) * tabsize m + i))) as [c|] eqn:E.
    + exists c. split; auto. now rewrite lupd_nth, Nat.eqb_refl, E.
    + apply nth_error_None in E. unfold wa_size in L. lia.
  - intros n' i' R' Ne. unfold cell. cbn [weToDict wf_data we_accu wa_data]. rewrite lupd_nth.
    destruct (Nat.eqb_spec (Z.to_nat ((n - 1) * tabsize m + i)) (Z.to_nat ((n' - 1) * tabsize m + i'))) as [E|]; auto.
    pose proof (cell_range m o n' i' R'). destruct Ne. destruct (cell_inj m o n i n' i' R R') as [-> ->]; auto. lia.
Qed.

(** *** operations *)
Inductive wop := WMeasure (i n : Z) (w : cplx) | WNorm (x : real) | WClear | WSqueeze (f : real) | WAnneal (b : real).
Definition wop1 (p : wop) (e : west) : outcome west :=
  match p with
  | WMeasure i n w => weMeasure i n w e | WNorm x => Ok (weMeasureNorm x e) | WClear => Ok (weClear e)
  | WSqueeze f => weSqueeze f e | WAnneal b => Ok (weAnneal b e)
  end.
Fixpoint wrun (l : list wop) (e : west) : outcome west := match l with [] => Ok e | p :: r => obind (wop1 p e) (wrun r) end.
Definition wop_ok (m : imap) (o : Z) (p : wop) : Prop :=
  match p with WMeasure i n _ => inr m o n i | WSqueeze f => rltb (rofZ 0) f = true | _ => True end.
Lemma wrun_ok m o : wepar m o -> forall l e, Forall (wop_ok m o) l -> WEok m o e -> exists e', wrun l e = Ok e' /\ WEok m o e'.
Proof.
  intros P. induction l as [|p l IH]; intros e F H; cbn [wrun]; [eauto|]. inversion F as [|? ? F1 F2]; subst.
  destruct p as [i n w|x| |f|b]; cbn [wop1 obind].
  - destruct (measure_ok m o e n i w P H F1) as (e' & -> & H' & _). cbn [obind]. auto.
  - apply IH; auto. destruct H; split; auto.
  - apply IH; auto. destruct H; split; auto. unfold wa_size, weClear, waFill in *. cbn. now rewrite repeat_length.
  - unfold weSqueeze. cbn in F1. rewrite F1. cbn [obind]. apply IH; auto. destruct H; split; auto. unfold wa_size in *. cbn. now rewrite map_length.
  - apply IH; auto. destruct H; split; auto.
Qed.
(** contributions to a cell since the last clear *)
Definition hits (n i : Z) (l : list (Z * Z * cplx)) : list cplx :=
  map snd (filter (fun q => (fst (fst q) =? i) && (snd (fst q) =? n)) l).
Lemma sums m o : wepar m o -> forall (l : list (Z * Z * cplx)) e, Forall (fun q => inr m o (snd (fst q)) (fst (fst q))) l -> WEok m o e ->
  exists e', wrun (map (fun q => WMeasure (fst (fst q)) (snd (fst q)) (snd q)) l) e = Ok e' /\ we_nacc e' = we_nacc e /\
  forall n i c, inr m o n i -> cell m e n i = Some c -> cell m e' n i = Some (fold_left cadd (hits n i l) c).
Proof.
  intros P. induction l as [|[[i0 n0] w] l IH]; intros e F H; cbn [map wrun]; [exists e; auto|].
  inversion F as [|? ? F1 F2]; subst. cbn [fst snd wop1] in *.
  destruct (measure_ok m o e n0 i0 w P H F1) as (e1 & E1 & H1 & _ & _ & N1 & (c1 & C1 & C1') & O1). rewrite E1. cbn [obind].
  destruct (IH e1 F2 H1) as (e' & E' & N' & C'). exists e'. split; [exact E'|]. split; [congruence|].
  intros n i c R C. unfold hits. cbn [filter fst snd]. destruct (Z.eqb_spec i0 i) as [->|Ni]; cbn [andb].
  - destruct (Z.eqb_spec n0 n) as [->|Nn].
    + cbn [map snd fold_left]. rewrite C in C1. injection C1 as <-. now apply C'.
    + apply C'; auto. rewrite O1; auto. congruence.
  - apply C'; auto. rewrite O1; auto. congruence.
Qed.

(** *** reload *)
Lemma eq_upto_refl l : eq_upto (List.length l) l l = Ok true.
Proof. induction l as [|x l IH]; cbn; auto. now rewrite Z.eqb_refl. Qed.
Lemma reload m o o' e e0 : wepar m o -> wepar m o' -> o <= o' -> WEok m o e -> WEok m o' e0 ->
  exists e', weFromDict (weToDict e) e0 = Ok e' /\ WEok m o' e' /\ we_norm e' = we_norm e /\ we_nacc e' = we_nacc e /\
  (forall n i, inr m o n i -> cell m e' n i = cell m e n i) /\
  (forall n i, inr m o' n i -> o < n -> cell m e' n i = Some c0).
Proof.
  intros (P1 & P2 & P3) (_ & P4 & P5) Le [L W S] [L0 W0 S0]. pose proof (tab_pos m P1) as TP.
  unfold weFromDict. cbn [weToDict wf_shape wf_data wf_norm wf_nacc]. rewrite S, S0. cbn [tl].
  change (List.length (o' :: shape m) - 1)%nat with (List.length (shape m)). rewrite eq_upto_refl. cbn [obind].
  assert (Q : prod32 (o :: shape m) = o * tabsize m) by (rewrite prod32_spec; [apply shape_prod|constructor; [lia|now apply shape_pos]|now rewrite shape_prod]).
  rewrite Q. assert (LL : List.length (wa_data (we_accu e)) = Z.to_nat (o * tabsize m)) by (unfold wa_size in L; lia).
  rewrite LL, Nat.ltb_irrefl, <- LL, firstn_all. unfold waCopy.
  assert (L0' : List.length (wa_data (waFill c0 (we_accu e0))) = Z.to_nat (o' * tabsize m)) by (unfold wa_size in L0; cbn; rewrite repeat_length; lia).
  destruct (Z.ltb_spec (wa_size (waFill c0 (we_accu e0))) (Z.of_nat (List.length (wa_data (we_accu e))))) as [X|_].
  { unfold wa_size in X. rewrite L0', LL in X. nia. }
  cbn [obind]. eexists. split; [reflexivity|]. split; [|split; [reflexivity|split; [reflexivity|split]]].
  - split; cbn [we_accu we_wsize wa_shape waFill]; auto. unfold wa_size. cbn [wa_data]. rewrite app_length, skipn_length, L0', LL. nia.
  - intros n i R. pose proof (cell_range m o n i R). unfold cell. cbn [weToDict wf_data we_accu wa_data]. apply nth_error_app1. rewrite LL. lia.
  - intros n i R Lt. pose proof (cell_range m o' n i R). unfold cell. cbn [weToDict wf_data we_accu wa_data].
    assert (o * tabsize m <= (n - 1) * tabsize m + i) by (destruct R; nia).
    rewrite nth_error_app2 by (rewrite LL; lia).
    assert (SK : forall k n, skipn k (repeat (@c0 N) n) = repeat c0 (n - k)).
    { induction k; intros [|q]; cbn; auto. }
    cbn [waFill wa_data]. rewrite SK. apply nth_repeat. rewrite LL. unfold wa_size in L0. lia.
Qed.
End WE.
