(** * Proofs for C143-C144: process numbers and the queue. *)
Require Import String Ascii List Arith Bool ZArith Reals Lia Lra Permutation Sorted.
Require Import DecimalString DecimalNat.
Require Import Verif.Manager.
Import ListNotations.
Local Open Scope string_scope.
Local Open Scope list_scope.
Local Open Scope nat_scope.

(** ** Strings *)

Fixpoint has (c : ascii) (s : string) : Prop :=
  match s with EmptyString => False | String d s => c = d \/ has c s end.

Lemma first_part s t : ~ has "_" s -> firstPart (append s (String "_" t)) = s.
Proof.
  induction s as [|c s IH]; intros H; [reflexivity|]. cbn [append firstPart].
  destruct (Ascii.eqb_spec c "_") as [->|N]; [exfalso; apply H; now left|].
  rewrite IH; [reflexivity|]. intros K. apply H. now right.
Qed.

Lemma empty_digits c d : has c (NilEmpty.string_of_uint d) ->
  In c ["0"; "1"; "2"; "3"; "4"; "5"; "6"; "7"; "8"; "9"]%char.
Proof.
  induction d; cbn [NilEmpty.string_of_uint has]; [now intros []|..]; intros [->|H];
    try (now apply IHd); cbn; tauto.
Qed.

Lemma dec_digits c n : has c (dec n) -> In c ["0"; "1"; "2"; "3"; "4"; "5"; "6"; "7"; "8"; "9"]%char.
Proof.
  unfold dec, NilZero.string_of_uint. destruct (Nat.to_uint n) eqn:E; intros H;
    try (rewrite <- ?E in H; now apply empty_digits in H).
  cbn in H. destruct H as [->|[]]. cbn. tauto.
Qed.

Lemma dec_no c n : ~ In c ["0"; "1"; "2"; "3"; "4"; "5"; "6"; "7"; "8"; "9"]%char -> ~ has c (dec n).
Proof. intros H K. apply H. now apply dec_digits in K. Qed.

Lemma dec_int n : toInt (dec n) = Some n.
Proof.
  unfold toInt, dec. rewrite NilZero.usu.
  - cbn. now rewrite Unsigned.of_to.
  - intros E. pose proof (Unsigned.of_to n) as H. rewrite E in H. cbn in H. subst n. discriminate E.
Qed.

Lemma dec_inj m n : dec m = dec n -> m = n.
Proof. intros E. pose proof (dec_int m) as H. rewrite E, dec_int in H. now injection H. Qed.

Lemma dec_head n : exists c s, dec n = String c s.
Proof.
  destruct (dec n) as [|c s] eqn:E; [|now exists c, s]. pose proof (dec_int n) as H. rewrite E in H. discriminate H.
Qed.

Lemma substring_app p s : substring (String.length p) (String.length s) (append p s) = s.
Proof.
  induction p as [|c p IH]; cbn; [|exact IH]. induction s as [|c s IH]; cbn; [reflexivity|]. now rewrite IH.
Qed.

Lemma prefix_sub s t : substring 0 (String.length s) (append s t) = s.
Proof. induction s as [|c s IH]; cbn; [now destruct t|]. now rewrite IH. Qed.

Lemma substring_mid p s t : substring (String.length p) (String.length s) (append p (append s t)) = s.
Proof. induction p as [|c p IH]; cbn; [apply prefix_sub|exact IH]. Qed.

Lemma append_assoc (a b c : string) : append (append a b) c = append a (append b c).
Proof. induction a as [|x a IH]; cbn; [reflexivity|]. now rewrite IH. Qed.

Lemma index_mid p s t : s <> EmptyString -> index 0 s (append p (append s t)) <> None.
Proof.
  intros Hs E. apply (index_correct3 0 (String.length p) _ _ E Hs); [lia|]. apply substring_mid.
Qed.

Lemma append_inv_head a b c : append a b = append a c -> b = c.
Proof. induction a as [|x a IH]; cbn; [trivial|]. intros E. injection E as E. now apply IH. Qed.

Lemma append_length a b : String.length (append a b) = String.length a + String.length b.
Proof. induction a as [|x a IH]; cbn; [reflexivity|]. now rewrite IH. Qed.

Lemma append_inv_tail a b c : append a c = append b c -> a = b.
Proof.
  intros E. pose proof (f_equal String.length E) as L. rewrite !append_length in L.
  assert (La : String.length a = String.length b) by lia. clear L.
  pose proof (prefix_sub a c) as P. rewrite E, La, prefix_sub in P. now symmetry.
Qed.

(** ** Process numbers *)

Lemma picked_statis n : picked "statis" (statisFile n) = true.
Proof.
  unfold picked, statisFile.
  replace (append (dec n) "_MC_statis.hkl") with (append (append (dec n) "_MC_") (append "statis" ".hkl"))
    by (rewrite append_assoc; reflexivity).
  destruct (index 0 "statis" (append (append (dec n) "_MC_") (append "statis" ".hkl"))) eqn:E.
  - rewrite append_assoc. destruct (dec_head n) as (c & s & D). rewrite D. cbn [append].
    apply negb_true_iff, Ascii.eqb_neq. intros ->. apply (dec_no "_" n).
    + cbn. intuition discriminate.
    + rewrite D. now left.
  - exfalso. revert E. apply index_mid. discriminate.
Qed.

Lemma statis_pid n : toInt (firstPart (statisFile n)) = Some n.
Proof.
  unfold statisFile. change "_MC_statis.hkl" with (String "_" "MC_statis.hkl").
  rewrite first_part; [apply dec_int|]. apply dec_no. cbn. intuition discriminate.
Qed.

Lemma insert_perm n l : Permutation (insert n l) (n :: l).
Proof.
  induction l as [|m l IH]; cbn; [reflexivity|]. destruct (n <=? m); [reflexivity|].
  rewrite IH. apply perm_swap.
Qed.

Lemma sorted_perm l : Permutation (sorted l) l.
Proof. induction l as [|n l IH]; cbn; [reflexivity|]. rewrite insert_perm. now rewrite IH. Qed.

Lemma insert_sorted n l : StronglySorted le l -> StronglySorted le (insert n l).
Proof.
  induction l as [|m l IH]; intros H; cbn; [repeat constructor|]. inversion H as [|x y Hl Hm]; subst.
  destruct (Nat.leb_spec n m).
  - constructor; [exact H|]. constructor; [lia|]. eapply Forall_impl; [|exact Hm]. intros; cbn in *; lia.
  - constructor; [now apply IH|]. rewrite Forall_forall. intros x Hx.
    apply (Permutation_in _ (insert_perm n l)) in Hx. destruct Hx as [<-|Hx]; [lia|].
    rewrite Forall_forall in Hm. now apply Hm.
Qed.

Lemma sorted_sorted l : StronglySorted le (sorted l).
Proof. induction l as [|n l IH]; cbn; [constructor|]. now apply insert_sorted. Qed.

Lemma sorted_unique l l' : StronglySorted le l -> StronglySorted le l' -> Permutation l l' -> l = l'.
Proof.
  revert l'. induction l as [|x l IH]; intros l' H H' P.
  - apply Permutation_nil in P. now subst.
  - destruct l' as [|y l']; [apply Permutation_sym, Permutation_nil in P; discriminate|].
    inversion H as [|? ? Hl Hx]; inversion H' as [|? ? Hl' Hy]; subst.
    rewrite Forall_forall in Hx, Hy.
    assert (x = y).
    { assert (In x (y :: l')) by (eapply Permutation_in; [exact P|now left]).
      assert (In y (x :: l)) by (eapply Permutation_in; [symmetry; exact P|now left]).
      cbn in *. destruct H0 as [|H0]; [congruence|]. destruct H1 as [|H1]; [congruence|].
      specialize (Hx _ H1). specialize (Hy _ H0). lia. }
    subst y. f_equal. apply IH; auto. now apply Permutation_cons_inv in P.
Qed.

Lemma allSome_map {A B} (f : A -> option B) (g : A -> B) l : (forall x, In x l -> f x = Some (g x)) ->
  allSome (map f l) = Some (map g l).
Proof.
  induction l as [|x l IH]; intros H; [reflexivity|]. cbn. rewrite (H x (or_introl eq_refl)).
  rewrite IH; [reflexivity|]. intros y Hy. apply H. now right.
Qed.

Lemma allSome_perm {A} (l l' : list (option A)) m : Permutation l l' -> allSome l = Some m ->
  exists m', allSome l' = Some m' /\ Permutation m m'.
Proof.
  intros P. revert m. induction P; intros m E.
  - now exists m.
  - cbn in *. destruct x; [|discriminate]. destruct (allSome l) as [k|]; [|discriminate]. cbn in E. injection E as <-.
    destruct (IHP k eq_refl) as (k' & -> & Q). cbn. exists (a :: k'). split; [reflexivity|now constructor].
  - cbn in *. destruct y, x; try discriminate; destruct (allSome l) as [k|]; try discriminate. cbn in *. injection E as <-.
    eexists. split; [reflexivity|]. apply perm_swap.
  - destruct (IHP1 m E) as (m1 & E1 & Q1). destruct (IHP2 m1 E1) as (m2 & E2 & Q2). exists m2. split; [exact E2|].
    now rewrite Q1.
Qed.

Lemma filter_perm {A} f (l l' : list A) : Permutation l l' -> Permutation (filter f l) (filter f l').
Proof.
  induction 1; cbn; [constructor|..].
  - destruct (f x); [now constructor|assumption].
  - destruct (f x), (f y); try reflexivity. apply perm_swap.
  - etransitivity; eassumption.
Qed.

Lemma filter_none {A} f (l : list A) : (forall x, In x l -> f x = false) -> filter f l = [].
Proof.
  induction l as [|x l IH]; intros H; [reflexivity|]. cbn. rewrite (H x (or_introl eq_refl)). apply IH.
  intros y Hy. apply H. now right.
Qed.

Definition foreign (e : string) : Prop := index 0 "statis" e = None \/ exists s, e = String "_" s.

Lemma foreign_picked e : foreign e -> picked "statis" e = false.
Proof.
  unfold picked. intros [->|[s ->]]; [reflexivity|]. destruct (index _ _ _); reflexivity.
Qed.

Lemma current_law dir pids rest : Permutation dir (map statisFile pids ++ rest) -> Forall foreign rest ->
  exists l, currentPID "statis" dir = Some (l, match List.rev l with [] => 0 | m :: _ => m + 1 end) /\
    Permutation l pids /\ StronglySorted le l.
Proof.
  intros P F. unfold currentPID.
  assert (E : allSome (map (fun e => toInt (firstPart e)) (filter (picked "statis") (map statisFile pids ++ rest))) = Some pids).
  { rewrite filter_app. rewrite (filter_none _ rest).
    - rewrite app_nil_r.
      replace (filter (picked "statis") (map statisFile pids)) with (map statisFile pids).
      + rewrite map_map. rewrite (allSome_map _ (fun n => n)); [now rewrite map_id|]. intros n _. apply statis_pid.
      + clear P. induction pids as [|p l IH]; [reflexivity|]. cbn [map filter]. rewrite picked_statis. now rewrite <- IH.
    - intros e He. apply foreign_picked. rewrite Forall_forall in F. now apply F. }
  destruct (allSome_perm _ _ _ (Permutation_map _ (filter_perm _ _ _ (Permutation_sym P))) E) as (m & -> & Q).
  eexists. split; [reflexivity|]. split; [|apply sorted_sorted]. rewrite sorted_perm. now symmetry.
Qed.

Lemma fresh_law dir dup cluster auto : Forall foreign dir ->
  jobMC dir dup cluster auto = Some (mkJob "MC" (seq 0 dup) false cluster auto true).
Proof.
  intros F. destruct (current_law dir [] dir (Permutation_refl _) F) as (l & E & P & _).
  apply Permutation_sym, Permutation_nil in P. subst l. unfold jobMC. now rewrite E.
Qed.

Lemma firstn_sorted k l : StronglySorted le l -> NoDup l ->
  forall p q, In p (firstn k l) -> In q l -> ~ In q (firstn k l) -> p < q.
Proof.
  revert k. induction l as [|x l IH]; intros k H N p q Hp Hq Hn; [destruct Hq|].
  destruct k as [|k]; [destruct Hp|]. inversion H as [|? ? Hl Hx]; inversion N as [|? ? Nx Nl]; subst.
  cbn [firstn] in *. destruct Hq as [->|Hq]; [exfalso; apply Hn; now left|].
  destruct Hp as [->|Hp].
  - rewrite Forall_forall in Hx. specialize (Hx q Hq). assert (p <> q) by (intros ->; contradiction). lia.
  - apply (IH k Hl Nl p q Hp Hq). intros K. apply Hn. now right.
Qed.

Lemma nodup_left {A} (l m : list A) : NoDup (l ++ m) -> NoDup l.
Proof.
  induction l as [|x l IH]; intros N; [constructor|]. inversion N as [|? ? Hx Hl]; subst. constructor; [|now apply IH].
  intros K. apply Hx, in_or_app. now left.
Qed.

Lemma resume_law dir pids rest dup cluster auto : pids <> [] -> NoDup pids ->
  Permutation dir (map statisFile pids ++ rest) -> Forall foreign rest ->
  exists l, jobMC dir dup cluster auto = Some (mkJob "MC" l true cluster auto true) /\
    NoDup l /\ incl l pids /\ List.length l = Nat.min dup (List.length pids) /\
    forall p q, In p l -> In q pids -> ~ In q l -> p < q.
Proof.
  intros Hn N P F. destruct (current_law dir pids rest P F) as (l & E & Q & S').
  exists (firstn dup l). unfold jobMC. rewrite E.
  assert (Nl : NoDup l) by (eapply Permutation_NoDup; [symmetry; exact Q|exact N]).
  destruct l as [|x l]; [apply Permutation_nil in Q; now subst|]. set (l' := x :: l) in *.
  split; [reflexivity|]. split.
  { rewrite <- (firstn_skipn dup l') in Nl. now apply nodup_left in Nl. }
  split. { intros y Hy. eapply Permutation_in; [exact Q|]. rewrite <- (firstn_skipn dup l'). apply in_or_app. now left. }
  split. { rewrite firstn_length. now rewrite (Permutation_length Q). }
  intros p q Hp Hq Hnq. apply (firstn_sorted dup l' S' Nl p q Hp); [|exact Hnq].
  eapply Permutation_in; [symmetry; exact Q|exact Hq].
Qed.

Lemma fewer_refuted : exists dir dup j, jobMC dir dup false true = Some j /\ List.length (j_pids j) < dup.
Proof. exists [statisFile 5], 4. eexists. split; [vm_compute; reflexivity|]. cbn. lia. Qed.

Lemma copy_refuted : exists dir j, jobMC dir 2 false true = Some j /\ NoDup dir /\ ~ NoDup (j_pids j).
Proof.
  exists [statisFile 5; "5_MC_statis.bak"]. eexists. split; [vm_compute; reflexivity|]. split.
  - constructor; [cbn; intuition discriminate|]. constructor; [tauto|constructor].
  - cbn. intros N. inversion N as [|? ? H _]; subst. apply H. now left.
Qed.

Lemma name_refuted : exists dir, In "statis_old" dir /\ forall dup cluster auto, jobMC dir dup cluster auto = None.
Proof. exists [statisFile 5; "statis_old"]. split; [cbn; tauto|]. intros. reflexivity. Qed.

(** ** Timers *)

Lemma jitter_law timer u : (1 < timer)%Z -> (8/10 <= u <= 12/10)%R ->
  (0 < jitter timer u)%Z /\ (8/10 * IZR timer - 1 < IZR (jitter timer u) <= 12/10 * IZR timer)%R.
Proof.
  intros Ht Hu. unfold jitter. cbv zeta.
  assert (T2 : (2 <= IZR timer)%R) by (apply (IZR_le 2); lia).
  destruct (Rle_dec 0 (IZR timer * u)) as [_|N]; [|exfalso; apply N; nra].
  destruct (base_Int_part (IZR timer * u)) as [B1 B2].
  set (k := Int_part (IZR timer * u)) in *. split; [|nra].
  assert (0 < IZR k)%R by nra. now apply lt_IZR.
Qed.

Lemma timer_refuted : exists timer u, (0 < timer)%Z /\ (8/10 <= u <= 12/10)%R /\ jitter timer u = 0%Z.
Proof.
  exists 1%Z, (9/10)%R. split; [lia|]. split; [lra|]. unfold jitter. cbv zeta.
  destruct (Rle_dec 0 (1 * (9/10))) as [_|N]; [|exfalso; apply N; lra].
  destruct (base_Int_part (1 * (9/10))) as [B1 B2]. set (k := Int_part _) in *.
  assert (k < 1)%Z by (apply lt_IZR; lra). assert (-1 < k)%Z by (apply lt_IZR; lra). lia.
Qed.

(** ** The queue *)

Lemma partition_perm {A} f (l : list A) : Permutation (filter (fun x => negb (f x)) l ++ filter f l) l.
Proof.
  induction l as [|x l IH]; cbn; [constructor|]. destruct (f x); cbn.
  - rewrite <- Permutation_middle. now constructor.
  - now constructor.
Qed.

Lemma queue_law todo : Permutation (queueBack todo ++ queue todo) (flat_map atoms todo).
Proof. apply partition_perm. Qed.

Lemma infile_inj a b : ~ has "_" (a_name a) -> ~ has "_" (a_name b) -> infile a = infile b ->
  a_name a = a_name b /\ a_pid a = a_pid b.
Proof.
  unfold infile. intros Ha Hb E. apply append_inv_head in E.
  pose proof (f_equal firstPart E) as N.
  change (append "_" ?x) with (String "_" x) in *. rewrite !first_part in N by assumption.
  split; [exact N|]. rewrite N in E. apply append_inv_head in E. injection E as E.
  apply append_inv_tail in E. now apply dec_inj.
Qed.

Lemma atoms_name j a : In a (atoms j) -> a_name a = j_type j /\ In (a_pid a) (j_pids j).
Proof. unfold atoms. rewrite in_map_iff. intros (p & <- & H). split; [reflexivity|exact H]. Qed.

Lemma distinct_law todo : NoDup (map j_type todo) -> Forall (fun j => ~ has "_" (j_type j) /\ NoDup (j_pids j)) todo ->
  NoDup (map infile (queueBack todo ++ queue todo)).
Proof.
  intros N F. apply (Permutation_NoDup (Permutation_map infile (Permutation_sym (queue_law todo)))).
  induction todo as [|j todo IH]; [constructor|]. inversion N as [|? ? Nj Nt]; inversion F as [|? ? [U Np] Ft]; subst.
  cbn [flat_map]. rewrite map_app.
  assert (A : NoDup (map infile (atoms j))).
  { unfold atoms. rewrite map_map. clear - U Np. induction (j_pids j) as [|p l IHl]; [constructor|].
    inversion Np as [|? ? Hp Hl]; subst. cbn [map]. constructor; [|now apply IHl].
    rewrite in_map_iff. intros (q & E & Hq). apply infile_inj in E; [|exact U..]. destruct E as [_ E]. cbn in E. congruence. }
  specialize (IH Nt Ft). rewrite Forall_forall in Ft.
  assert (D : forall x, In x (map infile (atoms j)) -> ~ In x (map infile (flat_map atoms todo))).
  { intros x Hx Hy. apply in_map_iff in Hx, Hy. destruct Hx as (a & <- & Ha), Hy as (b & E & Hb).
    apply in_flat_map in Hb. destruct Hb as (k & Hk & Hb). destruct (atoms_name _ _ Ha) as [Ea _], (atoms_name _ _ Hb) as [Eb _].
    apply infile_inj in E; [|rewrite Eb; now apply Ft|rewrite Ea; exact U]. destruct E as [E _].
    apply Nj. rewrite <- Ea, <- E, Eb. now apply in_map. }
  clear - A IH D. induction (map infile (atoms j)) as [|x l IHl]; [exact IH|]. inversion A as [|? ? Hx Hl]; subst.
  cbn [app]. constructor.
  - rewrite in_app_iff. intros [K|K]; [contradiction|]. apply (D x (or_introl eq_refl) K).
  - apply IHl; [exact Hl|]. intros y Hy. apply D. now right.
Qed.

Lemma clash_refuted : exists dir j1 j2, Forall foreign dir /\ jobMC dir 2 false true = Some j1 /\ jobMC dir 3 false true = Some j2 /\
  exists a b x, nth_error (queue [j1; j2]) 0 = Some a /\ nth_error (queue [j1; j2]) 2 = Some b /\
    infile a = x /\ infile b = x.
Proof.
  exists []. eexists. eexists. split; [constructor|]. split; [vm_compute; reflexivity|]. split; [vm_compute; reflexivity|].
  eexists. eexists. eexists. split; [vm_compute; reflexivity|]. split; [vm_compute; reflexivity|]. split; vm_compute; reflexivity.
Qed.
