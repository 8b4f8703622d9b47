Require Import ZArith List Bool Arith Lia Reals Lra.
From Coquelicot Require Complex.
From Verif Require Import Squeeze SqueezeSpec P_Squeeze P_Squeeze2.
Import ListNotations.
Import Coquelicot.Complex.
Local Open Scope nat_scope.

Definition lsum {A} (f : A -> C) (l : list A) : C := fold_right (fun x a => Cplus (f x) a) (RtoC 0) l.
Lemma lsum_ext {A} (f g : A -> C) l : (forall x, In x l -> f x = g x) -> lsum f l = lsum g l.
Proof. induction l as [|x l IH]; intros H; [reflexivity|]. simpl. rewrite (H x (or_introl eq_refl)), IH; [reflexivity|]. intros y Hy. apply H. now right. Qed.
Lemma lsum_0 {A} (f : A -> C) l : (forall x, In x l -> f x = RtoC 0) -> lsum f l = RtoC 0.
Proof.
  induction l as [|x l IH]; intros H; [reflexivity|]. simpl. rewrite (H x (or_introl eq_refl)), IH; [apply Cplus_0_l|].
  intros y Hy. apply H. now right.
Qed.
Lemma lsum_1 {A} (f : A -> C) l x : NoDup l -> In x l -> (forall y, In y l -> y <> x -> f y = RtoC 0) -> lsum f l = f x.
Proof.
  intros N H Z. induction N as [|y l Hy N IH]; [contradiction|]. simpl. destruct H as [->|H].
  - rewrite lsum_0; [apply Cplus_0_r|]. intros z Hz. apply Z; [now right|]. intros ->. contradiction.
  - rewrite (Z y), Cplus_0_l; [|now left|intros ->; contradiction]. apply IH; [exact H|]. intros z Hz. apply Z. now right.
Qed.
Lemma lsum_2 {A} (f : A -> C) l x y : NoDup l -> In x l -> In y l -> x <> y ->
  (forall z, In z l -> z <> x -> z <> y -> f z = RtoC 0) -> lsum f l = Cplus (f x) (f y).
Proof.
  intros N Hx Hy D Z. induction N as [|z l Hz N IH]; [contradiction|]. simpl. destruct Hx as [->|Hx], Hy as [->|Hy].
  - now elim D.
  - f_equal. apply lsum_1; [exact N|exact Hy|]. intros w Hw Hn. apply Z; [now right|intros ->; contradiction|exact Hn].
  - rewrite Cplus_comm. f_equal. apply lsum_1; [exact N|exact Hx|]. intros w Hw Hn. apply Z; [now right|exact Hn|intros ->; contradiction].
  - rewrite (Z z), Cplus_0_l; [|now left|intros ->; contradiction|intros ->; contradiction].
    apply IH; [exact Hx|exact Hy|]. intros w Hw. apply Z. now right.
Qed.
Lemma lsum_app {A} (f : A -> C) l m : lsum f (l ++ m) = Cplus (lsum f l) (lsum f m).
Proof. induction l as [|x l IH]; simpl; [now rewrite Cplus_0_l|]. now rewrite IH, Cplus_assoc. Qed.
Lemma lsum_prod {A B} (f : A * B -> C) l m : lsum f (list_prod l m) = lsum (fun x => lsum (fun y => f (x, y)) m) l.
Proof.
  induction l as [|x l IH]; simpl; [reflexivity|]. rewrite lsum_app, IH. f_equal.
  clear IH. induction m as [|y m IH]; simpl; [reflexivity|]. now rewrite IH.
Qed.
Lemma lsum_map {A B} (f : B -> C) (g : A -> B) l : lsum f (map g l) = lsum (fun x => f (g x)) l.
Proof. induction l as [|x l IH]; simpl; [reflexivity|]. now rewrite IH. Qed.
Lemma lsum_count {A} (p : A -> bool) (k : C) l :
  lsum (fun x => if p x then k else RtoC 0) l = Cmult (RtoC (INR (length (filter p l)))) k.
Proof.
  induction l as [|x l IH]; [simpl; now rewrite Cmult_0_l|].
  cbn [lsum fold_right filter]. fold (lsum (fun x => if p x then k else RtoC 0) l). rewrite IH.
  destruct (p x); [|apply Cplus_0_l]. cbn [length]. rewrite S_INR, RtoC_plus. ring.
Qed.

Lemma accumulate_sum n s Lx Ly l i j : accumulate n s Lx Ly l i j =
  lsum (fun e => let '(v, (t1, t2), w) := e in let '((a, b), x) := deposit n s Lx Ly v t1 t2 w in
                 if (i =? a) && (j =? b) then x else RtoC 0) l.
Proof.
  unfold accumulate.
  assert (H : forall acc, fold_left (fun acc e => let '(v, (t1, t2), w) := e in
    let '((i, j), x) := deposit n s Lx Ly v t1 t2 w in
    fun a b => if (a =? i) && (b =? j) then Cplus (acc a b) x else acc a b) l acc i j =
    Cplus (acc i j) (lsum (fun e => let '(v, (t1, t2), w) := e in let '((a, b), x) := deposit n s Lx Ly v t1 t2 w in
                 if (i =? a) && (j =? b) then x else RtoC 0) l)).
  { induction l as [|[[v [t1 t2]] w] l IH]; intros acc; cbn [fold_left].
    - cbn. now rewrite Cplus_0_r.
    - rewrite IH. cbn [lsum fold_right]. destruct (deposit n s Lx Ly v t1 t2 w) as [[a b] x].
      destruct ((i =? a) && (j =? b)).
      + now rewrite Cplus_assoc.
      + now rewrite Cplus_0_l. }
  rewrite H. apply Cplus_0_l.
Qed.

Lemma everything_in n all (G : gammaW) v a b w : In (v, (a, b), w) (everything n all G) <-> In v all /\ a < n /\ b < n /\ w = G 0 v a b.
Proof.
  unfold everything. rewrite in_map_iff. split.
  - intros ([u [x y]] & E & H). injection E as -> -> -> <-. apply in_prod_iff in H as [H1 H2].
    apply in_prod_iff in H2 as [H2 H3]. apply in_seq in H2, H3. repeat split; try assumption; lia.
  - intros (H1 & H2 & H3 & ->). exists (v, (a, b)). split; [reflexivity|]. apply in_prod; [exact H1|].
    apply in_prod; apply in_seq; lia.
Qed.
Lemma prod_nodup {A B} (l : list A) (m : list B) : NoDup l -> NoDup m -> NoDup (list_prod l m).
Proof.
  intros Hl Hm. induction Hl as [|x l Hx Hl IH]; simpl; [constructor|]. apply nodup_app.
  - apply FinFun.Injective_map_NoDup; [intros u v E; congruence|exact Hm].
  - exact IH.
  - intros [a b] H1 H2. apply in_map_iff in H1 as (y & E & _). injection E as -> ->. apply in_prod_iff in H2 as [H2 _]. contradiction.
Qed.

Lemma class_size s Lx Ly all v : closed s Lx Ly -> NoDup all -> (forall u, In u all <-> inside Lx Ly u) -> inside Lx Ly v ->
  length (filter (fun u => rSqueeze (siteMap s Lx Ly) v =? rSqueeze (siteMap s Lx Ly) u) all) = rSym (siteMap s Lx Ly) v.
Proof.
  intros C N A D. destruct (squeeze_counts s Lx Ly v C D) as (l & Nl & <- & L).
  assert (E : forall u, In u (filter (fun u => rSqueeze (siteMap s Lx Ly) v =? rSqueeze (siteMap s Lx Ly) u) all) <-> In u l).
  { intros u. rewrite filter_In, A, L, Nat.eqb_eq. split; intros [U H]; (split; [exact U|]).
    - now apply squeeze_alike.
    - symmetry. now apply squeeze_alike. }
  apply Nat.le_antisymm; apply NoDup_incl_length; try assumption; [now apply NoDup_filter|intros u Hu; now apply E|intros u Hu; now apply E].
Qed.
Lemma sym_alike s Lx Ly u v : closed s Lx Ly -> inside Lx Ly u -> inside Lx Ly v -> alike s Lx Ly u v ->
  rSym (siteMap s Lx Ly) u = rSym (siteMap s Lx Ly) v.
Proof.
  intros C U V A. destruct (site_map s Lx Ly C) as (I & _). destruct (I u U) as [-> _], (I v V) as [-> _].
  apply (orbit_length (MirrorR s Lx Ly) (inside Lx Ly)); try assumption.
  - intros a b w D. now apply M_eq.
  - intros a. apply distinct_nodup.
  - now apply alike_spec.
Qed.
Lemma sym_pos s Lx Ly v : closed s Lx Ly -> inside Lx Ly v -> rSym (siteMap s Lx Ly) v <> 0.
Proof.
  intros C D. destruct (squeeze_counts s Lx Ly v C D) as (l & _ & E & L). intros F. rewrite <- E in F.
  destruct l; [|discriminate]. apply (proj2 (L v)). split; [exact D|]. apply alike_spec; try assumption. apply M_refl.
Qed.

Lemma pair_dec (x y : nat * nat) : {x = y} + {x <> y}.
Proof. decide equality; apply Nat.eq_dec. Qed.

Lemma conj_div_real z r : r <> 0%R -> Cconj (Cdiv z (RtoC r)) = Cdiv (Cconj z) (RtoC r).
Proof.
  intros H. destruct z as [a b]. unfold Cdiv, Cinv, Cmult, Cconj, RtoC. cbn [fst snd].
  apply injective_projections; cbn [fst snd]; field; nra.
Qed.

Lemma average n s Lx Ly all G v t1 t2 : closed s Lx Ly -> NoDup all -> (forall u, In u all <-> inside Lx Ly u) ->
  symmetric s Lx Ly n G -> inside Lx Ly v -> n <= 257 -> t1 <= t2 -> t2 < n ->
  accumulate n s Lx Ly (everything n all G) (rSqueeze (siteMap s Lx Ly) v) (tauSqueeze (timeMap n) t1 t2) =
  if t1 =? t2 then G 0 v t1 t2 else Cdiv (Cminus (G 0 v t1 t2) (Cconj (G 0 v t2 t1))) (RtoC 2).
Proof.
  intros C N A S D N257 L12 L2. rewrite accumulate_sum. unfold everything. rewrite lsum_map, lsum_prod.
  set (i := rSqueeze (siteMap s Lx Ly) v). set (j := tauSqueeze (timeMap n) t1 t2).
  set (k := Cdiv (if t1 =? t2 then G 0 v t1 t2 else Cdiv (Cminus (G 0 v t1 t2) (Cconj (G 0 v t2 t1))) (RtoC 2)) (RtoC (INR (rSym (siteMap s Lx Ly) v)))).
  assert (P : RtoC (INR (rSym (siteMap s Lx Ly) v)) <> RtoC 0).
  { intros F. apply RtoC_inj in F. apply (INR_eq _ 0) in F. now apply (sym_pos s Lx Ly v C D). }
  assert (P2 : RtoC 2 <> RtoC 0) by (intros F; apply RtoC_inj in F; lra).
  rewrite (lsum_ext _ (fun u => if i =? rSqueeze (siteMap s Lx Ly) u then k else RtoC 0)).
  - rewrite lsum_count. unfold i. rewrite class_size by assumption. unfold k. field. exact P.
  - intros u Hu. apply A in Hu. destruct (Nat.eqb_spec i (rSqueeze (siteMap s Lx Ly) u)) as [E|E].
    2:{ apply lsum_0. intros [a b] _. unfold deposit. apply Nat.eqb_neq in E. rewrite E. reflexivity. }
    assert (Al : alike s Lx Ly u v) by (apply squeeze_alike; try assumption; now symmetry).
    assert (Nd : NoDup (list_prod (seq 0 n) (seq 0 n))) by (apply prod_nodup; apply seq_NoDup).
    assert (M : forall a b, In (a, b) (list_prod (seq 0 n) (seq 0 n)) <-> a < n /\ b < n).
    { intros a b. rewrite in_prod_iff, !in_seq. lia. }
    assert (Gs : forall a b, a < n -> b < n -> G 0 u a b = G 0 v a b) by (intros a b Ha Hb; now apply S).
    assert (Other : forall z, In z (list_prod (seq 0 n) (seq 0 n)) -> z <> (t1, t2) -> z <> (t2, t1) ->
       (let '(v', (t0, t3), w) := (let '(v', (a, b)) := (u, z) in (v', (a, b), G 0 v' a b)) in
        let '(a, b, x) := deposit n s Lx Ly v' t0 t3 w in if (i =? a) && (j =? b) then x else RtoC 0) = RtoC 0).
    { intros [a b] Hz Z1 Z2. apply M in Hz as [Ha Hb]. unfold deposit.
      destruct (Nat.eqb_spec j (tauSqueeze (timeMap n) a b)) as [F|F]; [|now rewrite andb_false_r].
      unfold j in F. apply tau_unordered in F; try lia. destruct F as [[-> ->]|[-> ->]]; congruence. }
    assert (Ss := sym_alike s Lx Ly u v C Hu D Al).
    destruct (Nat.eqb_spec t1 t2) as [T|T].
    + subst t2. rewrite (lsum_1 _ _ (t1, t1) Nd); [|apply M; lia|intros z Hz Hn; now apply Other].
      unfold deposit. destruct (tau_factors n t1 t1 N257 L2 L2) as [-> ->]. rewrite Nat.eqb_refl, Nat.ltb_irrefl.
      rewrite <- E, Nat.eqb_refl. unfold j. rewrite Nat.eqb_refl. cbn [andb Nat.eqb]. rewrite ?Nat.eqb_refl, Nat.mul_1_r, Ss, Gs by assumption. unfold k. rewrite ?Nat.eqb_refl. reflexivity.
    + rewrite (lsum_2 _ _ (t1, t2) (t2, t1) Nd); [|apply M; lia|apply M; lia|congruence|exact Other].
      unfold deposit. assert (L1 : t1 < n) by lia.
      destruct (tau_factors n t1 t2 N257 L1 L2) as [-> ->], (tau_factors n t2 t1 N257 L2 L1) as [-> ->].
      destruct (Nat.eqb_spec t1 t2); [lia|]. destruct (Nat.eqb_spec t2 t1); [lia|].
      destruct (Nat.ltb_spec t2 t1); [lia|]. destruct (Nat.ltb_spec t1 t2); [|lia].
      destruct (time_inv n t1 t2 L1 L2) as (_ & -> & _). fold j.
      rewrite <- E, !Nat.eqb_refl. cbn [andb Nat.eqb]. rewrite Ss, !Gs by assumption. unfold k.
      rewrite mult_INR, RtoC_mult. replace (INR 2) with 2%R by (simpl; ring).
      rewrite <- RtoC_mult, conj_div_real, RtoC_mult by (intros F; apply RtoC_inj in F || idtac; apply Rmult_integral in F as [F|F]; [apply P; now rewrite F|lra]). field. split; assumption.
Qed.

Lemma average_swap n s Lx Ly all G p q t1 t2 : closed s Lx Ly -> NoDup all -> (forall u, In u all <-> inside Lx Ly u) ->
  symmetric s Lx Ly n G -> exchanged Lx Ly n G -> inside Lx Ly (p, q) -> n <= 257 -> t1 < t2 -> t2 < n ->
  accumulate n s Lx Ly (everything n all G) (rSqueeze (siteMap s Lx Ly) (p, q)) (tauSqueeze (timeMap n) t1 t2) =
  Cdiv (Cplus (G 0 (p, q) t1 t2) (G 0 (q, p) t1 t2)) (RtoC 2).
Proof.
  intros C N A S X D N257 L1 L2. rewrite average; try assumption; [|lia]. destruct (Nat.eqb_spec t1 t2); [lia|].
  unfold Cminus. rewrite (X 0 q p t1 t2); [reflexivity|now apply inside_swap|lia|lia].
Qed.
Lemma average_diagonal n s Lx Ly all G v t : closed s Lx Ly -> NoDup all -> (forall u, In u all <-> inside Lx Ly u) ->
  symmetric s Lx Ly n G -> inside Lx Ly v -> n <= 257 -> t < n ->
  accumulate n s Lx Ly (everything n all G) (rSqueeze (siteMap s Lx Ly) v) (tauSqueeze (timeMap n) t t) = G 0 v t t.
Proof.
  intros C N A S D N257 L. rewrite average; try assumption; [|lia]. now rewrite Nat.eqb_refl.
Qed.
Lemma list22 : NoDup (siteList 2 2).
Proof. replace (siteList 2 2) with (distinct (siteList 2 2)) by (vm_compute; reflexivity). apply distinct_nodup. Qed.
Lemma measured_mixed : exists n s Lx Ly all G v t1 t2,
  closed s Lx Ly /\ n <= 257 /\ NoDup all /\ (forall u, In u all <-> inside Lx Ly u) /\
  symmetric s Lx Ly n G /\ exchanged Lx Ly n G /\ inside Lx Ly v /\ t1 < t2 /\ t2 < n /\
  accumulate n s Lx Ly (everything n all G) (rSqueeze (siteMap s Lx Ly) v) (tauSqueeze (timeMap n) t1 t2) <> G 0 v t1 t2.
Proof.
  exists 2, Square, 2%Z, 2%Z, (siteList 2 2), G0, (swapV v0), 0, 1.
  assert (D : inside 2 2 (swapV v0)) by (unfold v0, swapV, inside, onLattice; cbn [fst snd]; lia).
  split; [exact I|]. split; [lia|]. split; [apply list22|]. split; [apply siteList_in|].
  split; [apply G0_symmetric|]. split; [apply G0_exchanged|]. split; [exact D|]. split; [lia|]. split; [lia|].
  unfold swapV at 1, v0 at 1 2. cbn [fst snd].
  rewrite average_swap; [|exact I|apply list22|apply siteList_in|apply G0_symmetric|apply G0_exchanged|exact D|lia|lia|lia].
  unfold G0. cbn. intros E. apply (f_equal fst) in E. cbn in E. lra.
Qed.
