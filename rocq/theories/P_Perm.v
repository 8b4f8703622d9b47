(** Permutations of the 20 slots and their cycles (mathcomp) *)
From mathcomp Require Import all_ssreflect fingroup perm.
From Coq Require Import Permutation Arith Lia.
Set Implicit Arguments. Unset Strict Implicit. Unset Printing Implicit Defensive.

Definition swapn (a b x : nat) : nat := if x == a then b else if x == b then a else x.
Definition rep (f : nat -> nat) (p : {perm 'I_20}) : Prop := forall x : 'I_20, f x = p x :> nat.
(** the parity of a map of the slots *)
Definition par (f : nat -> nat) (s : bool) : Prop := exists p, rep f p /\ odd_perm p = s.

Lemma par_ext f g s : (forall x, (x < 20)%coq_nat -> f x = g x) -> par f s -> par g s.
Proof.
  move=> H [p [R E]]; exists p; split=> // x. rewrite -H; [exact: R|]. by apply/ltP.
Qed.
Lemma swap_rep a b (x : 'I_20) (ha : a < 20) (hb : b < 20) : swapn a b x = tperm (Ordinal ha) (Ordinal hb) x :> nat.
Proof.
  rewrite /swapn. case: tpermP => [-> | -> |].
  - by rewrite eqxx.
  - by rewrite /= eqxx; case: eqP.
  - move=> /eqP n1 /eqP n2. have -> : (x == a :> nat) = false by apply: negbTE.
    by have -> : (x == b :> nat) = false by apply: negbTE.
Qed.
Lemma par_pre a b f s : (a < 20)%coq_nat -> (b < 20)%coq_nat -> a <> b -> par f s -> par (fun x => f (swapn a b x)) (~~ s).
Proof.
  move=> /ltP ha /ltP hb nab [p [R E]]. exists (tperm (Ordinal ha) (Ordinal hb) * p)%g. split.
  - move=> x. by rewrite permM -R -swap_rep.
  - rewrite odd_mul_tperm E. have -> : Ordinal ha != Ordinal hb by apply/eqP => [[]].
    by [].
Qed.
Lemma par_post a b f s : (a < 20)%coq_nat -> (b < 20)%coq_nat -> a <> b -> par f s -> par (fun x => swapn a b (f x)) (~~ s).
Proof.
  move=> /ltP ha /ltP hb nab [p [R E]]. exists (p * tperm (Ordinal ha) (Ordinal hb))%g. split.
  - move=> x. by rewrite permM -swap_rep R.
  - rewrite odd_permM odd_tperm E. have -> : Ordinal ha != Ordinal hb by apply/eqP => [[]].
    by rewrite addbT.
Qed.
(** renaming slots *)
Lemma par_conj (c f g : nat -> nat) s :
  (forall x, (x < 20)%coq_nat -> (c x < 20)%coq_nat) ->
  (forall x y, (x < 20)%coq_nat -> (y < 20)%coq_nat -> c x = c y -> x = y) ->
  (forall x, (x < 20)%coq_nat -> g (c x) = c (f x)) -> par f s -> par g s.
Proof.
  move=> H1 H2 H3 [p [R E]].
  have h (x : 'I_20) : c x < 20 by apply/ltP/H1/ltP.
  have inj : injective (fun x : 'I_20 => Ordinal (h x)).
  { move=> x y /(congr1 val) /= e. apply: val_inj => /=. apply: H2 => //; by apply/ltP. }
  pose q := perm inj. exists (p ^ q)%g. split; [|by rewrite odd_permJ].
  move=> y. have [x ->] : exists x, y = q x by exists (q^-1%g y); rewrite permKV.
  rewrite permJ /q !permE /= H3; [|by apply/ltP]. by rewrite R.
Qed.
Lemma par_fun f s s' : par f s -> par f s' -> s = s'.
Proof.
  move=> [p [R <-]] [q [R' <-]]. suff -> : p = q by []. apply/permP => x. apply: val_inj => /=. by rewrite -R -R'.
Qed.
Lemma par_two a b f : (a < 20)%coq_nat -> (b < 20)%coq_nat -> a <> b -> (forall x, (x < 20)%coq_nat -> f x = swapn a b x) -> par f true.
Proof.
  move=> ha hb nab H. apply: (@par_ext (fun x => swapn a b x)). { by move=> x hx; rewrite H. }
  apply: (@par_pre a b id false) => //. exists 1%g. split; [by move=> x; rewrite perm1|exact: odd_perm1].
Qed.

(** ** Cycles *)
(** [l] is a cycle of [f]: each element is followed by its image, the last by the first *)
Definition is_loop (f : nat -> nat) (l : list nat) : Prop :=
  l <> nil /\ forall i, (i < length l)%coq_nat -> f (List.nth i l 0) = List.nth (S i mod length l)%coq_nat l 0.

Lemma lnth i (l : seq nat) : List.nth i l 0 = nth 0 l i.
Proof. by elim: l i => [|x l IH] [|i] //=. Qed.

Lemma loop_traject f p (x : 'I_20) : rep f p -> is_loop f (map val (traject p x #|porbit p x|)).
Proof.
  move=> R. have h0 : 0 < #|porbit p x| by apply/card_gt0P; exists x; exact: porbit_id.
  split.
  - move=> /(congr1 size). rewrite size_map size_traject /= => e. by rewrite e in h0.
  - have L : length (map val (traject p x #|porbit p x|)) = #|porbit p x|.
    { change (size (map val (traject p x #|porbit p x|)) = #|porbit p x|). by rewrite size_map size_traject. }
    rewrite L => i /ltP hi. rewrite !lnth. rewrite (nth_map x); [|by rewrite size_traject].
    rewrite R nth_traject // -iterS.
    case: (ltngtP i.+1 #|porbit p x|) hi => [h _|h|h _]; last first.
    + rewrite h Nat.mod_same; [|by move/eqP: h0; lia].
      rewrite (nth_map x); [|by rewrite size_traject]. rewrite nth_traject //= iter_porbit //.
    + by [].
    + rewrite Nat.mod_small; [|by apply/ltP]. rewrite (nth_map x); [|by rewrite size_traject].
      by rewrite nth_traject.
Qed.

Lemma loops_exist f s (live : nat -> bool) (ll : list nat) :
  par f s -> List.NoDup ll -> (forall x, List.In x ll <-> (x < 20)%coq_nat /\ live x = true) ->
  (forall x, (x < 20)%coq_nat -> live x = true -> live (f x) = true) ->
  (forall x, (x < 20)%coq_nat -> live x = false -> f x = x) -> Nat.even (length ll) = true ->
  exists loops : list (list nat), Permutation (List.concat loops) ll /\ (forall l, List.In l loops -> is_loop f l) /\
    Nat.odd (length loops) = s.
Proof.
  move=> [p [R E]] ND ML CL FX EV.
  pose A : {set 'I_20} := [set x | live (val x)].
  have clA x : x \in A -> p x \in A.
  { rewrite !inE => h. rewrite -[val (p x)]/(nat_of_ord (p x)) -R. apply: CL => //. by apply/ltP. }
  have orbA x y : y \in porbit p x -> (y \in A) = (x \in A).
  { have key u v : v \in porbit p u -> u \in A -> v \in A.
    { move=> /porbitP [i ->]. elim: i u => [|i IH] u hu; first by rewrite expg0 perm1.
      rewrite expgSr permM. apply: clA. exact: IH. }
    move=> h. apply/idP/idP; [apply: key; by rewrite porbit_sym|exact: key]. }
  have fixA x : x \notin A -> porbit p x = [set x].
  { rewrite inE => /negbTE h. have px : p x = x. { apply: val_inj => /=. rewrite -R. apply: FX => //. by apply/ltP. }
    apply/setP => y. rewrite inE. apply/idP/eqP => [/porbitP [i ->]|->]; [|exact: porbit_id].
    elim: i => [|i IH]; first by rewrite expg0 perm1. by rewrite expgSr permM IH. }
  pose O : {set {set 'I_20}} := [set porbit p x | x in A].
  pose rp (S : {set 'I_20}) : 'I_20 := odflt ord0 [pick x in S].
  have rpO S : S \in O -> porbit p (rp S) = S /\ rp S \in A.
  { move=> /imsetP [x xA ->]. rewrite /rp. case: pickP => [y hy|/(_ x)]; last by rewrite porbit_id.
    split => /=; [|by rewrite (orbA _ _ hy)]. by apply/eqP; rewrite eq_porbit_mem. }
  exists [seq map val (traject p (rp S) #|porbit p (rp S)|) | S <- enum O].
  split; [|split].
  - have PE : perm_eq (flatten [seq map val (traject p (rp S) #|porbit p (rp S)|) | S <- enum O]) (map val (enum A)).
    { have -> : [seq map val (traject p (rp S) #|porbit p (rp S)|) | S <- enum O] = map (map val) [seq traject p (rp S) #|porbit p (rp S)| | S <- enum O] by rewrite -map_comp.
      rewrite -map_flatten. apply: perm_map. apply: uniq_perm; [|exact: enum_uniq|].
      - have UO : uniq (enum O) by exact: enum_uniq.
        have SO : {subset enum O <= O} by move=> S; rewrite mem_enum.
        elim: (enum O) UO SO => [|S l IH] //= /andP [nS ul] sub.
        rewrite cat_uniq uniq_traject_porbit /=. apply/andP; split; [|by apply: IH => // T hT; apply: sub; rewrite inE hT orbT].
        apply/hasPn => y /flatten_mapP [T hT hy]. apply/negP => hy'.
        have [eT _] : porbit p (rp T) = T /\ rp T \in A by apply: rpO; apply: sub; rewrite inE hT orbT.
        have [eS _] : porbit p (rp S) = S /\ rp S \in A by apply: rpO; apply: sub; rewrite inE eqxx.
        have e1 : porbit p y = porbit p (rp T) by apply/eqP; rewrite eq_porbit_mem porbit_traject; exact: hy.
        have e2 : porbit p y = porbit p (rp S) by apply/eqP; rewrite eq_porbit_mem porbit_traject; exact: hy'.
        have : T = S by rewrite -eT -eS -e1 -e2.
        move=> e. by rewrite -e hT in nS.
      - move=> y. rewrite mem_enum. apply/flatten_mapP/idP => [[S hS hy]|yA].
        + rewrite mem_enum in hS. case: (rpO _ hS) => e1 e2. rewrite -porbit_traject in hy. by rewrite (orbA _ _ hy).
        + have hO : porbit p y \in O by apply: imset_f.
          exists (porbit p y); [by rewrite mem_enum|]. rewrite -porbit_traject. case: (rpO _ hO) => -> _. exact: porbit_id. }
    apply: NoDup_Permutation => //.
    + have : uniq (flatten [seq map val (traject p (rp S) #|porbit p (rp S)|) | S <- enum O]).
      { rewrite (perm_uniq PE) map_inj_uniq; [exact: enum_uniq|exact: val_inj]. }
      have -> : List.concat [seq [seq val i | i <- traject p (rp S) #|porbit p (rp S)|] | S <- enum O] = flatten [seq [seq val i | i <- traject p (rp S) #|porbit p (rp S)|] | S <- enum O].
      { by elim: (enum O) => [|S l IH] //=; rewrite IH. }
      elim: (flatten _) => [|x l IH] /=; [by constructor|]. move=> /andP [/negP nx ux]. constructor; [|exact: IH].
      move=> h. apply: nx. elim: l h {IH ux} => [|z l IH] //= [->|h]; rewrite inE ?eqxx // IH // orbT //.
    + have cf (L : seq (seq nat)) : List.concat L = flatten L by elim: L => [|S l IH] //=; rewrite IH.
      have inm (x : nat) (l : seq nat) : List.In x l <-> x \in l.
      { elim: l => [|z l IH] //=. rewrite inE. split; [move=> [->|/IH ->]; rewrite ?eqxx ?orbT //|].
        move=> /orP [/eqP ->|/IH]; by [left|right]. }
      move=> x. rewrite cf inm (perm_mem PE) ML. split.
      * move=> /mapP [y]. rewrite mem_enum inE => h ->. split=> //. apply/ltP; exact: ltn_ord.
      * move=> [/ltP hx lx]. apply/mapP. exists (Ordinal hx) => //. by rewrite mem_enum inE.
  - move=> l. have inm (T : Type) (x : T) (g : {set 'I_20} -> T) m : List.In x (map g m) -> exists S, x = g S.
    { elim: m => [|z m IH] //= [<-|]; [by exists z|exact: IH]. }
    move=> hl. case: (inm _ _ _ _ hl) => S ->. exact: loop_traject.
  - have -> : length [seq [seq val i | i <- traject p (rp S) #|porbit p (rp S)|] | S <- enum O] = #|O|.
    { change (size [seq [seq val i | i <- traject p (rp S) #|porbit p (rp S)|] | S <- enum O] = #|O|). by rewrite size_map -cardE. }
    have no n : Nat.odd n = odd n. { elim: n => [|n IH] //. rewrite Nat.odd_succ -Nat.negb_odd IH //=. }
    rewrite no -E /odd_perm card_ord /=.
    have -> : porbits p = O :|: [set porbit p x | x in ~: A].
    { rewrite -imsetU setUCr. by apply/setP => S; apply/imsetP/imsetP => [[x _ ->]|[x _ ->]]; exists x; rewrite ?inE. }
    have disj : [disjoint O & [set porbit p x | x in ~: A]].
    { apply/pred0P => S /=. apply/negP => /andP [/imsetP [x xA ->] /imsetP [y yA e]]. rewrite inE in yA.
      have h : y \in porbit p x by rewrite e porbit_id. rewrite -(orbA _ _ h) in xA. by rewrite xA in yA. }
    rewrite cardsU disjoint_setI0 // cards0 subn0.
    have -> : #|[set porbit p x | x in ~: A]| = #|~: A|.
    { rewrite card_in_imset // => x y. rewrite !inE => hx hy. rewrite !fixA ?inE // => /setP /(_ x). rewrite !inE eqxx => /esym /eqP. by []. }
    have cA : #|A| = length ll.
    { have PE : perm_eq (map val (enum A)) ll.
      { have inm (x : nat) (l : seq nat) : List.In x l <-> x \in l.
        { elim: l => [|z l IH] //=. rewrite inE. split; [move=> [->|/IH ->]; rewrite ?eqxx ?orbT //|].
          move=> /orP [/eqP ->|/IH]; by [left|right]. }
        apply: uniq_perm.
        - rewrite map_inj_uniq; [exact: enum_uniq|exact: val_inj].
        - elim: ND => [|x l nx _ IH] //=. rewrite IH andbT. apply/negP => h. apply: nx. by apply/inm.
        - move=> x. apply/idP/idP.
          + move=> /mapP [y]. rewrite mem_enum inE => h ->. apply/inm/ML. split=> //. apply/ltP; exact: ltn_ord.
          + move=> /inm/ML [/ltP hx lx]. apply/mapP. exists (Ordinal hx) => //. by rewrite mem_enum inE. }
      rewrite cardE -(size_map val). exact: (perm_size PE). }
    have := cardsC A. rewrite card_ord cA => e20.
    have : odd (#|~: A|) = false.
    { have := congr1 odd e20. rewrite oddD -no -Nat.negb_even EV /=. by []. }
    move=> oA. by rewrite oddD oA addbF.
Qed.

(** the inverse map has the same parity *)
Lemma par_inv f g s : (forall x, (x < 20)%coq_nat -> g (f x) = x) -> par f s -> par g s.
Proof.
  move=> H [p [R E]]. exists (p^-1)%g. split; [|by rewrite odd_permV].
  move=> y. have [x ->] : exists x, y = p x by exists (p^-1%g y); rewrite permKV.
  rewrite permK -R. apply: H. apply/ltP; exact: ltn_ord.
Qed.
Lemma swapn_l a b : swapn a b a = b.
Proof. by rewrite /swapn eqxx. Qed.
Lemma swapn_r a b : swapn a b b = a.
Proof. by rewrite /swapn eqxx; case: eqP. Qed.
Lemma swapn_o a b x : x <> a -> x <> b -> swapn a b x = x.
Proof. by rewrite /swapn => /eqP/negbTE -> /eqP/negbTE ->. Qed.
