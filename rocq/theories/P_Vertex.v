Require Import Reals Arith Bool ZArith Lia Lra.
From Coquelicot Require Import Complex.
Require Import Verif.PyWeight Verif.P_Fourier Verif.Vertex Verif.VertexSpec.
Local Open Scope nat_scope.

Lemma cj_plus a b : Cconj (Cplus a b) = Cplus (Cconj a) (Cconj b).
Proof. destruct a, b. unfold Cconj, Cplus. cbn. f_equal. ring. Qed.
Lemma cj_mult a b : Cconj (Cmult a b) = Cmult (Cconj a) (Cconj b).
Proof. destruct a, b. unfold Cconj, Cmult. cbn. f_equal; ring. Qed.
Lemma cj_opp a : Cconj (Copp a) = Copp (Cconj a).
Proof. destruct a. reflexivity. Qed.
Lemma cj_real x : Cconj (RtoC x) = RtoC x.
Proof. unfold Cconj, RtoC. cbn. f_equal. ring. Qed.
Lemma cj_cj a : Cconj (Cconj a) = a.
Proof. destruct a. unfold Cconj. cbn. f_equal. ring. Qed.
Lemma cj_csum n f : Cconj (csum n f) = csum n (fun i => Cconj (f i)).
Proof. induction n; simpl; [apply cj_real|]. now rewrite cj_plus, IHn. Qed.

Lemma opp_opp a : Copp (Copp a) = a.
Proof. destruct a. unfold Copp. cbn. f_equal; ring. Qed.
Lemma folded_cj N g k : reflected N g -> (- Z.of_nat N <= k < Z.of_nat N)%Z -> Cconj (folded N g k) = Copp (folded N g (-1 - k)).
Proof.
  intros R H. unfold folded. destruct (Z.ltb_spec k 0), (Z.ltb_spec (-1 - k) 0); try lia.
  - rewrite cj_opp, R by lia. do 2 f_equal. lia.
  - rewrite R by lia. rewrite opp_opp. f_equal. lia.
Qed.
Lemma half_cj N g d : reflected N g -> (- Z.of_nat N < d < Z.of_nat N)%Z -> Cconj (halfG N g d) = Copp (halfG N g (- d)).
Proof.
  intros R H. unfold halfG. rewrite cj_plus, !cj_mult, !cj_real, !(folded_cj N g) by (assumption || lia).
  replace (-1 - (d - 1))%Z with (- d)%Z by lia. replace (-1 - d)%Z with (- d - 1)%Z by lia. ring.
Qed.

Lemma simple_hermitian N G : reflected N (G UP) -> hermitian N (simpleGG N G).
Proof.
  intros R s r t1 t2 H1 H2. unfold simpleGG. destruct ((s =? UP) && (r =? 0)); [|now rewrite cj_real].
  rewrite cj_mult, (folded_cj N (G UP)) by (assumption || lia). rewrite R by lia. unfold folded.
  destruct (Z.ltb_spec (- Z.of_nat t2 - 1) 0); [|lia].
  destruct (Z.ltb_spec (-1 - (- Z.of_nat t1 - 1)) 0); [lia|].
  replace (Z.to_nat (- Z.of_nat t2 - 1 + Z.of_nat N)) with (N - 1 - t2) by lia.
  replace (Z.to_nat (-1 - (- Z.of_nat t1 - 1))) with t1 by lia. ring.
Qed.

Lemma wshift_cj N W d : reflected N W -> d < N -> Cconj (wshift N W d) = wshift N W (if d =? 0 then 0 else N - d).
Proof.
  intros R H. unfold wshift. rewrite cj_mult, cj_plus, cj_real. destruct (Nat.eqb_spec d 0) as [->|D].
  - cbn [Nat.eqb]. rewrite !R by lia. replace (N - 1 - (N - 1)) with 0 by lia. rewrite Nat.sub_0_r. ring.
  - rewrite !R by lia. destruct (Nat.eqb_spec (N - d) 0); [lia|].
    replace (N - 1 - (d - 1)) with (N - d) by lia. replace (N - 1 - d) with (N - d - 1) by lia. ring.
Qed.
Lemma addW_hermitian N v W : hermitian N v ->
  reflected N (W UU UU) -> reflected N (W DD DD) -> reflected N (W UD DU) -> reflected N (W DU UD) ->
  hermitian N (addW N v W).
Proof.
  intros Hv R1 R2 R3 R4 s r t1 t2 H1 H2. unfold addW.
  assert (D : forall w, reflected N w ->
    Cconj (wshift N w (if t2 <? t1 then t2 + N - t1 else t2 - t1)) = wshift N w (if t1 <? t2 then t1 + N - t2 else t1 - t2)).
  { intros w Rw. rewrite wshift_cj by (assumption || (destruct (Nat.ltb_spec t2 t1); lia)). f_equal.
    destruct (Nat.ltb_spec t2 t1), (Nat.ltb_spec t1 t2); try lia.
    - destruct (Nat.eqb_spec (t2 + N - t1) 0); lia.
    - destruct (Nat.eqb_spec (t2 - t1) 0); lia.
    - replace (t2 - t1) with 0 by lia. cbn [Nat.eqb]. lia. }
  destruct (s =? UP); rewrite cj_mult, cj_real, cj_plus, !cj_mult, !D by assumption; rewrite <- !(Hv _ r t1 t2) by assumption; reflexivity.
Qed.

Lemma addTwoG_hermitian N beta v G : hermitian N v -> (forall s, reflected N (G s)) -> hermitian N (addTwoG N beta v G).
Proof.
  intros Hv R s r t1 t2 H1 H2. unfold addTwoG. rewrite cj_mult, cj_real. f_equal. rewrite cj_csum.
  rewrite (csum_ext _ _ (fun tin => csum N (fun tout => Cmult (halfG N (G s) (Z.of_nat tin - Z.of_nat t2))
     (Cmult (halfG N (G s) (Z.of_nat t1 - Z.of_nat tout)) (v s r tout tin)))))
    by (intros i Hi; symmetry; apply csum_scal).
  rewrite csum_swap. apply csum_ext. intros tout Ho. rewrite cj_mult, cj_csum, <- csum_scal. apply csum_ext. intros tin Hi.
  rewrite cj_mult, !half_cj by (apply R || lia). rewrite <- (Hv s r tout tin) by assumption.
  replace (- (Z.of_nat tout - Z.of_nat t1))%Z with (Z.of_nat t1 - Z.of_nat tout)%Z by lia.
  replace (- (Z.of_nat t2 - Z.of_nat tin))%Z with (Z.of_nat tin - Z.of_nat t2)%Z by lia. ring.
Qed.

Lemma addG_antihermitian N v G : hermitian N v -> (forall s, reflected N (G s)) -> antihermitian N (addG N v G).
Proof.
  intros Hv R s r1 r2 t1 t2 H1 H2. unfold addG. rewrite (Nat.eqb_sym r2 r1). destruct (Nat.eqb_spec r1 r2) as [->|]; [|rewrite cj_mult, !cj_real; ring].
  replace (- (Z.of_nat t2 - Z.of_nat t1))%Z with (Z.of_nat t1 - Z.of_nat t2)%Z by lia.
  replace (- (Z.of_nat t1 - Z.of_nat t2))%Z with (Z.of_nat t2 - Z.of_nat t1)%Z by lia.
  assert (E1 : forall sp, Cconj (halfG N (G sp) (Z.of_nat t1 - Z.of_nat t2)) = Copp (halfG N (G sp) (Z.of_nat t2 - Z.of_nat t1)))
    by (intros sp; rewrite half_cj by (apply R || lia); do 2 f_equal; lia).
  assert (E2 : forall sp, Cconj (halfG N (G sp) (Z.of_nat t2 - Z.of_nat t1)) = Copp (halfG N (G sp) (Z.of_nat t1 - Z.of_nat t2)))
    by (intros sp; rewrite half_cj by (apply R || lia); do 2 f_equal; lia).
  destruct (s =? 0); rewrite cj_mult, cj_real, !cj_plus, !cj_mult, !E1, !E2, <- !(Hv _ r2 t1 t2), <- !(Hv _ r2 t2 t1) by assumption; ring.
Qed.

Lemma addGW_hermitian N w G : antihermitian N w -> (forall s, reflected N (G s)) -> hermitian N (addGW N w G).
Proof.
  intros Hw R s r t1 t2 H1 H2. unfold addGW.
  assert (E : forall sp, Cconj (halfG N (G sp) (Z.of_nat t2 - Z.of_nat t1)) = Copp (halfG N (G sp) (Z.of_nat t1 - Z.of_nat t2)))
    by (intros sp; rewrite half_cj by (apply R || lia); do 2 f_equal; lia).
  destruct (s =? UP); rewrite cj_plus, !cj_mult, ?cj_opp, ?cj_cj, !E; rewrite !(Hw _ r r t1 t2) by assumption;
    rewrite ?cj_opp, ?cj_cj; ring.
Qed.

Lemma pass_hermitian N beta G W WW v : hermitian N v -> (forall s, reflected N (G s)) ->
  reflected N (W UU UU) -> reflected N (W DD DD) -> reflected N (W UD DU) -> reflected N (W DU UD) ->
  (forall w, antihermitian N w -> antihermitian N (WW w)) ->
  hermitian N (pass N beta G W WW v).
Proof.
  intros Hv R R1 R2 R3 R4 HW s r t1 t2 H1 H2. unfold pass, Cminus. rewrite !cj_plus, cj_opp.
  f_equal; [f_equal|f_equal].
  - now apply simple_hermitian.
  - apply addTwoG_hermitian; try assumption. now apply addW_hermitian.
  - apply addTwoG_hermitian; try assumption. apply addGW_hermitian; [|exact R]. apply HW. now apply addG_antihermitian.
Qed.
Lemma passes_hermitian N beta W WW (Gs : list line) :
  (forall G s, List.In G Gs -> reflected N (G s)) ->
  reflected N (W UU UU) -> reflected N (W DD DD) -> reflected N (W UD DU) -> reflected N (W DU UD) ->
  (forall w, antihermitian N w -> antihermitian N (WW w)) ->
  forall v, hermitian N v -> hermitian N (List.fold_left (fun v G => pass N beta G W WW v) Gs v).
Proof.
  intros R R1 R2 R3 R4 HW. induction Gs as [|G Gs IH]; intros v Hv; [exact Hv|]. simpl. apply IH.
  - intros G' s HG. apply R. now right.
  - apply pass_hermitian; try assumption. intros s. apply R. now left.
Qed.

Definition real12 : line := fun _ t => RtoC (INR (t + 1)).
Lemma real_symmetric N v G : (forall s t, Cconj (G s t) = G s t) -> (forall s r t1 t2, Cconj (v s r t1 t2) = v s r t1 t2) ->
  forall r1 r2 t1 t2, addG N v G 0 r1 r2 t1 t2 = addG N v G 0 r2 r1 t2 t1 /\
    Cconj (addG N v G 0 r1 r2 t1 t2) = addG N v G 0 r1 r2 t1 t2.
Proof.
  intros RG RV r1 r2 t1 t2. split.
  - unfold addG. rewrite (Nat.eqb_sym r2 r1). destruct (Nat.eqb_spec r1 r2) as [->|]; [|reflexivity]. cbn [Nat.eqb].
    replace (- (Z.of_nat t2 - Z.of_nat t1))%Z with (Z.of_nat t1 - Z.of_nat t2)%Z by lia.
    replace (- (Z.of_nat t1 - Z.of_nat t2))%Z with (Z.of_nat t2 - Z.of_nat t1)%Z by lia. ring.
  - assert (F : forall sp k, Cconj (folded N (G sp) k) = folded N (G sp) k)
      by (intros sp k; unfold folded; destruct (k <? 0)%Z; rewrite ?cj_opp, RG; reflexivity).
    unfold addG, halfG. cbn [Nat.eqb]. destruct (r1 =? r2); rewrite !cj_mult, ?cj_plus, ?cj_mult, ?cj_real; [|reflexivity].
    rewrite !cj_plus, !cj_mult, !cj_real, !F, !RV. reflexivity.
Qed.
Lemma real_refutes : exists N G s r t1 t2, t1 < N /\ t2 < N /\
  addG N (simpleGG N G) G s r r t1 t2 <> Copp (Cconj (addG N (simpleGG N G) G s r r t2 t1)).
Proof.
  exists 2, real12, 0, 0, 0, 1. split; [lia|]. split; [lia|].
  unfold addG, simpleGG, halfG, folded, real12. cbn -[INR Z.to_nat]. intros E. apply (f_equal fst) in E. cbn -[INR Z.to_nat] in E.
  repeat match type of E with context[Z.to_nat ?z] => let m := eval vm_compute in (Z.to_nat z) in change (Z.to_nat z) with m in E end.
  cbn -[INR] in E. rewrite ?S_INR, ?INR_0 in E. cbn in E. lra.
Qed.
