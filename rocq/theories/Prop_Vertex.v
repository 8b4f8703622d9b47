(** * C161: the three-point functions of the Dyson job have the symmetry the compression takes for granted *)
Require Import Reals List Arith Bool ZArith Lia Lra.
From Coquelicot Require Import Complex.
Require Import Verif.FirstOrder Verif.BareG Verif.Vertex Verif.VertexSpec Verif.P_Vertex Verif.P_Vertex2.
Import ListNotations.
Local Open Scope nat_scope.

Theorem C161_simple : forall N G, reflected N (G UP) -> hermitian N (simpleGG N G).
Proof. exact simple_hermitian. Qed.
Print Assumptions C161_simple.

Theorem C161_addW : forall N v W, hermitian N v ->
  reflected N (W UU UU) -> reflected N (W DD DD) -> reflected N (W UD DU) -> reflected N (W DU UD) ->
  hermitian N (addW N v W).
Proof. exact addW_hermitian. Qed.
Print Assumptions C161_addW.

Theorem C161_addTwoG : forall N beta v G, hermitian N v -> (forall s, reflected N (G s)) -> hermitian N (addTwoG N beta v G).
Proof. exact addTwoG_hermitian. Qed.
Print Assumptions C161_addTwoG.

Theorem C161_addG : forall N v G, hermitian N v -> (forall s, reflected N (G s)) -> antihermitian N (addG N v G).
Proof. exact addG_antihermitian. Qed.
Print Assumptions C161_addG.

Theorem C161_addGW : forall N w G, antihermitian N w -> (forall s, reflected N (G s)) -> hermitian N (addGW N w G).
Proof. exact addGW_hermitian. Qed.
Print Assumptions C161_addGW.

(** The values, with G continued antiperiodically and W periodically to all times: legs at the ends *)
Theorem C161_simple_value : forall N G g t1 t2, continued N (G UP) g -> t1 < N -> t2 < N ->
  simpleGG N G UP 0 t1 t2 = Cmult (g (Z.of_nat t1)) (g (- Z.of_nat t2 - 1)%Z).
Proof. exact simple_value. Qed.
Print Assumptions C161_simple_value.

Theorem C161_twoG_value : forall N beta G g s r a b t1 t2, continued N (G s) g -> a < N -> b < N -> t1 < N -> t2 < N ->
  addTwoG N beta (fun _ _ x y => if Nat.eqb x a && Nat.eqb y b then RtoC 1 else RtoC 0) G s r t1 t2 =
  Cmult (Cmult (Cmult (RtoC (1 / 2)) (Cplus (g (Z.of_nat t1 - Z.of_nat a - 1)%Z) (g (Z.of_nat t1 - Z.of_nat a)%Z)))
               (Cmult (RtoC (1 / 2)) (Cplus (g (Z.of_nat b - Z.of_nat t2 - 1)%Z) (g (Z.of_nat b - Z.of_nat t2)%Z))))
        (RtoC ((beta / INR N) ^ 2)).
Proof. exact twoG_value. Qed.
Print Assumptions C161_twoG_value.

Theorem C161_addG_value : forall N v G gu gd r tout tin,
  continued N (G UP) gu -> continued N (G DOWN) gd -> tout < N -> tin < N ->
  let d := (Z.of_nat tin - Z.of_nat tout)%Z in
  let m g k := Cmult (RtoC (1 / 2)) (Cplus (g (k - 1)%Z) (g k)) in
  addG N v G 0 r r tout tin = Copp (Cplus (Cplus (Cmult (m gu d) (v UP r tout tin)) (Cmult (m gd d) (v DOWN r tout tin)))
                                          (Cplus (Cmult (m gu (- d)%Z) (v UP r tin tout)) (Cmult (m gd (- d)%Z) (v DOWN r tin tout)))) /\
  addG N v G 1 r r tout tin = Copp (Cplus (Cmult (m gd d) (v UP r tout tin)) (Cmult (m gu (- d)%Z) (v DOWN r tin tout))).
Proof. exact addG_value. Qed.
Print Assumptions C161_addG_value.

Theorem C161_addGW_value : forall N w G gu gd r tout tin,
  continued N (G UP) gu -> continued N (G DOWN) gd -> tout < N -> tin < N ->
  let d := (Z.of_nat tout - Z.of_nat tin)%Z in
  let m g k := Cmult (RtoC (1 / 2)) (Cplus (g (k - 1)%Z) (g k)) in
  addGW N w G UP r tout tin = Cplus (Cmult (m gu d) (w 0 r r tout tin)) (Cmult (m gd d) (w 1 r r tout tin)) /\
  addGW N w G DOWN r tout tin =
    Copp (Cplus (Cmult (m gd d) (Cconj (w 0 r r tout tin))) (Cmult (m gu d) (Cconj (w 1 r r tout tin)))).
Proof. exact addGW_value. Qed.
Print Assumptions C161_addGW_value.

Theorem C161_addW_value : forall N W s r v t1 t2, t1 < N -> t2 < N -> forall w : pair -> pair -> Z -> C,
  (forall a b t, t < N -> w a b (Z.of_nat t) = W a b t) -> (forall a b k, w a b (k - Z.of_nat N)%Z = w a b k) ->
  let d := (Z.of_nat t1 - Z.of_nat t2)%Z in
  let m a b := Cmult (RtoC (1 / 2)) (Cplus (w a b (d - 1)%Z) (w a b d)) in
  addW N v W s r t1 t2 = Copp (if Nat.eqb s UP
    then Cplus (Cmult (v UP r t1 t2) (m UU UU)) (Cmult (v DOWN r t1 t2) (m UD DU))
    else Cplus (Cmult (v UP r t1 t2) (m DU UD)) (Cmult (v DOWN r t1 t2) (m DD DD))).
Proof. exact addW_value. Qed.
Print Assumptions C161_addW_value.
Example C161_continued : continued 2 (fun t => if t =? 0 then RtoC 1 else Ci)
  (fun k => match (k mod 4)%Z with 0 => RtoC 1 | 1 => Ci | 2 => RtoC (-1) | _ => Copp Ci end%Z).
Proof.
  split.
  - intros [|[|t]] H; try lia; reflexivity.
  - intros k. change (Z.of_nat 2) with 2%Z. rewrite Zminus_mod. assert (H : (0 <= k mod 4 < 4)%Z) by (apply Z.mod_pos_bound; lia).
    assert (E : (k mod 4 = 0 \/ k mod 4 = 1 \/ k mod 4 = 2 \/ k mod 4 = 3)%Z) by lia.
    destruct E as [E | [E | [E | E]]]; rewrite E; cbn; unfold RtoC, Copp, Ci; cbn; f_equal; ring.
Qed.

(** Any number of versions, each with its own G *)
Theorem C161_passes : forall N beta W WW (Gs : list line),
  (forall G s, In G Gs -> reflected N (G s)) ->
  reflected N (W UU UU) -> reflected N (W DD DD) -> reflected N (W UD DU) -> reflected N (W DU UD) ->
  (forall w, antihermitian N w -> antihermitian N (WW w)) ->
  forall v, hermitian N v -> hermitian N (fold_left (fun v G => pass N beta G W WW v) Gs v).
Proof. exact passes_hermitian. Qed.
Print Assumptions C161_passes.

(** The bare Green's function of a spin without field has the symmetry asked for *)
Theorem C161_bare : forall beta N s, (0 < beta)%R -> s < 2 ->
  reflected N (fun t => spinBareG false beta N [0%R] s 0 s 0 0 t).
Proof. exact bare_reflected. Qed.
Print Assumptions C161_bare.

Example C161_meets : (0 < 2)%R /\ 1 < 2 /\
  reflected 3 (fun t => RtoC (INR (t * (2 - t)))) /\ (forall w, antihermitian 3 w -> antihermitian 3 (fun s r1 r2 t1 t2 => Cmult (RtoC (-1)) (w s r1 r2 t1 t2))).
Proof.
  split; [lra|]. split; [lia|]. split.
  - intros t H. rewrite cj_real. do 2 f_equal. destruct t as [|[|[|t]]]; try lia; reflexivity.
  - intros w Hw s r1 r2 t1 t2 H1 H2. rewrite (Hw s r1 r2 t1 t2 H1 H2), cj_mult, cj_real. ring.
Qed.

(** A real G: the function is real and symmetric, not antihermitian *)
Theorem C161_real : forall N v G, (forall s t, Cconj (G s t) = G s t) -> (forall s r t1 t2, Cconj (v s r t1 t2) = v s r t1 t2) ->
  forall r1 r2 t1 t2, addG N v G 0 r1 r2 t1 t2 = addG N v G 0 r2 r1 t2 t1 /\
    Cconj (addG N v G 0 r1 r2 t1 t2) = addG N v G 0 r1 r2 t1 t2.
Proof. exact real_symmetric. Qed.
Print Assumptions C161_real.
Example C161_real_meets : (forall s t, Cconj (real12 s t) = real12 s t).
Proof. intros s t. apply cj_real. Qed.

Theorem C161_always_refuted : exists N G s r t1 t2, t1 < N /\ t2 < N /\
  addG N (simpleGG N G) G s r r t1 t2 <> Copp (Cconj (addG N (simpleGG N G) G s r r t2 t1)).
Proof. exact real_refutes. Qed.
Print Assumptions C161_always_refuted.
