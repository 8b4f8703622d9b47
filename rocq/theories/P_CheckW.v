(** The built-in check of the weights, in exact arithmetic *)
From Coq Require Import ZArith List Bool Arith Lia Reals Lra.
From Coquelicot Require Import Complex.
From Verif Require Import Base Num NumR RNG Momentum Complex Lattice Bundle IndexMap Weights Diagram Markov DiagramIO DiagramCheck History
  P_Momentum P_Bundle P_Complex P_WP P_Inv P_Rel P_Sem1 P_Hop P_Fix P_IO P_History P_IOProm P_Loop P_Weight P_Check.
Import ListNotations.
Open Scope Z_scope.
Notation D := (@diagram NumR).

Lemma rabs_eq (x : R) : @rabs NumR x = Rabs x.
Proof.
  change ((if Rleb 0 x then x else - x) = Rabs x)%R. unfold Rleb. destruct (Rle_dec 0 x) as [H|H]; symmetry.
  - apply Rabs_pos_eq. exact H.
  - apply Rabs_left1. lra.
Qed.
Lemma eps0_eq : @eps0 NumR = (/ 1000000000)%R.
Proof. unfold eps0. cbn. apply Rmult_1_l. Qed.
Lemma cEqual_spec (a b : cR) : @cEqual NumR a b = true <->
  (Rabs ((re a : R) - (re b : R)) < / 1000000000)%R /\ (Rabs ((im a : R) - (im b : R)) < / 1000000000)%R.
Proof.
  unfold cEqual. rewrite !rabs_eq, eps0_eq, andb_true_iff. change (@rltb NumR) with Rltb. rewrite !Rltb_spec. reflexivity.
Qed.
Lemma cEqual_refl (a : cR) : @cEqual NumR a a = true.
Proof. apply cEqual_spec. rewrite !Rminus_diag_eq, Rabs_R0 by auto. lra. Qed.
(** a stored weight that the check takes for zero: both parts smaller than 1e-9 *)
Definition tiny (z : cR) : Prop := (Rabs (re z : R) < / 1000000000)%R /\ (Rabs (im z : R) < / 1000000000)%R.
Lemma cEqual_tiny (z : cR) : @cEqual NumR z (mkC r0 r0) = true <-> tiny z.
Proof.
  rewrite cEqual_spec. unfold tiny. cbn [re im]. change (@r0 NumR) with 0%R. now rewrite !Rminus_0_r.
Qed.
Lemma cEqual_ntiny (z : cR) : ~ tiny z -> @cEqual NumR z (mkC r0 r0) = false.
Proof. intros H. destruct (cEqual z _) eqn:E; auto. apply cEqual_tiny in E. contradiction. Qed.

Lemma wloop_ok b (f : nat -> cR) (body : nat -> cR -> outcome (option cR)) :
  (forall i a, (i < avail b)%nat -> body i a = Ok (Some (cmul a (f (names b i))))) ->
  forall n i a, (i + n <= avail b)%nat -> wloop body i n a = Ok (Some (fold_left (fun a j => cmul a (f (names b j))) (seq i n) a)).
Proof.
  intros H. induction n as [|n IH]; intros i a Hn; cbn [wloop seq fold_left]; auto.
  rewrite H by lia. cbn [obind]. apply IH. lia.
Qed.
Lemma wloop_some (body : nat -> cR -> outcome (option cR)) : forall n i a r, wloop body i n a = Ok (Some r) ->
  forall j, (i <= j < i + n)%nat -> exists x y, body j x = Ok (Some y).
Proof.
  induction n as [|n IH]; intros i a r H j Hj; [lia|]. cbn [wloop] in H. destruct (body i a) as [[y|]| |] eqn:B; cbn [obind] in H; try discriminate.
  destruct (Nat.eq_dec j i) as [->|]; [eauto|]. apply (IH (S i) y r H). lia.
Qed.

Section W.
Context (c : @cfg NumR) (d : D) (HI : Inv c d).
Lemma wt_g_ok i a : (i < avail (gB d))%nat ->
  wt_g (c_tab c) d i a = Ok (if cEqual (g_W d (names (gB d) i)) (mkC r0 r0) then None else Some (cmul a (g_W d (names (gB d) i)))).
Proof.
  intros Hi. unfold wt_g. destruct (bat_spec (gB d) i (i_bg _ _ HI) Hi) as [-> L]. cbn [obind]. cbv zeta.
  rewrite (deref_live _ _ (f_gv HI _ IN L)), (deref_live _ _ (f_gv HI _ OUT L)). cbn [obind].
  rewrite (i_sG _ _ HI _ L). cbn [obind]. rewrite cEqual_refl. cbn [negb]. now destruct (cEqual _ _).
Qed.
Lemma wt_w_ok i a : (i < avail (wB d))%nat ->
  wt_w (c_tab c) d i a = Ok (if cEqual (w_W d (names (wB d) i)) (mkC r0 r0) then None else Some (cmul a (w_W d (names (wB d) i)))).
Proof.
  intros Hi. unfold wt_w. destruct (bat_spec (wB d) i (i_bw _ _ HI) Hi) as [-> L]. cbn [obind]. cbv zeta.
  rewrite (deref_live _ _ (f_wv HI _ IN L)), (deref_live _ _ (f_wv HI _ OUT L)). cbn [obind].
  rewrite (i_sW _ _ HI _ L). cbn [obind]. rewrite cEqual_refl. cbn [negb]. now destruct (cEqual _ _).
Qed.
Definition no_tiny : Prop := (forall g, live (gB d) g -> ~ tiny (g_W d g)) /\ (forall w, live (wB d) w -> ~ tiny (w_W d w)).
Lemma weight_complete : cfg_ok c -> WInv c d -> no_tiny -> CheckWeight (c_tab c) d = Ok true.
Proof.
  intros C HW [TG TW]. unfold CheckWeight. pose proof (wi_p _ _ HW) as HP. destruct (Z.eqb_spec (order d) 0) as [O|O].
  - replace (dweight d) with (@cofr NumR (normF (c_tab c))) by (apply toC_inj; now rewrite HP). now rewrite cEqual_refl.
  - unfold bhowmany. rewrite (wloop_ok (gB d) (g_W d)); [|intros i a Hi; rewrite wt_g_ok by auto; rewrite cEqual_ntiny; auto; apply TG; now apply bat_spec; [apply HI|]|lia].
    cbn [obind].
    rewrite (wloop_ok (wB d) (w_W d)); [|intros i a Hi; rewrite wt_w_ok by auto; rewrite cEqual_ntiny; auto; apply TW; now apply bat_spec; [apply HI|]|lia].
    cbn [obind]. f_equal. 
    match goal with |- cEqual ?a _ = true => replace a with (dweight d); [apply cEqual_refl|] end.
    apply toC_inj. rewrite HP.
    assert (E : forall z (x : R), toC (@cmul_assign_r NumR z x) = Cmult (RtoC x) (toC z)).
    { intros [a b] x. unfold toC, cmul_assign_r, Cmult, RtoC. cbn. f_equal; ring. }
    rewrite E. change (fold_left (fun a j => cmul a (w_W d (names (wB d) j))) (seq 0 (avail (wB d)))) with (fun a => prodn (wB d) (w_W d) a (avail (wB d))).
    cbv beta. change (fold_left (fun a j => cmul a (g_W d (names (gB d) j))) (seq 0 (avail (gB d))) ?a) with (prodn (gB d) (g_W d) a (avail (gB d))).
    rewrite !prodn_pr. unfold sprod, sg, liveL. replace (toC (mkC r1 r0)) with (RtoC 1) by reflexivity.
    pose proof (f_order HI C) as Ho.
    replace (@rmul NumR (sfl d) (rofZ (if Z.rem (order d) 2 =? 0 then 1 else -1))) with (sfl d * sgo (order d))%R; [ring|].
    unfold sgo. rewrite Zeven_rem' by lia. destruct (Z.rem _ 2 =? 0); reflexivity.
Qed.
Lemma weight_sound : order d <> 0 -> CheckWeight (c_tab c) d = Ok true -> no_tiny.
Proof.
  intros O H. unfold CheckWeight in H. destruct (Z.eqb_spec (order d) 0) as [|_]; [contradiction|].
  destruct (wloop (wt_g (c_tab c) d) 0 _ _) as [[a|]| |] eqn:E1; cbn [obind] in H; try discriminate.
  destruct (wloop (wt_w (c_tab c) d) 0 _ _) as [[a'|]| |] eqn:E2; cbn [obind] in H; try discriminate.
  split; intros x L T; apply cEqual_tiny in T; pose proof L as [L1 L2].
  - destruct (wloop_some _ _ _ _ _ E1 (nm (gB d) x) ltac:(unfold bhowmany; lia)) as (z & y & B).
    rewrite wt_g_ok in B by auto. destruct (bi_nm _ (i_bg _ _ HI) x L1) as [_ Q]. rewrite Q, T in B. discriminate.
  - destruct (wloop_some _ _ _ _ _ E2 (nm (wB d) x) ltac:(unfold bhowmany; lia)) as (z & y & B).
    rewrite wt_w_ok in B by auto. destruct (bi_nm _ (i_bw _ _ HI) x L1) as [_ Q]. rewrite Q, T in B. discriminate.
Qed.
End W.
