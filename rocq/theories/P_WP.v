(** Weakest preconditions for the update programs of Markov.v *)
From Coq Require Import ZArith List Bool Arith Lia ZifyBool.
From Verif Require Import Base Num RNG Momentum Complex Lattice Bundle IndexMap Weights Diagram Markov
  P_Momentum P_RNG P_Bundle P_Lattice P_IndexMap.
Import ListNotations.
Open Scope Z_scope.

Definition wp {S A} (m : M S A) (s : S) (Q : A -> S -> Prop) : Prop :=
  match m s with Ok (a, s') => Q a s' | _ => False end.

Lemma wp_ok {S A} (m : M S A) s Q : wp m s Q -> exists a s', m s = Ok (a, s') /\ Q a s'.
Proof. unfold wp. destruct (m s) as [[a s']| |]; try contradiction. eauto. Qed.
Lemma wp_mono {S A} (m : M S A) s (Q Q' : A -> S -> Prop) :
  wp m s Q -> (forall a s', Q a s' -> Q' a s') -> wp m s Q'.
Proof. unfold wp. destruct (m s) as [[a s']| |]; auto. Qed.
Lemma wp_bind {S A B} (m : M S A) (k : A -> M S B) s Q :
  wp m s (fun a s' => wp (k a) s' Q) -> wp (bind m k) s Q.
Proof. unfold wp, bind. destruct (m s) as [[a s']| |]; auto. Qed.
Lemma wp_ret {S A} (a : A) (s : S) (Q : A -> S -> Prop) : Q a s -> wp (ret a) s Q.
Proof. auto. Qed.
Lemma wp_gets {S A} (f : S -> A) s (Q : A -> S -> Prop) : Q (f s) s -> wp (gets f) s Q.
Proof. auto. Qed.
Lemma wp_modify {S} (f : S -> S) s (Q : unit -> S -> Prop) : Q tt (f s) -> wp (modify f) s Q.
Proof. auto. Qed.
Lemma wp_lift {S A} (x : outcome A) (a : A) (s : S) (Q : A -> S -> Prop) :
  x = Ok a -> Q a s -> wp (lift x) s Q.
Proof. unfold wp, lift. intros ->. auto. Qed.
Lemma wp_guard_ub {S} (b : bool) (s : S) (Q : unit -> S -> Prop) : b = true -> Q tt s -> wp (guard_ub b) s Q.
Proof. intros ->. auto. Qed.
Lemma wp_guard_abort {S} (b : bool) (s : S) (Q : unit -> S -> Prop) : b = true -> Q tt s -> wp (guard_abort b) s Q.
Proof. intros ->. auto. Qed.
Lemma wp_rd {S} (p : nat) (s : S) (Q : nat -> S -> Prop) : (p < 20)%nat -> Q p s -> wp (rd p) s Q.
Proof.
  intros H HQ. unfold rd, MAX_BUNDLE. destruct (Nat.ltb_spec p 20); [exact HQ|lia].
Qed.

Section WP.
Context {N : Num} {E : Type} (next : E -> Z * E).
Notation mst := (@mstate N E).

(** Only the random engine moved. *)
Definition sil (s s' : mst) : Prop :=
  md s' = md s /\ mcount s' = mcount s /\ mprop s' = mprop s /\ macc s' = macc s.
Lemma sil_refl s : sil s s.
Proof. repeat split. Qed.
Lemma sil_trans s1 s2 s3 : sil s1 s2 -> sil s2 s3 -> sil s1 s3.
Proof. unfold sil. intuition congruence. Qed.

Lemma wp_word s (Q : Z -> mst -> Prop) :
  (forall x s', 0 <= x < 2^32 -> sil s s' -> Q x s') -> wp (word next) s Q.
Proof.
  intros H. unfold wp, word. destruct (next (mrng s)) as [x e]. apply H; [apply u32_range|repeat split].
Qed.
Lemma wp_urn s (Q : real -> mst -> Prop) :
  (forall x s', 0 <= x < 2^32 -> sil s s' -> Q (urn_of x) s') -> wp (urn next) s Q.
Proof. intros H. apply wp_bind, wp_word. intros x s' Hx Hs. apply wp_ret. auto. Qed.
Lemma wp_irn a b s (Q : Z -> mst -> Prop) : - 2^31 <= a -> a <= b -> b < 2^31 -> b - a + 1 < 2^31 ->
  (forall y s', a <= y <= b -> sil s s' -> Q y s') -> wp (irn next a b) s Q.
Proof.
  intros H1 H2 H3 H4 H. apply wp_bind, wp_word. intros x s' Hx Hs.
  destruct (irn_ok a b x) as [y [Ey Hy]]; try lia. eapply wp_lift; [exact Ey|]. auto.
Qed.
Lemma wp_pick b s (Q : nat -> mst -> Prop) : BInv b -> (0 < avail b)%nat ->
  (forall p s', live b p -> sil s s' -> Q p s') -> wp (pick next b) s Q.
Proof.
  intros HB Ha H. apply wp_bind, wp_word. intros x s' Hx Hs. apply wp_bind.
  destruct (bpick_spec b x) as [p [Ep Hp]]; auto; [lia|].
  eapply wp_lift; [exact Ep|]. apply wp_rd; [apply Hp|]. auto.
Qed.
Lemma wp_PickK s (Q : Z -> mst -> Prop) :
  (forall k s', inrange k -> sil s s' -> Q k s') -> wp (RandomPickK next) s Q.
Proof.
  intros H. apply wp_bind, wp_irn; unfold MAX_K; try lia. intros y s' Hy Hs. apply wp_ret.
  rewrite mkMom_id; [apply H; auto|]; unfold inrange, MAX_K; lia.
Qed.
Lemma wp_PickDSpin s (Q : Z -> mst -> Prop) :
  (forall k s', k = 1 \/ k = -1 -> sil s s' -> Q k s') -> wp (RandomPickDeltaSpin next) s Q.
Proof. intros H. apply wp_bind, wp_irn; try lia. intros y s' Hy Hs. apply wp_ret, H; auto. lia. Qed.
Lemma wp_PickSpin s (Q : spin -> mst -> Prop) :
  (forall k s', sil s s' -> Q k s') -> wp (RandomPickSpin next) s Q.
Proof. intros H. apply wp_bind, wp_irn; try lia. intros y s' Hy Hs. apply wp_ret, H; auto. Qed.
Lemma wp_PickDir s (Q : dir -> mst -> Prop) :
  (forall k s', sil s s' -> Q k s') -> wp (RandomPickDir next) s Q.
Proof. intros H. apply wp_bind, wp_irn; try lia. intros y s' Hy Hs. apply wp_ret, H; auto. Qed.

(** A time drawn at the present inverse temperature, and the times the program can store: the
    initial 0 or a draw at the present or an earlier, not larger inverse temperature. [rmul 1 b = b]
    says that b is a number of the arithmetic (for doubles: the encoding is canonical). *)
Definition tau_draw (c : cfg) (t : real) : Prop := exists x, 0 <= x < 2^32 /\ t = rmul (urn_of x) (c_beta c).
Definition beta_min : real := rdiv (rofZ 1) (rofZ (2^32)).
Inductive older : real -> real -> Prop :=
| older_refl b : older b b
| older_step b b' b'' : older b b' -> rmul (rofZ 1) b' = b' -> rleb beta_min b' = true -> rleb b' b'' = true -> older b b''.
Definition tau_gen (c : cfg) (t : real) : Prop :=
  t = rofZ 0 \/ exists b x, older b (c_beta c) /\ 0 <= x < 2^32 /\ t = rmul (urn_of x) b.
Lemma draw_gen c t : tau_draw c t -> tau_gen c t.
Proof. intros (x & H & X). right. exists (c_beta c), x. split; [apply older_refl|auto]. Qed.
Lemma wp_PickTau c s (Q : real -> mst -> Prop) :
  (forall t s', tau_draw c t -> sil s s' -> Q t s') -> wp (RandomPickTau next c) s Q.
Proof. intros H. apply wp_bind, wp_urn. intros x s' Hx Hs. apply wp_ret, H; auto. exists x. auto. Qed.

Lemma wp_pick_coords sizes : Forall (fun z => 0 < z < 2^31) sizes -> forall s (Q : list Z -> mst -> Prop),
  (forall l s', Forall2 (fun z x => 0 <= x < z) sizes l -> sil s s' -> Q l s') ->
  wp (pick_coords next sizes) s Q.
Proof.
  induction 1 as [|z r Hz Hr IH]; intros s Q H.
  - apply wp_ret, H; [constructor|apply sil_refl].
  - cbn [pick_coords]. apply wp_bind, wp_irn; try lia. intros y s1 Hy H1. apply wp_bind.
    apply IH. intros l s2 Hl H2. apply wp_ret, H; [constructor; auto; lia|eapply sil_trans; eauto].
Qed.
Definition lat_ok (L : lattice) : Prop :=
  Size L <> [] /\ Forall (fun z => 0 < z < 2^31) (Size L) /\ 0 < SublatVol L < 2^31.
Lemma wp_PickSite c s (Q : site -> mst -> Prop) : lat_ok (c_lat c) ->
  (forall r s', site_ok (c_lat c) r -> sil s s' -> Q r s') -> wp (RandomPickSite next c) s Q.
Proof.
  intros [_ [H1 H2]] H. apply wp_bind, wp_pick_coords; auto. intros l s1 Hl Hs1.
  apply wp_bind, wp_irn; try lia. intros y s2 Hy Hs2. apply wp_ret, H; [|eapply sil_trans; eauto].
  split; simpl; [lia|exact Hl].
Qed.

Lemma wp_orw c i s (Q : real -> mst -> Prop) : 0 <= i -> (Z.to_nat i < length (c_orw c))%nat ->
  (forall x, nth_error (c_orw c) (Z.to_nat i) = Some x -> Q x s) -> wp (orw c i) s Q.
Proof.
  intros H1 H2 H. unfold orw. destruct (Z.ltb_spec i 0); [lia|].
  destruct (nth_error (c_orw c) (Z.to_nat i)) as [x|] eqn:Ex.
  - apply wp_ret, H, eq_refl.
  - apply nth_error_None in Ex. lia.
Qed.

(** What the acceptance tail of an update does: [e] is the engine state when the test is
    made; the test draws a number unless the threshold is at least 1. *)
Definition decided (s s' : mst) (op : Z) (prob : real) (dprop drej : diagram) : Prop :=
  exists (e : E) (b : bool),
    (if rleb (rofZ 1) prob then b = true /\ mrng s' = e
     else b = rltb (urn_of (u32 (fst (next e)))) prob /\ mrng s' = snd (next e)) /\
    md s' = (if b then dprop else drej) /\ mcount s' = mcount s /\
    mprop s' = bump (mprop s) op (order (md s)) /\
    macc s' = (if b then bump (macc s) op (order (md s)) else macc s).

(** Same as [sil] except that the diagram may differ. *)
Definition sil' (s s' : mst) : Prop :=
  mcount s' = mcount s /\ mprop s' = mprop s /\ macc s' = macc s.

Lemma wp_decide op o prob write (s0 s : mst) dprop (Q : unit -> mst -> Prop) :
  0 <= o < 10 -> o = order (md s0) -> sil' s0 s -> write (md s) = Ok dprop ->
  (forall s', decided s0 s' op prob dprop (md s) -> Q tt s') ->
  wp (decide next op o prob write) s Q.
Proof.
  intros Ho Eo [E1 [E2 E3]] Hw H. unfold decide, propose, accepted.
  assert (G : (0 <=? o) && (o <? 10) = true) by lia. rewrite G. cbn [guard_ub].
  apply wp_bind. apply wp_bind, wp_ret, wp_modify. apply wp_bind.
  unfold accept. destruct (rleb (rofZ 1) prob) eqn:EP.
  - apply wp_ret. apply wp_bind. apply wp_bind, wp_ret, wp_modify. unfold wp, updD. cbn [md s_macc s_mprop].
    rewrite Hw. apply H. exists (mrng s), true. rewrite EP. cbn. subst o. rewrite E1, E2, E3. repeat split.
  - apply wp_bind. unfold urn. apply wp_bind. unfold wp at 1, word. cbn [mrng s_mprop].
    destruct (next (mrng s)) as [x e] eqn:EN. apply wp_ret, wp_ret.
    destruct (rltb (urn_of (u32 x)) prob) eqn:EL.
    + apply wp_bind. apply wp_bind, wp_ret, wp_modify. unfold wp, updD. cbn [md s_macc s_mprop s_mrng].
      rewrite Hw. apply H. exists (mrng s), true. rewrite EP, EN. cbn. subst o. rewrite E1, E2, E3, EL. repeat split.
    + apply wp_ret. apply H. exists (mrng s), false. rewrite EP, EN. cbn. subst o. rewrite E1, E2, E3, EL. repeat split.
Qed.

(** Result of an update: nothing but the engine changed, or a proposal was decided. *)
Definition Post (R : diagram -> real -> diagram -> diagram -> Prop) (op : Z) (s : mst) : unit -> mst -> Prop :=
  fun _ s' => sil s s' \/
    exists prob dprop drej, R (md s) prob dprop drej /\ decided s s' op prob dprop drej.
End WP.
