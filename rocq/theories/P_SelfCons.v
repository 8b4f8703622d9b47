Require Import Reals List Arith Bool Lra Lia.
From Coquelicot Require Import Complex.
Require Import Verif.PyWeight Verif.PyWeightSpec Verif.SelfCons Verif.SelfConsSpec
  Verif.P_Fourier Verif.P_PyWeight Verif.P_PyWeight2.
Import ListNotations.
Local Open Scope R_scope.

(* ---- any order of calls in the home domain ---- *)
Definition Sinv s h (w : weight) (k t : bool) (b : list entry)
  (last : option entry) : Prop :=
  Inv s h w k t b false /\
  match last with
  | None => backUp w = None
  | Some (r, x) => exists q, backUp w = Some (Some r, q) /\ standsFor s q x /\
                             accu w <> None
  end.

Lemma Inv_less s h w k t b : Inv s h w k t b true -> Inv s h w k t b false.
Proof. intros (A & B & C & D & _). repeat (split; [assumption|]). discriminate. Qed.

Lemma Inv_again s h w k t b r x q : proper s -> Inv s h w k t b false ->
  backUp w = Some (Some r, q) -> standsFor s q x -> accu w <> None ->
  hasTau s = false \/ t = h ->
  Sinv s h (rollBack s w) k t ((- r, x) :: b) (Some (r, x)).
Proof.
  intros P (K & T & D & A & U) E Sq Ne Hh.
  unfold rollBack. rewrite E. destruct (accu w) as [[a n]|]; [|easy].
  destruct A as [N Sa].
  destruct (fft_stands s (domains (core w)) q x P Sq) as (Sq' & K' & T').
  set (q' := fftPlain s (domains (core w)) q) in *.
  cbn [domains fst snd asked] in K', T'.
  assert (Hq : same s (pData q') (at_ s (timeFwd s) (timeBack s) false k t x)).
  { apply stands_view in Sq'; [|exact P]. rewrite K', T', K, T in Sq'. exact Sq'. }
  assert (Sa' : same s (dataAdd a (dataScale (- r) (pData q')))
           (at_ s (timeFwd s) (timeBack s) false k t (total ((- r, x) :: b)))).
  { eapply same_trans; [apply add_same; [|exact Hq]|].
    - eapply same_trans; [exact Sa|]. now apply kept_view.
    - apply same_sym. now apply view_cons. }
  assert (N' : n - r = ratios ((- r, x) :: b))
    by (rewrite N; unfold ratios; cbn; ring).
  split.
  - unfold Inv. cbn [core accu backUp]. unfold shown at 1 2. cbn [pK pW].
    split; [exact K|]. split; [exact T|]. split; [|split].
    + intros L. apply shown_ok; auto. rewrite K, T. exact Sa'.
    + split; [exact N'|]. eapply same_trans; [exact Sa'|].
      apply same_sym. now apply kept_view.
    + discriminate.
  - exists q'. cbn. repeat split; auto. discriminate.
Qed.

Lemma Sinv_fft s h w k t b last rq : proper s -> Sinv s h w k t b last ->
  Sinv s h (fftWeight s rq w) (asked (fst rq) k) (asked (snd rq) t) b last.
Proof.
  intros P [I L]. split; [now apply Inv_fft|]. cbn.
  destruct last as [[r x]|]; [|exact L].
  destruct L as (q & E & Sq & Ne). exists q. repeat split; auto.
  destruct (accu w) as [[? ?]|]; [discriminate|easy].
Qed.

Lemma Sinv_merge s h w k t b last r new x : proper s -> Sinv s h w k t b last ->
  hasTau s = false \/ t = h -> standsFor s new x ->
  Sinv s h (merge s (Some r) new w) k t ((r, x) :: b) (Some (r, x)).
Proof.
  intros P [I _] Hh Sn.
  pose proof (Inv_merge s h w k t b false r new x P I Hh Sn) as M.
  split; [now apply Inv_less|].
  destruct M as (_ & _ & _ & _ & U).
  destruct (U eq_refl) as (r' & q & x' & b' & E & E' & Sq & Ne).
  injection E' as <- <- <-. exists q. auto.
Qed.

Lemma steady_inv s h p ops k t b last : proper s ->
  steady s h (pK p) (pW p) ops k t b last ->
  Sinv s h (wrun s ops (newWeight p)) k t b last.
Proof.
  intros P. induction 1.
  - split; [|reflexivity]. apply (tidy_inv s h p [] _ _ [] false P). constructor.
  - rewrite wrun_app. now apply Sinv_fft.
  - rewrite wrun_app. eapply Sinv_merge; eauto.
  - rewrite wrun_app. destruct IHsteady as [I (q & E & Sq & Ne)].
    cbn [wstep]. eapply Inv_again; eauto.
  - rewrite wrun_app. destruct IHsteady as [I E]. cbn [wstep].
    unfold rollBack. rewrite E. now split.
Qed.

Lemma steady_average s h p ops k t b last : proper s ->
  steady s h (pK p) (pW p) ops k t b last -> 1e-3 < ratios b ->
  standsFor s (core (wrun s ops (newWeight p))) (average b).
Proof.
  intros P H L. destruct (steady_inv s h p ops k t b last P H) as [(_ & _ & D & _) _].
  now apply D.
Qed.

(* ---- SigmaDeltaT over the versions ---- *)
Lemma delta_tidy s h k0 w0 l : hasTau s = false ->
  forall v ops k w b due,
  tidy s h k0 w0 ops k w b due ->
  Forall (fun ox => standsFor s (deltaOf (fst ox)) (snd ox)) l ->
  exists k' w' due',
    tidy s h k0 w0 (ops ++ loopOps deltaOps v (map fst l)) k' w'
         (accepted v b l) due'.
Proof.
  intros T. induction l as [|[o x] l IH]; intros v ops k w b due H F.
  - cbn. rewrite app_nil_r. eauto.
  - inversion F as [|? ? Sx F']; subst. cbn [fst snd] in Sx.
    cbn [map fst loopOps accepted]. rewrite app_assoc.
    assert (M : tidy s h k0 w0 (ops ++ [OMerge (Some (ratioOf (S v))) (deltaOf o)])
                k w ((ratioOf (S v), x) :: b) true)
      by (eapply tidy_merge; eauto).
    destruct o as [d p|d|d|d p]; cbn [deltaOps succeeded deltaOf] in *.
    + change [OMerge (Some (ratioOf (S v))) d; OFFT toKonly; OFFT toRonly]
        with ([OMerge (Some (ratioOf (S v))) d] ++ [OFFT toKonly] ++ [OFFT toRonly]).
      rewrite !app_assoc. eapply IH; [|exact F'].
      apply tidy_fft. apply tidy_fft. exact M.
    + change [OMerge (Some (ratioOf (S v))) d; ORollBack]
        with ([OMerge (Some (ratioOf (S v))) d] ++ [ORollBack]).
      rewrite !app_assoc. eapply IH; [|exact F'].
      eapply tidy_back; [exact M|auto].
    + change [OMerge (Some (ratioOf (S v))) d; OFFT toKonly; ORollBack]
        with ([OMerge (Some (ratioOf (S v))) d] ++ [OFFT toKonly] ++ [ORollBack]).
      rewrite !app_assoc. eapply IH; [|exact F'].
      eapply tidy_back; [apply tidy_fft; exact M|auto].
    + change [OMerge (Some (ratioOf (S v))) d; OFFT toKonly; ORollBack]
        with ([OMerge (Some (ratioOf (S v))) d] ++ [OFFT toKonly] ++ [ORollBack]).
      rewrite !app_assoc. eapply IH; [|exact F'].
      eapply tidy_back; [apply tidy_fft; exact M|auto].
Qed.

Lemma ratio_big v : 1/11 <= ratioOf (S v).
Proof.
  unfold ratioOf. rewrite S_INR. pose proof (pos_INR v).
  apply (Rmult_le_reg_r (INR v + 1 + 10)); [lra|].
  unfold Rdiv. rewrite (Rmult_assoc (INR v + 1)), Rinv_l by lra. lra.
Qed.

Lemma accepted_ratios l : forall v b, 0 <= ratios b ->
  ratios b <= ratios (accepted v b l) /\
  (existsb (fun ox => succeeded (fst ox)) l = true ->
   1/11 <= ratios (accepted v b l)).
Proof.
  induction l as [|[o x] l IH]; intros v b B; cbn [accepted existsb fst].
  - split; [lra|discriminate].
  - pose proof (ratio_big v) as R.
    destruct (succeeded o) eqn:E.
    + destruct (IH (S v) ((ratioOf (S v), x) :: b)) as [H1 _].
      { unfold ratios in *; cbn; lra. }
      assert (ratios ((ratioOf (S v), x) :: b) = ratioOf (S v) + ratios b) by reflexivity.
      split; [lra|intros _; lra].
    + destruct (IH (S v) b B) as [H1 H2]. split; [lra|exact H2].
Qed.

Lemma delta_law s p l v : proper s -> hasTau s = false ->
  Forall (fun ox => standsFor s (deltaOf (fst ox)) (snd ox)) l ->
  existsb (fun ox => succeeded (fst ox)) l = true ->
  standsFor s (core (wrun s (loopOps deltaOps v (map fst l)) (newWeight p)))
              (average (accepted v [] l)).
Proof.
  intros P T F E.
  destruct (delta_tidy s (pW p) (pK p) (pW p) l T v [] _ _ [] false
              (tidy_start _ _ _ _) F) as (k' & w' & due' & H).
  eapply (tidy_average s (pW p)); [exact P|exact H|].
  destruct (accepted_ratios l v []) as [_ R]; [cbn; lra|].
  specialize (R E). lra.
Qed.

(* ---- Polar over the versions, W_Dyson never failing ---- *)
Lemma polar_steady s k0 w0 l : forall v ops k b last,
  steady s false k0 w0 ops k false b last ->
  Forall (meant s) l ->
  exists k' last',
    steady s false k0 w0 (ops ++ loopOps polarOps v (map fst l)) k' false
         (signed v b last l) last'.
Proof.
  induction l as [|[o x] l IH]; intros v ops k b last H F.
  - cbn. rewrite app_nil_r. eauto.
  - inversion F as [|? ? [Nw Sx] F']; subst. cbn [fst snd] in Sx, Nw.
    cbn [map fst loopOps signed]. rewrite app_assoc.
    destruct o as [d p|d|d|d p]; cbn [polarOps succeeded polarOf] in *.
    + change [OMerge (Some (ratioOf (S v))) p; OFFT toKW; OFFT toRT]
        with ([OMerge (Some (ratioOf (S v))) p] ++ [OFFT toKW] ++ [OFFT toRT]).
      rewrite !app_assoc.
      eapply (IH (S v) _ false); [|exact F'].
      apply (steady_fft s false k0 w0 _ true true _ _ toRT).
      apply (steady_fft s false k0 w0 _ k false _ _ toKW).
      eapply steady_merge; eauto.
    + destruct last as [[r y]|].
      * eapply IH; [|exact F']. eapply steady_back; [exact H|auto].
      * eapply IH; [|exact F']. eapply steady_idle; exact H.
    + destruct last as [[r y]|].
      * eapply IH; [|exact F']. eapply steady_back; [exact H|auto].
      * eapply IH; [|exact F']. eapply steady_idle; exact H.
    + destruct Nw.
Qed.

Lemma polar_signed s p l v : proper s -> pW p = false ->
  Forall (meant s) l -> 1e-3 < ratios (signed v [] None l) ->
  standsFor s (core (wrun s (loopOps polarOps v (map fst l)) (newWeight p)))
              (average (signed v [] None l)).
Proof.
  intros P W F L. pose proof (steady_start s false (pK p) (pW p)) as St.
  rewrite W in St at 2.
  destruct (polar_steady s (pK p) (pW p) l v [] (pK p) [] None St F)
    as (k' & last' & H).
  exact (steady_average s false p _ _ _ _ _ P H L).
Qed.

Lemma signed_all_ok l : forall v b last,
  Forall (fun ox => succeeded (fst ox) = true) l ->
  signed v b last l = accepted v b l.
Proof.
  induction l as [|[o x] l IH]; intros v b last F; [reflexivity|].
  inversion F as [|? ? So F']; subst. cbn [fst] in So.
  cbn [signed accepted]. rewrite So. now apply IH.
Qed.

Lemma polar_law s p l v : proper s -> pW p = false -> l <> [] ->
  Forall (fun ox => succeeded (fst ox) = true) l ->
  Forall (meant s) l ->
  standsFor s (core (wrun s (loopOps polarOps v (map fst l)) (newWeight p)))
              (average (accepted v [] l)).
Proof.
  intros P W Ne So F. rewrite <- (signed_all_ok l v [] None So).
  apply polar_signed; auto. rewrite signed_all_ok by exact So.
  destruct (accepted_ratios l v []) as [_ R]; [cbn; lra|].
  assert (1/11 <= ratios (accepted v [] l)); [|lra].
  apply R. destruct l as [|ox l]; [easy|]. inversion So; subst. cbn. now rewrite H1.
Qed.

(* ---- the first version failing in W_Dyson ---- *)
Lemma first_failure s p0 d p x v : proper s -> standsFor s p x ->
  standsFor s (core (wrun s (polarOps v (VWFail d p)) (newWeight p0))) x.
Proof.
  intros P H. cbn [polarOps wrun fold_left wstep].
  destruct (fft_stands s (domains p0) p x P H) as (H' & K & T).
  cbn [domains fst snd asked] in K, T.
  unfold merge. cbn [newWeight core accu].
  set (q := fftPlain s (domains p0) p) in *.
  unfold fftWeight. cbn [core accu backUp].
  unfold rollBack. cbn [core accu backUp].
  set (c := fftPlain s toKW _).
  assert (Fl : pK c = true /\ pW c = true)
    by (unfold c; apply (fft_flags s toKW _ P)).
  destruct Fl as [Fk Ft].
  destruct (fft_stands s (domains c) q x P H') as (H2 & K2 & T2).
  cbn [domains fst snd asked] in K2, T2.
  unfold shown at 1.
  destruct (Rlt_dec 1e-3 (0 + ratioOf v - ratioOf v)) as [L|_]; [exfalso; lra|].
  cbn [core]. unfold standsFor in *. cbn [pData pK pW]. rewrite <- K2, <- T2.
  exact H2.
Qed.

(* ---- a W_Dyson failure after a success ---- *)
Definition tiny : shape := Shape true true [1%nat] 2 1.
Definition bump : data := fun _ _ t => if Nat.eqb t 0 then RtoC 1 else RtoC 0.
Definition zeroP : plain := Plain dataZero false false.
Definition bumpP : plain := Plain bump false false.

Lemma tiny_proper : proper tiny.
Proof. split; [repeat constructor; lia|]. split; [cbn; lia|cbn; lra]. Qed.

Lemma tiny_toK y t : toK tiny y 0%nat 0%nat t = y 0%nat 0%nat t.
Proof.
  unfold toK. change (vol tiny) with 1%nat. cbn [csum].
  assert (Kd : kDotR tiny 0%nat 0%nat = 0).
  { unfold kDotR. cbn. unfold Rdiv. ring. }
  rewrite Kd, Ropp_0, cis_0. ring.
Qed.

Lemma bump_kept :
  kept tiny false true true (total [(ratioOf 2, bump); (ratioOf 1, dataZero)])
       0%nat 0%nat 1%nat
  = RtoC (1/6).
Proof.
  unfold kept, at_. rewrite tiny_toK. cbn [conv].
  rewrite accuTimeFwd_fwd by (exact tiny_proper || reflexivity).
  unfold fwd. change (bins tiny) with 2%nat. cbn [csum].
  unfold total, bump, dataZero. cbn [fold_right Nat.eqb fst snd].
  assert (A0 : Aa tiny 1%nat 0%nat = 0).
  { unfold Aa. rewrite At_form by exact tiny_proper. cbn. field. }
  rewrite A0, Ropp_0, cis_0.
  replace (ratioOf 2) with (1/6) by (unfold ratioOf; cbn [INR]; field).
  ring.
Qed.

Lemma bump_seen :
  at_ tiny (timeFwd tiny) (timeBack tiny) false true true bump 0%nat 0%nat 1%nat
  = (0, -1).
Proof.
  unfold at_. rewrite tiny_toK. cbn [conv].
  rewrite timeFwd_fwd by (exact tiny_proper || reflexivity).
  unfold fwd. change (bins tiny) with 2%nat. cbn [csum].
  assert (A0 : At tiny 1%nat 0%nat = PI / 2).
  { rewrite At_form by exact tiny_proper. cbn. field. }
  rewrite A0. unfold bump. cbn [Nat.eqb].
  replace (cis (- (PI / 2))) with ((0, -1) : C).
  - ring.
  - unfold cis. rewrite cos_neg, sin_neg, cos_PI2, sin_PI2. reflexivity.
Qed.

Lemma mixed_domains (d : plain) :
  ~ standsFor tiny (core (wrun tiny
      (loopOps polarOps 0%nat [VOk d zeroP; VWFail d bumpP]) (newWeight zeroP))) dataZero.
Proof.
  intros H.
  pose proof tiny_proper as P.
  assert (Sz : standsFor tiny zeroP dataZero) by (intros i v t _ _; reflexivity).
  assert (Sb : standsFor tiny bumpP bump) by (intros i v t _ _; reflexivity).
  set (pre := [OMerge (Some (ratioOf 1)) zeroP] ++ [OFFT toKW] ++ [OFFT toRT]
              ++ [OMerge (Some (ratioOf 2)) bumpP] ++ [OFFT toKW]).
  assert (T : tidy tiny false false false pre true true
                [(ratioOf 2, bump); (ratioOf 1, dataZero)] true).
  { unfold pre. rewrite !app_assoc.
    apply (tidy_fft tiny false false false _ false false _ _ toKW).
    apply (tidy_merge tiny false false false _ false false _ true); auto.
    apply (tidy_fft tiny false false false _ true true _ _ toRT).
    apply (tidy_fft tiny false false false _ false false _ _ toKW).
    apply (tidy_merge tiny false false false [] false false [] false); auto.
    constructor. }
  change (loopOps polarOps 0%nat [VOk d zeroP; VWFail d bumpP])
    with (pre ++ [ORollBack]) in H.
  rewrite wrun_app in H.
  pose proof (tidy_inv tiny false zeroP pre _ _ _ _ P T) as (K & W & _ & A & U).
  set (w := wrun tiny pre (newWeight zeroP)) in *.
  destruct (U eq_refl) as (r & q & x & b' & E & E' & Sq & Ne).
  injection E' as <- <- <-.
  cbn [wstep] in H. unfold rollBack in H. rewrite E in H.
  destruct (accu w) as [[a n]|]; [|easy]. destruct A as [N Sa].
  destruct (fft_stands tiny (domains (core w)) q bump P Sq) as (Sq' & K' & W').
  set (q' := fftPlain tiny (domains (core w)) q) in *.
  cbn [domains fst snd asked] in K', W'. rewrite K in K'. rewrite W in W'.
  apply stands_view in Sq'; [|exact P]. rewrite K', W' in Sq'.
  unfold standsFor in H. cbn [core pData pK pW shown] in H.
  destruct (Rlt_dec 1e-3 (n - ratioOf 2)) as [L|L]; cycle 1.
  { apply L. rewrite N. unfold ratios. cbn [fold_right fst].
    unfold ratioOf. cbn [INR]. lra. }
  assert (B : (0 < vol tiny)%nat /\ (1 < bins tiny)%nat) by (cbn; lia).
  destruct B as [B1 B2].
  pose proof (H 0%nat 0%nat 1%nat B1 B2) as H0. rewrite K, W in H0.
  rewrite (seen_at tiny true true dataZero P 0%nat 0%nat 1%nat B1 B2) in H0.
  destruct (linear_view tiny true true P) as [_ Lz].
  rewrite (Lz 0%nat 0%nat 1%nat B1 B2) in H0.
  unfold dataScale, dataAdd in H0. unfold dataZero in H0 at 1.
  rewrite (Sa 0%nat 0%nat 1%nat B1 B2), (Sq' 0%nat 0%nat 1%nat B1 B2) in H0.
  rewrite bump_kept, bump_seen in H0.
  assert (Nz : n - ratioOf 2 <> 0) by lra.
  assert (H1 : Cplus (RtoC (1/6)) (Cmult (RtoC (- ratioOf 2)) (0, -1)) = RtoC 0).
  { destruct (Ceq_dec (Cplus (RtoC (1/6)) (Cmult (RtoC (- ratioOf 2)) (0, -1))) (RtoC 0))
      as [Q|Q]; [exact Q|]. exfalso. revert H0. apply Cmult_neq_0; [|exact Q].
    intros Z. injection Z as Z. exact (Rinv_neq_0_compat _ Nz Z). }
  apply (f_equal fst) in H1. cbn in H1. lra.
Qed.
