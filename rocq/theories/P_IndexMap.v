(** Proofs about IndexMap.v and Weights.v *)
From Coq Require Import ZArith List Bool Lia Reals Lra Psatz.
From Verif Require Import Base Num NumR NumF Complex Lattice P_Lattice IndexMap Weights.
Import ListNotations.
Open Scope Z_scope.

Section Any.
Context {N : Num}.

(** The number of entries of the smooth and of the delta table. *)
Definition tabsize (m : imap) : Z :=
  im_nsp m * SublatVol (im_lat m) * im_nsp m * SublatVol (im_lat m) * Vol (im_lat m) * im_maxtau m.
Definition tabsizeD (m : imap) : Z :=
  im_nsp m * SublatVol (im_lat m) * im_nsp m * SublatVol (im_lat m) * Vol (im_lat m).

Record imap_ok (m : imap) : Prop := {
  mo_size : Size (im_lat m) <> [];
  mo_pos : Forall (fun s => 0 < s) (Size (im_lat m));
  mo_sub : 0 < SublatVol (im_lat m);
  mo_nsp : 0 < im_nsp m;
  mo_tau : 0 < im_maxtau m;
  mo_fit : tabsize m < 2^32 }.

Lemma Vol_pos L : Size L <> [] -> Forall (fun s => 0 < s) (Size L) -> 0 < Vol L.
Proof.
  intros Hn HP. rewrite Vol_rvol. apply Forall_rev in HP.
  induction HP as [|s r Hs HP IH]; [reflexivity|]. simpl. nia.
Qed.

Lemma le_mul_l p a : 0 < p -> 0 < a -> a <= p * a.
Proof. nia. Qed.
Lemma caches_smooth m : imap_ok m ->
  let S := SublatVol (im_lat m) in let V := Vol (im_lat m) in let T := im_maxtau m in let P := im_nsp m in
  cacheSmooth m = ([S * P * S * V * T; P * S * V * T; S * V * T; V * T; T; 1], tabsize m) /\
  cacheDelta m = ([S * P * S * V; P * S * V; S * V; V; 1], tabsizeD m).
Proof.
  intros H S V T P.
  pose proof (Vol_pos _ (mo_size m H) (mo_pos m H)) as HV.
  pose proof (mo_sub m H) as HS. pose proof (mo_nsp m H) as HP. pose proof (mo_tau m H) as HT.
  pose proof (mo_fit m H) as HF. unfold tabsize in HF. fold S V T P in HV, HS, HP, HT, HF.
  set (a1 := T) in *. set (a2 := V * T). set (a3 := S * V * T). set (a4 := P * S * V * T).
  set (a5 := S * P * S * V * T).
  assert (B5 : 0 < a5 /\ P * a5 = P * S * P * S * V * T) by (unfold a5; split; [repeat apply Z.mul_pos_pos; auto|ring]).
  assert (B4 : 0 < a4 /\ S * a4 = a5) by (unfold a4, a5; split; [repeat apply Z.mul_pos_pos; auto|ring]).
  assert (B3 : 0 < a3 /\ P * a3 = a4) by (unfold a3, a4; split; [repeat apply Z.mul_pos_pos; auto|ring]).
  assert (B2 : 0 < a2 /\ S * a2 = a3) by (unfold a2, a3; split; [repeat apply Z.mul_pos_pos; auto|ring]).
  assert (B1 : 0 < a1 /\ V * a1 = a2) by (unfold a1, a2; split; [auto|ring]).
  assert (F5 : a5 < 2^32) by (pose proof (le_mul_l P a5 HP (proj1 B5)); lia).
  assert (F4 : a4 < 2^32) by (pose proof (le_mul_l S a4 HS (proj1 B4)); lia).
  assert (F3 : a3 < 2^32) by (pose proof (le_mul_l P a3 HP (proj1 B3)); lia).
  assert (F2 : a2 < 2^32) by (pose proof (le_mul_l S a2 HS (proj1 B2)); lia).
  assert (F1 : a1 < 2^32) by (pose proof (le_mul_l V a1 HV (proj1 B1)); lia).
  set (d1 := V). set (d2 := S * V). set (d3 := P * S * V). set (d4 := S * P * S * V).
  assert (D1 : 0 < d1 /\ d1 * T = a2) by (unfold d1, a2; split; [auto|ring]).
  assert (D2 : 0 < d2 /\ d2 * T = a3) by (unfold d2, a3; split; [repeat apply Z.mul_pos_pos; auto|ring]).
  assert (D3 : 0 < d3 /\ d3 * T = a4) by (unfold d3, a4; split; [repeat apply Z.mul_pos_pos; auto|ring]).
  assert (D4 : 0 < d4 /\ d4 * T = a5) by (unfold d4, a5; split; [repeat apply Z.mul_pos_pos; auto|ring]).
  assert (D5 : P * d4 = P * S * P * S * V) by (unfold d4; ring).
  assert (G1 : d1 < 2^32) by (pose proof (le_mul_l T d1 HT (proj1 D1)); lia).
  assert (G2 : d2 < 2^32) by (pose proof (le_mul_l T d2 HT (proj1 D2)); lia).
  assert (G3 : d3 < 2^32) by (pose proof (le_mul_l T d3 HT (proj1 D3)); lia).
  assert (G4 : d4 < 2^32) by (pose proof (le_mul_l T d4 HT (proj1 D4)); lia).
  assert (GP5 : 0 < P * d4) by (apply Z.mul_pos_pos; [exact HP|apply D4]).
  assert (G5 : P * d4 < 2^32).
  { pose proof (le_mul_l T (P * d4) HT GP5). lia. }
  split.
  - unfold cacheSmooth, shape. cbn [caches]. fold S V T P.
    replace (1 * T) with a1 by (unfold a1; ring).
    unfold u32. rewrite (Z.mod_small a1) by lia.
    replace (a1 * V) with a2 by (unfold a1, a2; ring). rewrite (Z.mod_small a2) by lia.
    replace (a2 * S) with a3 by (unfold a2, a3; ring). rewrite (Z.mod_small a3) by lia.
    replace (a3 * P) with a4 by (unfold a3, a4; ring). rewrite (Z.mod_small a4) by lia.
    replace (a4 * S) with a5 by (unfold a4, a5; ring). rewrite (Z.mod_small a5) by lia.
    replace (a5 * P) with (P * a5) by ring.
    unfold tabsize. fold S V T P. rewrite Z.mod_small by lia.
    f_equal. lia.
  - unfold cacheDelta, shape. cbn [firstn caches]. fold S V T P.
    replace (1 * V) with d1 by (unfold d1; ring).
    unfold u32. rewrite (Z.mod_small d1) by lia.
    replace (d1 * S) with d2 by (unfold d1, d2; ring). rewrite (Z.mod_small d2) by lia.
    replace (d2 * P) with d3 by (unfold d2, d3; ring). rewrite (Z.mod_small d3) by lia.
    replace (d3 * S) with d4 by (unfold d3, d4; ring). rewrite (Z.mod_small d4) by lia.
    replace (d4 * P) with (P * d4) by ring.
    unfold tabsizeD. fold S V T P. rewrite Z.mod_small by lia.
    f_equal. lia.
Qed.

(** two digits *)
Lemma digit_range x y a b : 0 <= x < a -> 0 <= y < b -> 0 <= x * b + y < a * b.
Proof. intros. nia. Qed.
Lemma digit_inj x y x' y' b : 0 <= y < b -> 0 <= y' < b -> x * b + y = x' * b + y' -> x = x' /\ y = y'.
Proof. intros. assert (x = x') by nia. nia. Qed.

Lemma six_range P S V T a s b s' c t :
  0 <= a < P -> 0 <= s < S -> 0 <= b < P -> 0 <= s' < S -> 0 <= c < V -> 0 <= t < T ->
  let i := a * (S * P * S * V * T) + s * (P * S * V * T) + b * (S * V * T) + s' * (V * T) + c * T + t in
  0 <= i < P * S * P * S * V * T.
Proof.
  intros Ha Hs Hb Hs' Hc Ht i.
  pose proof (digit_range _ _ _ _ Ha Hs) as H1.
  pose proof (digit_range _ _ _ _ H1 Hb) as H2.
  pose proof (digit_range _ _ _ _ H2 Hs') as H3.
  pose proof (digit_range _ _ _ _ H3 Hc) as H4.
  pose proof (digit_range _ _ _ _ H4 Ht) as H5.
  replace i with (((((a * S + s) * P + b) * S + s') * V + c) * T + t) by (unfold i; ring). exact H5.
Qed.
Lemma six_inj P S V T a s b s' c t a2 s2 b2 s2' c2 t2 :
  0 <= a < P -> 0 <= s < S -> 0 <= b < P -> 0 <= s' < S -> 0 <= c < V -> 0 <= t < T ->
  0 <= a2 < P -> 0 <= s2 < S -> 0 <= b2 < P -> 0 <= s2' < S -> 0 <= c2 < V -> 0 <= t2 < T ->
  a * (S * P * S * V * T) + s * (P * S * V * T) + b * (S * V * T) + s' * (V * T) + c * T + t =
  a2 * (S * P * S * V * T) + s2 * (P * S * V * T) + b2 * (S * V * T) + s2' * (V * T) + c2 * T + t2 ->
  a = a2 /\ s = s2 /\ b = b2 /\ s' = s2' /\ c = c2 /\ t = t2.
Proof.
  intros Ha Hs Hb Hs' Hc Ht Ha2 Hs2 Hb2 Hs2' Hc2 Ht2 E.
  assert (E' : ((((((a * S + s) * P + b) * S + s') * V + c) * T + t) =
               (((((a2 * S + s2) * P + b2) * S + s2') * V + c2) * T + t2))) by lia.
  apply digit_inj in E'; auto. destruct E' as [E' ?].
  apply digit_inj in E'; auto. destruct E' as [E' ?].
  apply digit_inj in E'; auto. destruct E' as [E' ?].
  apply digit_inj in E'; auto. destruct E' as [E' ?].
  apply digit_inj in E'; auto. destruct E' as [E' ?]. tauto.
Qed.

(** Arguments for which the table has an entry. *)
Definition args_ok (m : imap) (a b : Z) (rin rout : site) : Prop :=
  0 <= a < im_nsp m /\ 0 <= b < im_nsp m /\ site_ok (im_lat m) rin /\ site_ok (im_lat m) rout.

Lemma GetIndexSmooth_ok m a b rin rout tin tout :
  imap_ok m -> args_ok m a b rin rout -> 0 <= TauIndex m tin tout < im_maxtau m ->
  let S := SublatVol (im_lat m) in let V := Vol (im_lat m) in let T := im_maxtau m in let P := im_nsp m in
  let i := a * (S * P * S * V * T) + sub rin * (P * S * V * T) + b * (S * V * T) + sub rout * (V * T)
           + CoordiIndex (im_lat m) rin rout * T + TauIndex m tin tout in
  GetIndexSmooth m a b rin rout tin tout = Ok i /\ 0 <= i < tabsize m.
Proof.
  intros H [Ha [Hb [[Hs Hc] [Hs' Hc']]]] Ht S V T P i.
  assert (HI : 0 <= i < tabsize m).
  { apply (six_range P S V T); auto. now apply CoordiIndex_range; [apply (mo_size m H)|..]. }
  split; [|exact HI].
  unfold GetIndexSmooth. destruct (caches_smooth m H) as [-> _]. cbv zeta. unfold nthZ. cbn [nth].
  fold S V T P. fold i. pose proof (mo_fit m H).
  unfold u32. rewrite Z.mod_small by lia. destruct (Z.leb_spec (tabsize m) i); [lia|reflexivity].
Qed.
Lemma GetIndexDelta_ok m a b rin rout :
  imap_ok m -> args_ok m a b rin rout ->
  let S := SublatVol (im_lat m) in let V := Vol (im_lat m) in let P := im_nsp m in
  let i := a * (S * P * S * V) + sub rin * (P * S * V) + b * (S * V) + sub rout * V
           + CoordiIndex (im_lat m) rin rout in
  GetIndexDelta m a b rin rout = Ok i /\ 0 <= i < tabsizeD m.
Proof.
  intros H [Ha [Hb [[Hs Hc] [Hs' Hc']]]] S V P i.
  assert (HI : 0 <= i < tabsizeD m).
  { pose proof (six_range P S V 1 a (sub rin) b (sub rout) (CoordiIndex (im_lat m) rin rout) 0) as G.
    cbv zeta in G. unfold tabsizeD. fold S V P.
    assert (0 <= CoordiIndex (im_lat m) rin rout < V) by (apply CoordiIndex_range; auto; apply (mo_size m H)).
    fold P in Ha, Hb. fold S in Hs, Hs'. specialize (G Ha Hs Hb Hs' H0 ltac:(lia)). lia. }
  split; [|exact HI].
  unfold GetIndexDelta. destruct (caches_smooth m H) as [_ ->]. cbv zeta. unfold nthZ. cbn [nth].
  fold S V P. fold i. pose proof (mo_fit m H).
  assert (tabsizeD m <= tabsize m).
  { change (tabsize m) with (tabsizeD m * im_maxtau m). pose proof (mo_tau m H). nia. }
  unfold u32. rewrite Z.mod_small by lia. destruct (Z.leb_spec (tabsizeD m) i); [lia|reflexivity].
Qed.

Lemma index_injective : forall m, imap_ok m ->
  (forall a b rin rout tin tout, args_ok m a b rin rout -> 0 <= TauIndex m tin tout < im_maxtau m ->
     exists i, GetIndexSmooth m a b rin rout tin tout = Ok i /\ 0 <= i < tabsize m /\
     forall a' b' rin' rout' tin' tout', args_ok m a' b' rin' rout' ->
       0 <= TauIndex m tin' tout' < im_maxtau m ->
       (GetIndexSmooth m a' b' rin' rout' tin' tout' = Ok i <->
        a = a' /\ b = b' /\ sub rin = sub rin' /\ sub rout = sub rout' /\
        disp (Size (im_lat m)) (coord rin) (coord rout) = disp (Size (im_lat m)) (coord rin') (coord rout') /\
        TauIndex m tin tout = TauIndex m tin' tout')) /\
  (forall a b rin rout, args_ok m a b rin rout ->
     exists i, GetIndexDelta m a b rin rout = Ok i /\ 0 <= i < tabsizeD m /\
     forall a' b' rin' rout', args_ok m a' b' rin' rout' ->
       (GetIndexDelta m a' b' rin' rout' = Ok i <->
        a = a' /\ b = b' /\ sub rin = sub rin' /\ sub rout = sub rout' /\
        disp (Size (im_lat m)) (coord rin) (coord rout) = disp (Size (im_lat m)) (coord rin') (coord rout'))).
Proof.
  intros m H.
  assert (CD : forall rin rout rin' rout', site_ok (im_lat m) rin -> site_ok (im_lat m) rout ->
     site_ok (im_lat m) rin' -> site_ok (im_lat m) rout' ->
     (CoordiIndex (im_lat m) rin rout = CoordiIndex (im_lat m) rin' rout' <->
      disp (Size (im_lat m)) (coord rin) (coord rout) = disp (Size (im_lat m)) (coord rin') (coord rout'))).
  { intros rin rout rin' rout' [_ A] [_ B] [_ A'] [_ B'].
    apply (coordi_spec (im_lat m) (mo_size m H) rin rout A B); auto. }
  split.
  - intros a b rin rout tin tout HA HT.
    destruct (GetIndexSmooth_ok m a b rin rout tin tout H HA HT) as [E R].
    eexists. split; [exact E|]. split; [exact R|].
    intros a' b' rin' rout' tin' tout' HA' HT'.
    destruct (GetIndexSmooth_ok m a' b' rin' rout' tin' tout' H HA' HT') as [E' R'].
    rewrite E'. destruct HA as [Ha [Hb [Hi Ho]]]. destruct HA' as [Ha' [Hb' [Hi' Ho']]].
    pose proof (CD rin rout rin' rout' Hi Ho Hi' Ho') as CDs.
    split.
    + intros EE. injection EE as EE.
      apply six_inj in EE; try apply Hi; try apply Hi'; try apply Ho; try apply Ho'; auto;
        try (apply CoordiIndex_range; [apply (mo_size m H)| |]; (apply Hi || apply Hi' || apply Ho || apply Ho')).
      destruct EE as [? [? [? [? [? ?]]]]]. repeat split; auto. apply CDs; auto.
    + intros [-> [-> [-> [-> [D ->]]]]]. apply CDs in D. now rewrite D.
  - intros a b rin rout HA.
    destruct (GetIndexDelta_ok m a b rin rout H HA) as [E R].
    eexists. split; [exact E|]. split; [exact R|].
    intros a' b' rin' rout' HA'.
    destruct (GetIndexDelta_ok m a' b' rin' rout' H HA') as [E' R'].
    rewrite E'. destruct HA as [Ha [Hb [Hi Ho]]]. destruct HA' as [Ha' [Hb' [Hi' Ho']]].
    pose proof (CD rin rout rin' rout' Hi Ho Hi' Ho') as CDs.
    split.
    + intros EE. injection EE as EE.
      pose proof (six_inj (im_nsp m) (SublatVol (im_lat m)) (Vol (im_lat m)) 1
        a' (sub rin') b' (sub rout') (CoordiIndex (im_lat m) rin' rout') 0
        a (sub rin) b (sub rout) (CoordiIndex (im_lat m) rin rout) 0) as SI.
      assert (CR : forall x y, site_ok (im_lat m) x -> site_ok (im_lat m) y ->
                0 <= CoordiIndex (im_lat m) x y < Vol (im_lat m)).
      { intros x y [_ X] [_ Y]. apply CoordiIndex_range; auto. apply (mo_size m H). }
      destruct SI as [? [? [? [? [? _]]]]]; auto; try apply Hi; try apply Hi'; try apply Ho; try apply Ho'; try lia.
      repeat split; auto. apply CDs; auto.
    + intros [-> [-> [-> [-> D]]]]. apply CDs in D. now rewrite D.
Qed.

(** ** Directed and plain weight evaluation *)
Lemma GWeightDir_eq T d ra rb ta tb sa sb me gg ext :
  GWeightDir T d ra rb ta tb sa sb me gg ext =
  match d with IN => GWeight T ra rb ta tb sa sb me gg ext
             | OUT => GWeight T rb ra tb ta sb sa me gg ext end.
Proof. destruct d; reflexivity. Qed.
Lemma WWeightDir_eq T d ra rb ta tb sa sb wo me de ww ext : me && de = false ->
  WWeightDir T d ra rb ta tb sa sb wo me de ww ext =
  match d with IN => WWeight T ra rb ta tb sa sb wo me de ww ext
             | OUT => WWeight T rb ra tb ta sb sa wo me de ww ext end.
Proof.
  intros H. unfold WWeightDir, WWeight. cbv zeta.
  destruct d, wo, de, me; try discriminate H; try reflexivity;
    match goal with |- obind ?x _ = obind ?y _ => destruct x; reflexivity end.
Qed.
Lemma dir_weights : 
  (forall T d ra rb ta tb sa sb me gg ext,
    GWeightDir T d ra rb ta tb sa sb me gg ext =
    match d with IN => GWeight T ra rb ta tb sa sb me gg ext
               | OUT => GWeight T rb ra tb ta sb sa me gg ext end) /\
  (forall T d ra rb ta tb sa sb wo me de ww ext, me && de = false ->
    WWeightDir T d ra rb ta tb sa sb wo me de ww ext =
    match d with IN => WWeight T ra rb ta tb sa sb wo me de ww ext
               | OUT => WWeight T rb ra tb ta sb sa wo me de ww ext end).
Proof. split; [exact GWeightDir_eq|exact WWeightDir_eq]. Qed.
End Any.

Lemma dir_differ : exists (T : @tables NumR) r t s ext,
  WWeightDir T IN r r t t s s false true true false ext <> WWeight T r r t t s s false true true false ext.
Proof.
  pose (L := mkLat [1] 1).
  pose (m := @mkIM NumR 1%R 1 L 1 4).
  exists (@mkTab NumR m m (fun _ => c0) (fun _ => c0) (fun _ => c0) (fun _ => @cofr NumR 1%R) (fun _ => c0) None None 1%R).
  exists (mkSite 0 [0]), 0%R, upup, (@mkExt NumR (mkSite 0 [0]) 0%R UP).
  unfold WWeightDir, WWeight. cbv zeta. cbn [wmap].
  assert (E : @GetIndexDelta NumR m (spin4 upup) (spin4 upup) (mkSite 0 [0]) (mkSite 0 [0]) = Ok 15) by reflexivity.
  rewrite E. cbn [obind w_meast w_deltat]. intros X.
  apply (f_equal (fun o : outcome (@cplx NumR) => match o with Ok c => re c | _ => r0 end)) in X.
  change (0 = 1)%R in X. lra.
Qed.

Lemma same_spin_refuted :
  IsSameSpin (SpinIndex2 UP UP) = false /\ IsSameSpin (SpinIndex2 UP DOWN) = true.
Proof. split; reflexivity. Qed.

(** ** Time bins in exact arithmetic *)
Open Scope R_scope.
Lemma IntPart_bounds x n : IZR n <= x < IZR n + 1 -> Int_part x = n.
Proof.
  intros [H1 H2]. destruct (base_Int_part x) as [A B].
  assert (IZR (Int_part x) < IZR (n + 1)) by (rewrite plus_IZR; lra).
  assert (IZR n < IZR (Int_part x + 1)) by (rewrite plus_IZR; lra).
  apply lt_IZR in H, H0. lia.
Qed.
Lemma IntPart_plus x n : (Int_part (x + IZR n) = Int_part x + n)%Z.
Proof.
  apply IntPart_bounds. rewrite plus_IZR. destruct (base_Int_part x). lra.
Qed.
Lemma IntPart_range x a b : IZR a <= x < IZR b -> (a <= Int_part x < b)%Z.
Proof.
  intros [H1 H2]. destruct (base_Int_part x) as [A B].
  assert (IZR (Int_part x) < IZR b) by lra. apply lt_IZR in H.
  assert (IZR a < IZR (Int_part x + 1)) by (rewrite plus_IZR; lra). apply lt_IZR in H0. lia.
Qed.

Lemma TauIndex1_R (m : @imap NumR) (tau : R) : 0 < (im_beta m : R) -> (0 < im_maxtau m)%Z ->
  @TauIndex1 NumR m tau = (Int_part (tau * IZR (im_maxtau m) / im_beta m)
     + (if Rltb tau 0 then im_maxtau m else 0))%Z.
Proof.
  intros HB HM. unfold TauIndex1, dBetaInverse, dBeta.
  assert (E : @rmul NumR tau (@rdiv NumR (@rofZ NumR 1) (@rdiv NumR (im_beta m) (@rofZ NumR (im_maxtau m))))
              = tau * IZR (im_maxtau m) / im_beta m).
  { change (tau * (1 / (im_beta m / IZR (im_maxtau m))) = tau * IZR (im_maxtau m) / im_beta m).
    apply IZR_lt in HM. change (@real NumR) with R in *.
    field. split; apply Rgt_not_eq; lra. }
  rewrite E. change (@rltb NumR tau (@rofZ NumR 0)) with (Rltb tau 0).
  change (@rfloor NumR) with Int_part.
  destruct (Rltb tau 0); auto using Z.add_0_r.
Qed.

Definition wrapk (tau : R) : Z := if Rltb tau 0 then 1%Z else 0%Z.
Lemma TauIndex1_bin (m : @imap NumR) (tau : R) (n : Z) : 0 < (im_beta m : R) -> (0 < im_maxtau m)%Z ->
  (@TauIndex1 NumR m tau = n <->
   IZR n * (im_beta m / IZR (im_maxtau m)) <= tau + IZR (wrapk tau) * im_beta m
     < IZR (n + 1) * (im_beta m / IZR (im_maxtau m))).
Proof.
  intros HB HM. rewrite TauIndex1_R by auto.
  set (B := im_beta m : R) in *. set (M := IZR (im_maxtau m)).
  assert (HMR : 0 < M) by (apply IZR_lt; exact HM).
  set (q := tau * M / B).
  assert (E : (Int_part q + (if Rltb tau 0 then im_maxtau m else 0) = Int_part (q + IZR (wrapk tau) * M))%Z).
  { unfold wrapk. destruct (Rltb tau 0).
    - replace (q + 1 * M) with (q + IZR (im_maxtau m)) by (unfold M; ring). now rewrite IntPart_plus.
    - replace (q + 0 * M) with q by ring. lia. }
  rewrite E. set (y := q + IZR (wrapk tau) * M).
  assert (EY : tau + IZR (wrapk tau) * B = y * (B / M)).
  { unfold y, q. field. split; lra. }
  change (@real NumR) with R in *.
  rewrite EY. assert (HD : 0 < B / M) by (apply Rdiv_lt_0_compat; auto).
  rewrite plus_IZR. destruct (base_Int_part y) as [Y1 Y2]. split.
  - intros <-. split; [apply Rmult_le_compat_r; lra|apply Rmult_lt_compat_r; lra].
  - intros [H1 H2]. apply Rmult_le_reg_r in H1; auto. apply Rmult_lt_reg_r in H2; auto.
    apply IntPart_bounds. lra.
Qed.
Lemma TauIndex1_range (m : @imap NumR) (tau : R) : 0 < (im_beta m : R) -> (0 < im_maxtau m)%Z ->
  - im_beta m < tau < im_beta m -> (0 <= @TauIndex1 NumR m tau < im_maxtau m)%Z.
Proof.
  intros HB HM HT. remember (@TauIndex1 NumR m tau) as n eqn:E. symmetry in E.
  apply TauIndex1_bin in E; auto. unfold wrapk in E.
  assert (HMR : 0 < IZR (im_maxtau m)) by (apply IZR_lt; exact HM).
  set (B := im_beta m : R) in *. set (M := IZR (im_maxtau m)) in *.
  assert (HD : 0 < B / M) by (apply Rdiv_lt_0_compat; auto).
  assert (EB : B = M * (B / M)) by (field; lra).
  assert (HX : 0 <= tau + IZR (if Rltb tau 0 then 1 else 0) * B < B).
  { destruct (Rltb tau 0) eqn:F; [apply Rltb_spec in F|apply Rltb_false in F]; lra. }
  set (x := tau + IZR (if Rltb tau 0 then 1 else 0) * B) in *. destruct E as [E1 E2].
  assert (0 < IZR (n + 1)).
  { apply (Rmult_lt_reg_r (B / M)); auto. lra. }
  assert (IZR n < M).
  { apply (Rmult_lt_reg_r (B / M)); auto. lra. }
  apply lt_IZR in H, H0. lia.
Qed.

Lemma tau_bin : forall m : @imap NumR, 0 < (im_beta m : R) -> (0 < im_maxtau m)%Z ->
  (forall tin tout : R, 0 <= tin < im_beta m -> 0 <= tout < im_beta m ->
     (0 <= @TauIndex NumR m tin tout < im_maxtau m)%Z /\
     forall n, @TauIndex NumR m tin tout = n <->
       exists k : Z, (tout < tin /\ k = 1%Z \/ tin <= tout /\ k = 0%Z) /\
         IZR n * (im_beta m / IZR (im_maxtau m)) <= tout - tin + IZR k * im_beta m
         < IZR (n + 1) * (im_beta m / IZR (im_maxtau m))) /\
  (forall tau : R, - im_beta m < tau < 0 ->
     @TauIndex1 NumR m (tau + im_beta m) = @TauIndex1 NumR m tau) /\
  (forall tin tout : R, im_sym m = (-1)%Z ->
     (@TauSym NumR m tin tout = (-1)%Z <-> tout <= tin) /\
     (@TauSym NumR m tin tout = 1%Z <-> tin < tout)).
Proof.
  intros m HB HM. split; [|split].
  - intros tin tout Hi Ho. change (@TauIndex NumR m tin tout) with (@TauIndex1 NumR m (tout - tin)). split.
    + apply TauIndex1_range; auto. set (B := im_beta m : R) in *. lra.
    + intros n. rewrite TauIndex1_bin by auto. unfold wrapk. split.
      * intros H. destruct (Rltb (tout - tin) 0) eqn:F; [apply Rltb_spec in F|apply Rltb_false in F];
          eexists; (split; [|exact H]); [left|right]; split; auto; lra.
      * intros [k [K H]]. destruct (Rltb (tout - tin) 0) eqn:F; [apply Rltb_spec in F|apply Rltb_false in F];
          destruct K as [[K ->]|[K ->]]; auto; lra.
  - intros tau H. symmetry. apply TauIndex1_bin; auto.
    remember (@TauIndex1 NumR m (tau + im_beta m)) as n eqn:E. symmetry in E.
    apply TauIndex1_bin in E; auto. unfold wrapk in *.
    set (B := im_beta m : R) in *.
    assert (Rltb (tau + B) 0 = false) as F1 by (apply Rltb_false; lra).
    assert (Rltb tau 0 = true) as F2 by (apply Rltb_spec; lra).
    rewrite F1 in E. rewrite F2. lra.
  - intros tin tout HS. unfold TauSym. rewrite HS. change (@rltb NumR tin tout) with (Rltb tin tout).
    destruct (Rltb tin tout) eqn:F; [apply Rltb_spec in F|apply Rltb_false in F]; split; split; intros; auto; try lra; try discriminate.
Qed.
