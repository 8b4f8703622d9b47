(** Walks: returning, irreducibility, independence of slot numbers, restarts *)
From Coq Require Import ZArith List Bool Arith Lia ZifyBool Reals Lra.
From Verif Require Import Base Num NumR RNG Momentum Complex Lattice Bundle IndexMap Weights Diagram Markov DiagramIO History
  P_Momentum P_RNG P_Bundle P_Lattice P_IndexMap P_WP P_Inv P_Rel P_Sem1 P_Sem2 P_Sem3 P_Pres1 P_Pres2 P_Pres3 P_Pres4
  P_Hop P_Fix P_IO P_History P_IOProm P_Loop P_Weight P_Step Target P_MH Alike P_Alike P_Reach P_Undo P_Can P_Reverse P_Trans P_Trans2 Walks.
Import ListNotations.
Open Scope Z_scope.

Lemma can_mono (c : @cfg NumR) n : forall d (P Q : @diagram NumR -> Prop), (forall x, P x -> Q x) -> can_reach c n d P -> can_reach c n d Q.
Proof.
  induction n as [|n IH]; intros d P Q PQ; cbn [can_reach]; [apply PQ|].
  intros (ws & W1 & W2). exists ws. split; [exact W1|]. intros E next t Et Em. destruct (W2 E next t Et Em) as (t' & H1 & H2).
  exists t'. split; [exact H1|]. eapply IH; eassumption.
Qed.
Lemma can_app (c : @cfg NumR) n m : forall d (P Q : @diagram NumR -> Prop), can_reach c n d P -> (forall x, P x -> can_reach c m x Q) -> can_reach c (n + m) d Q.
Proof.
  induction n as [|n IH]; intros d P Q; cbn [can_reach Nat.add]; [auto|].
  intros (ws & W1 & W2) PQ. exists ws. split; [exact W1|]. intros E next t Et Em. destruct (W2 E next t Et Em) as (t' & H1 & H2).
  exists t'. split; [exact H1|]. eapply IH; eassumption.
Qed.

(** an engine made of a list of words *)
Definition nextL (l : list Z) : Z * list Z := match l with [] => (0, []) | x :: r => (x, r) end.
Lemma emitsL ws : Forall w32 ws -> emits nextL ws ws.
Proof. intros H. induction H as [|x l Hx Hl IH]; [exact I|]. split; [apply Z.mod_small; exact Hx|exact IH]. Qed.
Definition withL {E} (s : @mstate NumR E) (ws : list Z) : @mstate NumR (list Z) := mkS (md s) ws (mcount s) (mprop s) (macc s).
Lemma can_occurs (c : @cfg NumR) n : forall d (P : @diagram NumR -> Prop), can_reach c n d P -> exists d', walk_occurs c n d d' /\ P d'.
Proof.
  induction n as [|n IH]; intros d P; cbn [can_reach]; [intros H; exists d; split; [constructor|exact H]|].
  intros (ws & W1 & W2). set (t := mkS d ws 0 (fun _ _ => @r0 NumR) (fun _ _ => @r0 NumR)).
  destruct (W2 _ nextL t eq_refl (emitsL ws W1)) as (t' & H1 & H2). destruct (IH _ _ H2) as (d' & H3 & H4).
  exists d'. split; [|exact H4]. econstructor; [|exact H3]. exists (list Z), nextL, t, t'. auto.
Qed.

Lemma DelEq_spec (d : @diagram NumR) : equal_delta_times d -> DelEq d.
Proof. intros DE w Lw Ew. symmetry. apply DE; [now apply live_exist|exact Ew]. Qed.

(** ** walks of a diagram are walks of every diagram like it *)
Lemma walk_trans (c : @cfg NumR) (C : cfg_ok c) (PS : positive c) {E} (next : E -> Z * E) Q n (s s' : @mstate NumR E) :
  steps next c Q n s s' -> good c (md s) -> forall e, good c e -> back (md s) e ->
  can_reach c n e (fun e' => back (md s') e' /\ good c e').
Proof.
  intros S. induction S as [s|n s s1 s2 _ H S IH]; intros G e GE B; cbn [can_reach]; [auto|].
  destruct (trans_hop c C PS next s s1 e G GE B H) as (ws & W1 & W2). exists ws. split; [exact W1|].
  intros E' next' t Et Em. destruct (W2 E' next' t Et Em) as (t' & H1 & H2 & H3). exists t'. split; [exact H1|].
  apply IH; auto. exact (good_hop c C next s s1 G H).
Qed.

(** ** a walk can be walked back *)
Lemma walk_return (c c' : @cfg NumR) {E} (next : E -> Z * E) : cfg_ok c -> new_ok (c_lat c) -> retuned c c' -> positive c' ->
  forall n (s s' : @mstate NumR E), steps next c' equal_delta_times n s s' -> regular_history next c s ->
  forall e, good c' e -> back (md s') e -> can_reach c' n e (fun e' => back (md s) e' /\ good c' e').
Proof.
  intros C LK RT PS n s s' S. induction S as [s|n s s1 s2 DE H S IH]; intros RH e GE B; [cbn; auto|].
  assert (RH1 : regular_history next c s1) by exact (rh_hop next c s s1 c' 1 RH RT H).
  destruct (good_history next c c' s C LK RH RT) as (C' & G & _). destruct (good_history next c c' s1 C LK RH1 RT) as (_ & G1 & _).
  replace (Datatypes.S n) with (n + 1)%nat by lia. eapply can_app; [exact (IH RH1 e GE B)|]. cbv beta. intros x (Bx & Gx).
  destruct (step_back next c c' s s1 C LK RH RT PS (DelEq_spec _ DE) H) as (ws & W1 & W2).
  destruct (W2 _ nextL (withL s1 ws) eq_refl (emitsL ws W1)) as (t' & H1 & H2).
  destruct (trans_hop c' C' PS nextL (withL s1 ws) t' x G1 Gx Bx H1) as (ws2 & V1 & V2).
  cbn [can_reach]. exists ws2. split; [exact V1|]. intros E' next' t Et Em. destruct (V2 E' next' t Et Em) as (t2 & K1 & K2 & K3).
  exists t2. split; [exact K1|]. split; [|exact K3]. exact (back_trans c' _ _ _ (gd_I _ _ G) H2 K2).
Qed.

Lemma back_refl (c : @cfg NumR) d : good c d -> back d d.
Proof. intros G. exists idn, idn, idn. destruct G. apply (alike_build c); auto; try reflexivity; try (exact (wi_ph _ _ gd_W)). al0. Qed.

Lemma good_steps (c : @cfg NumR) (C : cfg_ok c) {E} (next : E -> Z * E) Q n (s s' : @mstate NumR E) :
  steps next c Q n s s' -> good c (md s) -> good c (md s').
Proof. intros S. induction S as [s|n s s1 s2 _ H S IH]; auto. intros G. apply IH. exact (good_hop c C next s s1 G H). Qed.

Lemma irreducible (c c' : @cfg NumR) (E1 E2 : Type) (next1 : E1 -> Z * E1) (next2 : E2 -> Z * E2) n m (s a : @mstate NumR E1) (t b : @mstate NumR E2) :
  cfg_ok c -> new_ok (c_lat c) -> regular_history next1 c s -> retuned c c' -> positive c' -> md t = md s ->
  steps next1 c' equal_delta_times n s a -> steps next2 c' (fun _ => True) m t b ->
  can_reach c' (n + m) (md a) (fun d => exists fv fg fw, alike fv fg fw (md b) d).
Proof.
  intros C LK RH RT PS Et SA SB. destruct (good_history next1 c c' s C LK RH RT) as (C' & G & _).
  pose proof (good_steps c' C' next1 _ _ _ _ SA G) as Ga.
  eapply can_app; [exact (walk_return c c' next1 C LK RT PS n s a SA RH (md a) Ga (back_refl c' _ Ga))|].
  cbv beta. intros x (Bx & Gx). rewrite <- Et in Bx, G. eapply can_mono; [|exact (walk_trans c' C' PS next2 _ m t b SB G x Gx Bx)].
  cbv beta. intros y (By & _). exact By.
Qed.

Lemma slots_free (c c' : @cfg NumR) (E1 E2 : Type) (next1 : E1 -> Z * E1) (next2 : E2 -> Z * E2) n (s s' : @mstate NumR E1) (t : @mstate NumR E2) fv fg fw :
  cfg_ok c -> new_ok (c_lat c) -> regular_history next1 c s -> regular_history next2 c t -> retuned c c' -> positive c' ->
  alike fv fg fw (md s) (md t) -> steps next1 c' (fun _ => True) n s s' ->
  can_reach c' n (md t) (fun d => exists fv fg fw, alike fv fg fw (md s') d).
Proof.
  intros C LK R1 R2 RT PS A S. destruct (good_history next1 c c' s C LK R1 RT) as (C' & G1 & _).
  destruct (good_history next2 c c' t C LK R2 RT) as (_ & G2 & _).
  eapply can_mono; [|refine (walk_trans c' C' PS next1 _ n s s' S G1 (md t) G2 _); now exists fv, fg, fw].
  cbv beta. intros y (By & _). exact By.
Qed.

(** ** a reloaded diagram is like the saved one *)
Lemma reload_alike (c : @cfg NumR) {E} (next : E -> Z * E) (s t : @mstate NumR E) F d0 :
  cfg_ok c -> new_ok (c_lat c) -> regular_history next c s -> gamma (md s) = 0 -> order (md s) <> 0 ->
  ToDict (md s) = Ok F -> constructed d0 -> FromDict4 (c_tab c) F d0 = Ok (md t) -> back (md s) (md t).
Proof.
  intros C LK RH Ga Ho T K L.
  assert (RT : retuned c c) by (repeat split; apply C).
  assert (RH2 : regular_history next c t) by exact (rh_load next c t s d0 F RH Ga T K L).
  destruct (good_history next c c s C LK RH RT) as (_ & G & _). destruct (good_history next c c t C LK RH2 RT) as (_ & G2 & _).
  pose proof (gd_I _ _ G) as HI. pose proof (Inv_Pre c _ HI) as P. rewrite (ToDict_spec c _ P) in T. injection T as <-.
  destruct (load_inv c (md s) d0 C P K) as (d1 & d' & B' & Y & FX & HI' & Ga'). rewrite L in B'. injection B' as E'. rewrite <- E' in *.
  destruct (copy_same c _ _ _ HI Y FX HI') as (SD & OR & SW).
  assert (OR' : order (md t) = order (md s)). { rewrite OR. destruct (i_cnt _ _ HI) as ([X|[X _]] & _); lia. }
  assert (Gt : gamma (md t) = 0) by tauto.
  exists (cp (vB (md s)) (vB d1)), (cp (gB (md s)) (gB d1)), (cp (wB (md s)) (wB d1)).
  assert (A0 : alike0 (cp (vB (md s)) (vB d1)) (cp (gB (md s)) (gB d1)) (cp (wB (md s)) (wB d1)) (md s) (md t)).
  { destruct SD. assert (Z1 := i_gam _ _ HI). assert (Z2 := i_gam _ _ HI').
    constructor; auto; try (now apply lbij_bijection);
    try (intros; match goal with H : live _ _ |- _ => apply live_exist in H end; auto; fail).
    - intros g X. destruct Z1 as [(_ & A1 & _)|[(A1 & _)|(A1 & _)]]; try congruence. destruct Z2 as [(_ & A2 & _)|[(A2 & _)|(A2 & _)]]; try congruence.
      rewrite A1, A2; auto. destruct sd_g as (A3 & _). apply live_exist, A3, live_exist, X.
    - intros w X. destruct Z1 as [(_ & _ & A1)|[(A1 & _)|(A1 & _)]]; try congruence. destruct Z2 as [(_ & _ & A2)|[(A2 & _)|(A2 & _)]]; try congruence.
      rewrite A1, A2; auto. destruct sd_w as (A3 & _). apply live_exist, A3, live_exist, X.
    - intros X. destruct (sd_worm X) as (? & ? & ? & ?). auto.
    - congruence.
    - intros X. destruct (X Ga). }
  assert (ED : dweight (md t) = dweight (md s)). { eapply (alike_dw c); [exact HI|exact HI'|exact A0|exact (wi_p _ _ (gd_W _ _ G))|exact (wi_p _ _ (gd_W _ _ G2))]. }
  apply (alike_build c); auto; [exact (wi_ph _ _ (gd_W _ _ G))|exact (wi_ph _ _ (gd_W _ _ G2))|apply G|apply G2].
Qed.

Lemma back_sym (c : @cfg NumR) d e : Inv c d -> back d e -> back e d.
Proof. intros HI (fv & fg & fw & A). eexists _, _, _. exact (alike_sym c fv fg fw d e HI A). Qed.

Lemma restart_free (c c' : @cfg NumR) {E} (next : E -> Z * E) (s t u : @mstate NumR E) F d0 n :
  cfg_ok c -> new_ok (c_lat c) -> regular_history next c s -> gamma (md s) = 0 -> order (md s) <> 0 ->
  ToDict (md s) = Ok F -> constructed d0 -> FromDict4 (c_tab c) F d0 = Ok (md t) -> retuned c c' -> positive c' ->
  (steps next c' (fun _ => True) n s u -> can_reach c' n (md t) (fun d => exists fv fg fw, alike fv fg fw (md u) d)) /\
  (steps next c' (fun _ => True) n t u -> can_reach c' n (md s) (fun d => exists fv fg fw, alike fv fg fw (md u) d)).
Proof.
  intros C LK RH Ga Ho T K L RT PS. pose proof (reload_alike c next s t F d0 C LK RH Ga Ho T K L) as B.
  assert (RH2 : regular_history next c t) by exact (rh_load next c t s d0 F RH Ga T K L).
  assert (RT0 : retuned c c) by (repeat split; apply C).
  destruct (good_history next c c s C LK RH RT0) as (_ & G & _).
  pose proof (back_sym c _ _ (gd_I _ _ G) B) as B'.
  split; intros S.
  - destruct B as (fv & fg & fw & A). exact (slots_free c c' E E next next n s u t fv fg fw C LK RH RH2 RT PS A S).
  - destruct B' as (fv & fg & fw & A). exact (slots_free c c' E E next next n t u s fv fg fw C LK RH2 RH RT PS A S).
Qed.

Lemma alike_equivalence (c : @cfg NumR) (E : Type) (next : E -> Z * E) (s t u : @mstate NumR E) :
  cfg_ok c -> new_ok (c_lat c) -> regular_history next c s ->
  back (md s) (md s) /\ (back (md s) (md t) -> back (md t) (md s)) /\ (back (md s) (md t) -> back (md t) (md u) -> back (md s) (md u)).
Proof.
  intros C LK RH. assert (RT : retuned c c) by (repeat split; apply C). destruct (good_history next c c s C LK RH RT) as (_ & G & _).
  split; [exact (back_refl c _ G)|]. split; [exact (back_sym c _ _ (gd_I _ _ G))|exact (back_trans c _ _ _ (gd_I _ _ G))].
Qed.
