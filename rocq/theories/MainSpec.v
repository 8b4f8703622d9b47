(** * Vocabulary for what the main loop does (C108-C111) *)
From Coq Require Import ZArith List Bool String Reals.
From Verif Require Import Base Num NumR Estimator Lattice Bundle Diagram Markov DiagramIO History Life Monitor PyDict Param Env P_WP P_Env Job MainLoop Clock.
Import ListNotations.
Open Scope Z_scope.
Section MainSpec.
Context {N : Num} {E : Type} (next : E -> Z * E) (show : E -> string) (pid : @py N).
Notation mloop := (@mloop N E).
(** the iteration that begins in [x] counts up to a multiple of 100, so that the timers are looked at *)
Definition checkpoint (x : mloop) : bool := u32 (l_step x + 1) mod 100 =? 0.
(** parameters that a run never changes *)
Definition steady (p q : @para N E) : Prop :=
  p_mtb q = p_mtb p /\ p_mtbt q = p_mtbt p /\ p_order q = p_order p /\ p_nsub q = p_nsub p /\ p_L q = p_L p /\ p_toss q = p_toss p /\ p_sweep q = p_sweep p /\
  p_seed q = p_seed p /\ p_g3 q = p_g3 p /\ p_otr q = p_otr p /\ p_tprint q = p_tprint p /\ p_tdisk q = p_tdisk p /\ p_tmsg q = p_tmsg p /\ p_trew q = p_trew p.
(** a message taken between [x] and [x'] (Version grew) leaves usable parameters, does not lower Beta, and meets no stale worm ends (C25) *)
Definition benign (x x' : mloop) : Prop :=
  p_version (e_p (l_e x')) = p_version (e_p (l_e x)) \/
  usable (e_p (l_e x')) /\ rmul (rofZ 1) (p_beta (e_p (l_e x))) = p_beta (e_p (l_e x)) /\ rleb beta_min (p_beta (e_p (l_e x))) = true /\
  rleb (p_beta (e_p (l_e x))) (p_beta (e_p (l_e x'))) = true /\ ends_settled (e_d (l_e x')).
(** a run, with the states between the iterations *)
Inductive trace : list (@tick N) -> mloop -> list mloop -> mloop -> Prop :=
| tr_nil x : trace [] x [] x
| tr_cons t ts x x1 xs x' : mainIter next show pid t x = Ok x1 -> trace ts x1 xs x' -> trace (t :: ts) x (x1 :: xs) x'.
(** all messages taken are benign *)
Fixpoint benigns (x : mloop) (xs : list mloop) : Prop := match xs with [] => True | x1 :: xs => benign x x1 /\ benigns x1 xs end.
(** no disk timer fires at a checkpoint *)
Fixpoint unsaved (ts : list (@tick N)) (x : mloop) (xs : list mloop) : Prop :=
  match ts, xs with t :: ts, x1 :: xs => t_disk t && checkpoint x = false /\ unsaved ts x1 xs | _, _ => True end.
(** counts of physical diagrams, by what measures and by order *)
Definition tally (x : mloop) (g : bool) (o : Z) : Z := if g then l_sig x o else l_pol x o.
(** how often the states [xs] were physical, with measuring line of kind [g] and of order [o] *)
Fixpoint seen (xs : list mloop) (g : bool) (o : Z) : Z :=
  match xs with [] => 0 | x :: xs => (if negb (wm_ex (e_d (l_e x))) && Bool.eqb (measG (e_d (l_e x))) g && (order (e_d (l_e x)) =? o) then 1 else 0) + seen xs g o end.
(** how often the states [xs] had a worm and were of order [o] *)
Fixpoint wormy (xs : list mloop) (o : Z) : Z :=
  match xs with [] => 0 | x :: xs => (if wm_ex (e_d (l_e x)) && (order (e_d (l_e x)) =? o) then 1 else 0) + wormy xs o end.
(** no message is taken *)
Fixpoint undisturbed (x : mloop) (xs : list mloop) : Prop := match xs with [] => True | x1 :: xs => p_version (e_p (l_e x1)) = p_version (e_p (l_e x)) /\ undisturbed x1 xs end.
(** the environment a Save in the iteration from [x] to [x'] writes: that of the end of the iteration, up to a message taken and a change of
    factors after the Save *)
Definition snapshot (t : @tick N) (x x' : mloop) (e : @env N E) : Prop :=
  p_counter (e_p e) = p_counter (e_p (l_e x')) /\ p_rng (e_p e) = p_rng (e_p (l_e x')) /\
  (p_version (e_p (l_e x')) = p_version (e_p (l_e x)) -> e_d e = e_d (l_e x') /\ e_m e = e_m (l_e x') /\ (t_rew t = false -> e = l_e x')).

(** ** with the clock *)
Inductive kind := Print | Disk | Message | Reweight.
Definition readAt (k : kind) (b : @beat N) : reading := match k with Print => b_print b | Disk => b_disk b | Message => b_msg b | Reweight => b_rew b end.
Definition fires (k : kind) (t : @tick N) : bool := match k with Print => t_print t | Disk => t_disk t | Message => t_msg t | Reweight => t_rew t end.
Definition interval (k : kind) (p : @para N E) : Z := match k with Print => p_tprint p | Disk => p_tdisk p | Message => p_tmsg p | Reweight => p_trew p end.
Definition started (k : kind) (tm : timers) : Z := match k with Print => tm_print tm | Disk => tm_disk tm | Message => tm_msg tm | Reweight => tm_rew tm end.
Definition times (k : kind) (ts : list (@tick N)) : Z := Z.of_nat (List.length (filter (fires k) ts)).
(** a run with the clock, the timers that fire in it and the states between the iterations *)
Inductive clocked : list (@beat N) -> mloop * timers -> list (@tick N) -> list mloop -> mloop * timers -> Prop :=
| ck_nil xt : clocked [] xt [] [] xt
| ck_cons b bs x tm t x1 tm1 ts xs xt' : tickOf b x tm = (t, tm1) -> mainIter next show pid t x = Ok x1 -> clocked bs (x1, tm1) ts xs xt' ->
    clocked (b :: bs) (x, tm) (t :: ts) (x1 :: xs) xt'.
End MainSpec.
(** the count of order [o] in a bundle of estimators *)
Definition count_is (b : @ebundle NumR) (o : Z) (r : R) : Prop := exists e, ebAt o b = Ok e /\ (e_acc e : R) = r.
