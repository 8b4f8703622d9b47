(** * The built-in consistency check. /repo/src/module/diagram/diagram_check.cpp

    [Abort] is the ABORT of a failed test, [Ok false] the return value false.
    DEBUGMODE is on (convention.h). *)
From Coq Require Import ZArith List Bool Arith.
From Verif Require Import Base Num Complex Lattice IndexMap Weights Bundle Momentum Diagram.
Import ListNotations.
Open Scope Z_scope.

Section Check.
Context {N : Num}.

(** [for (i = 0; i < n; i++) body(i)] whose body may abort *)
Fixpoint each (body : nat -> outcome unit) (i n : nat) : outcome unit :=
  match n with
  | O => Ok tt
  | S n' => obind (body i) (fun _ => each body (S i) n')
  end.
(** the same with [return false] in the body *)
Fixpoint eachb (body : nat -> outcome bool) (i n : nat) : outcome bool :=
  match n with
  | O => Ok true
  | S n' => obind (body i) (fun b : bool => if b then eachb body (S i) n' else Ok false)
  end.
Definition test (b : bool) : outcome unit := if b then Ok tt else Abort.
(** pointer dereference *)
Definition deref (p : nat) : outcome unit := if (p <? MAX_BUNDLE)%nat then Ok tt else UB.
(** counting loop [if (cond(B(i))) total += 1] *)
Fixpoint count (b : bundle) (f : nat -> outcome bool) (i n : nat) : outcome Z :=
  match n with
  | O => Ok 0
  | S n' => obind (bat b i) (fun x => obind (f x) (fun t : bool =>
            obind (count b f (S i) n') (fun z => Ok (z + (if t then 1 else 0)))))
  end.

(** body of the G loop for one [dir], diagram_check.cpp:47-53. The message of a failed
    existence test dereferences the pointer. *)
Definition topo_g (d : diagram) (g : nat) (e : dir) : outcome unit :=
  let v := g_ver d g e in
  if negb (bexist (vB d) v) then Abort
  else test (Nat.eqb g (v_G d v (inv e))).
(** body of the W loop for one [dir], diagram_check.cpp:58-66 *)
Definition topo_w (d : diagram) (w : nat) (e : dir) : outcome unit :=
  let v := w_ver d w e in
  if negb (bexist (vB d) v) then Abort
  else obind (test (Nat.eqb w (v_W d v))) (fun _ => test (dir_eqb (v_D d v) e)).
(** _CheckTopo, diagram_check.cpp:35-71 *)
Definition CheckTopo (d : diagram) : outcome bool :=
  if order d =? 0 then Ok true else
  obind (test (Z.of_nat (bhowmany (gB d)) =? 2 * order d)) (fun _ =>
  obind (test (Z.of_nat (bhowmany (wB d)) =? order d)) (fun _ =>
  obind (test (Z.of_nat (bhowmany (vB d)) =? 2 * order d)) (fun _ =>
  obind (each (fun i => obind (bat (gB d) i) (fun g =>
     obind (topo_g d g IN) (fun _ => topo_g d g OUT))) 0 (bhowmany (gB d))) (fun _ =>
  obind (each (fun i => obind (bat (wB d) i) (fun w =>
     obind (topo_w d w IN) (fun _ => topo_w d w OUT))) 0 (bhowmany (wB d))) (fun _ =>
  Ok true))))).

(** one round of the first loop of _CheckStatus, diagram_check.cpp:78-84 *)
Definition stat_g (d : diagram) (g : nat) : outcome bool :=
  if g_meas d g then obind (test (Nat.eqb g (gmeas d))) (fun _ => Ok true) else Ok false.
(** [Worm.X->NeighW()] *)
Definition nw (d : diagram) (p : nat) : outcome nat := obind (deref p) (fun _ => Ok (v_W d p)).
(** one round of the second loop, diagram_check.cpp:89-104, with && and || short-circuit *)
Definition stat_w (d : diagram) (w : nat) : outcome bool :=
  obind (if w_worm d w then
           obind (nw d (ira d)) (fun a => if negb (Nat.eqb a w)
             then obind (nw d (masha d)) (fun b => test (Nat.eqb b w)) else Ok tt)
         else Ok tt) (fun _ =>
  obind (if wm_ex d && negb (w_worm d w) then
           obind (nw d (ira d)) (fun a => if Nat.eqb a w then Abort
             else obind (nw d (masha d)) (fun b => test (negb (Nat.eqb b w))))
         else Ok tt) (fun _ =>
  obind (if w_delta d w then
           obind (deref (w_ver d w IN)) (fun _ => obind (deref (w_ver d w OUT)) (fun _ =>
           obind (test (reqb (v_T d (w_ver d w IN)) (v_T d (w_ver d w OUT)))) (fun _ =>
           test (negb (w_meas d w)))))
         else Ok tt) (fun _ =>
  Ok (w_meas d w)))).
(** _CheckStatus, diagram_check.cpp:73-108 *)
Definition CheckStatus (d : diagram) : outcome bool :=
  if order d =? 0 then Ok true else
  obind (count (gB d) (stat_g d) 0 (bhowmany (gB d))) (fun n =>
  obind (test (n =? (if measG d then 1 else 0))) (fun _ =>
  obind (count (wB d) (stat_w d) 0 (bhowmany (wB d))) (fun n =>
  obind (test (n =? (if measG d then 0 else 1))) (fun _ =>
  Ok true)))).

(** one round of _CheckK, diagram_check.cpp:115-127 *)
Definition check_k1 (d : diagram) (v : nat) : outcome unit :=
  obind (deref (v_G d v IN)) (fun _ => obind (deref (v_G d v OUT)) (fun _ => obind (deref (v_W d v)) (fun _ =>
  let k := ksub (g_K d (v_G d v IN)) (g_K d (v_G d v OUT)) in
  let k := match v_D d v with IN => ksub k (w_K d (v_W d v)) | OUT => kadd k (w_K d (v_W d v)) end in
  let k := if wm_ex d && Nat.eqb v (ira d) then ksub k (wm_K d)
           else if wm_ex d && Nat.eqb v (masha d) then kadd k (wm_K d) else k in
  test (k =? 0)))).
(** _CheckK, diagram_check.cpp:110-129 *)
Definition CheckK (d : diagram) : outcome bool :=
  if order d =? 0 then Ok true else
  obind (each (fun i => obind (bat (vB d) i) (check_k1 d)) 0 (bhowmany (vB d))) (fun _ => Ok true).

(** _CheckSpin, diagram_check.cpp:131-142 *)
Definition check_s1 (d : diagram) (g : nat) : outcome unit :=
  obind (deref (g_ver d g IN)) (fun _ => obind (deref (g_ver d g OUT)) (fun _ =>
  test (spin_eqb (v_S d (g_ver d g IN) OUT) (v_S d (g_ver d g OUT) IN)))).
Definition CheckSpin (d : diagram) : outcome bool :=
  if order d =? 0 then Ok true else
  obind (each (fun i => obind (bat (gB d) i) (check_s1 d)) 0 (bhowmany (gB d))) (fun _ => Ok true).

(** eps0, utility.h:18; fabs, utility.cpp:25-28; Equal, complex.h:50-53 *)
Definition eps0 : real := rdiv (rofZ 1) (rofZ 1000000000).
Definition rabs (x : real) : real := if rleb r0 x then x else rneg x.
Definition cEqual (a b : cplx) : bool :=
  rltb (rabs (rsub (re a) (re b))) eps0 && rltb (rabs (rsub (im a) (im b))) eps0.

(** one round of the G loop of _CheckWeight, diagram_check.cpp:155-167: the product so far
    is threaded through; [None] is [return false] *)
Definition wt_g (T : tables) (d : diagram) (i : nat) (acc : cplx) : outcome (option cplx) :=
  obind (bat (gB d) i) (fun g =>
  let acc := cmul acc (g_W d g) in
  let vi := g_ver d g IN in let vo := g_ver d g OUT in
  obind (deref vi) (fun _ => obind (deref vo) (fun _ =>
  obind (GWeight T (v_R d vi) (v_R d vo) (v_T d vi) (v_T d vo) (v_S d vi OUT) (v_S d vo IN)
           (g_meas d g) (g_gg d g) (uext d)) (fun wt =>
  if negb (cEqual (g_W d g) wt) then Ok None
  else if cEqual (g_W d g) (mkC r0 r0) then Ok None
  else Ok (Some acc))))).
(** one round of the W loop, diagram_check.cpp:168-180 *)
Definition wt_w (T : tables) (d : diagram) (i : nat) (acc : cplx) : outcome (option cplx) :=
  obind (bat (wB d) i) (fun w =>
  let acc := cmul acc (w_W d w) in
  let vi := w_ver d w IN in let vo := w_ver d w OUT in
  obind (deref vi) (fun _ => obind (deref vo) (fun _ =>
  obind (WWeight T (v_R d vi) (v_R d vo) (v_T d vi) (v_T d vo) (v_S d vi) (v_S d vo)
           (w_worm d w) (w_meas d w) (w_delta d w) (w_ww d w) (uext d)) (fun wt =>
  if negb (cEqual (w_W d w) wt) then Ok None
  else if cEqual (w_W d w) (mkC r0 r0) then Ok None
  else Ok (Some acc))))).
Fixpoint wloop (body : nat -> cplx -> outcome (option cplx)) (i n : nat) (acc : cplx) : outcome (option cplx) :=
  match n with
  | O => Ok (Some acc)
  | S n' => obind (body i acc) (fun r => match r with None => Ok None | Some a => wloop body (S i) n' a end)
  end.
(** _CheckWeight, diagram_check.cpp:144-181; Norm::Weight(), component.h:36-43 *)
Definition CheckWeight (T : tables) (d : diagram) : outcome bool :=
  if order d =? 0 then Ok (cEqual (dweight d) (cofr (normF T))) else
  obind (wloop (wt_g T d) 0 (bhowmany (gB d)) (mkC r1 r0)) (fun r =>
  match r with None => Ok false | Some acc =>
  obind (wloop (wt_w T d) 0 (bhowmany (wB d)) acc) (fun r =>
  match r with None => Ok false | Some acc =>
    Ok (cEqual (cmul_assign_r acc (rmul (sfl d) (rofZ (if Z.rem (order d) 2 =? 0 then 1 else -1)))) (dweight d))
  end) end).

(** CheckDiagram, diagram_check.cpp:17-33 *)
Definition CheckDiagram (T : tables) (d : diagram) : outcome bool :=
  obind (CheckTopo d) (fun b : bool => if negb b then Ok false else
  obind (CheckStatus d) (fun b : bool => if negb b then Ok false else
  obind (CheckK d) (fun b : bool => if negb b then Ok false else
  obind (CheckSpin d) (fun b : bool => if negb b then Ok false else
  obind (CheckWeight T d) (fun b : bool => if negb b then Ok false else Ok true))))).
End Check.
