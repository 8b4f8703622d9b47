(** * C115 - C117: reference counts and conversions behind the Python glue *)
From Coq Require Import ZArith List Bool Lia String.
From Verif Require Import Base Num PyDict Glue GlueSpec P_Glue P_Glue2.
Import ListNotations.
Open Scope nat_scope.

Section PropGlue.
Context {N : Num}.
Notation heap := (@heap N).

(** C115. Whatever a program does with Objects, it never touches a freed object, and every object has exactly
    as many references as there are Objects, raw pointers and containers that hold it. *)
Theorem C115_counts : forall l : list (@gop N),
  match grun l g0 with
  | Ok s => forall a, match cellAt (g_heap s) a with
                      | Some c => c_rc c = cnt a (somes (g_vars s) ++ g_raw s ++ roots) + cnt a (refs (g_heap s)) /\ 0 < c_rc c
                      | None => cnt a (somes (g_vars s) ++ g_raw s ++ roots) + cnt a (refs (g_heap s)) = 0
                      end
  | Abort => True
  | UB => False
  end.
Proof. intros l. exact (grun_ok l g0 g0_ok). Qed.
(** Unless objects hold each other in a circle, an object stays only while somebody holds it, *)
Theorem C115_no_leak : forall (l : list (@gop N)) s rk a b, grun l g0 = Ok s -> ranked (g_heap s) rk ->
  objectAt (g_heap s) a = Some b -> exists n, reach (g_heap s) (somes (g_vars s) ++ g_raw s ++ roots) n a.
Proof. intros l s rk a b E R Q. pose proof (grun_ok l g0 g0_ok) as W. rewrite E in W. exact (no_leak _ _ rk W R a b Q). Qed.
(** and when the last Object is gone nothing is left but the constants of the interpreter. *)
Theorem C115_all_freed : forall (l : list (@gop N)) s rk, grun l g0 = Ok s -> ranked (g_heap s) rk ->
  (forall p, In p (g_vars s) -> p = None) -> g_raw s = [] -> forall a, ~ In a roots -> objectAt (g_heap s) a = None.
Proof. intros l s rk E R V W. exact (all_gone l s rk E V W R). Qed.
(** A list that is put into itself is never freed. *)
Theorem C115_cycle_refuted : exists (l : list (@gop N)) s, grun l g0 = Ok s /\
  (forall p, In p (g_vars s) -> p = None) /\ g_raw s = [] /\ exists a b, ~ In a roots /\ objectAt (g_heap s) a = Some b.
Proof.
  exists [GListNew 1; GSet 0 0 0; GDestroy 0]. eexists. split; [reflexivity|]. cbn [g_vars g_raw g_heap]. split; [intros p [<-|[]]; reflexivity|]. split; [reflexivity|].
  exists 3. eexists. split; [cbn; lia|reflexivity].
Qed.
(** a program: a dictionary with a list in it, shared, assigned over, taken apart and given back *)
Definition prog : list (@gop N) :=
  [GListNew 2; GScalar (BInt 7); GSet 0 0 1; GSet 0 1 1; GDictNew; GScalar (BStr "x"); GPut 2 3 0; GCopy 2; GAssign 4 1; GItem 0 1; GGet 2; GTake 0; GBool true; GSet 0 1 7].
Example C115_case : exists s, grun prog g0 = Ok s /\ ranked (g_heap s) (fun a => match a with 5 => 2 | 3 => 1 | _ => 0 end) /\
  option_map c_rc (cellAt (g_heap s) 3) = Some 2 /\ option_map c_rc (cellAt (g_heap s) 4) = Some 4.
Proof.
  eexists. split; [vm_compute; reflexivity|]. split; [|split; reflexivity]. intros a b k Q K. destruct a as [|[|[|[|[|[|[|a]]]]]]]; cbn in Q; try (injection Q as <-; cbn in K; repeat (destruct K as [<-|K]; [lia|]); destruct K). destruct a; discriminate.
Qed.
Example C115_case_end : exists s, grun (prog ++ map GDestroy (seq 0 8)) g0 = Ok s /\ (forall p, In p (g_vars s) -> p = None) /\ g_raw s = [] /\ ranked (g_heap s) (fun _ => 0) /\ g_heap s = heap0 ++ repeat None 4.
Proof.
  eexists. split; [vm_compute; reflexivity|]. cbn [g_vars g_raw g_heap]. split; [intros p I; cbn in I; intuition congruence|]. split; [reflexivity|]. split; [|reflexivity].
  intros a b k Q K. destruct a as [|[|[|[|[|[|[|a]]]]]]]; cbn in Q; try discriminate; try (injection Q as <-; cbn in K; lia). destruct a; discriminate.
Qed.

(** C116. Casting a C++ value gives one new reference to an object with that value; nothing else changes; *)
Theorem C116_cast : forall (x : tval) v (h : heap) ext, WF h ext -> objectAt h 0 = Some (BBool false) -> objectAt h 1 = Some (BBool true) ->
  rep (objectAt h) x v -> keyed x ->
  exists a h', cast v h = Ok (Some a, h') /\ WF h' (a :: ext) /\ (forall y, y < List.length h -> objectAt h' y = objectAt h y) /\ den (objectAt h') (tpy x) a.
Proof. intros x v h ext W H0 H1 R K. destruct (cast_ok x v h ext W (conj H0 H1) R K) as (a & h' & E & W' & G & D & _). exists a, h'. split; [exact E|]. split; [exact W'|]. split; [apply G|exact D]. Qed.
(** destroying the result frees every object that was made and gives the old heap back. *)
Theorem C116_cast_freed : forall (x : tval) v (h : heap) ext, WF h ext -> objectAt h 0 = Some (BBool false) -> objectAt h 1 = Some (BBool true) ->
  rep (objectAt h) x v -> keyed x ->
  exists p h1 n, cast v h = Ok (p, h1) /\ decref p h1 = Ok (h ++ repeat None n).
Proof.
  intros x v h ext W H0 H1 R K. destruct (cast_ok x v h ext W (conj H0 H1) R K) as (a & h1 & E & W' & G & D & S). destruct (freed h h1 a ext _ W W' G S) as (h2 & E2 & ->). exists (Some a), h1, (List.length h1 - List.length h). auto.
Qed.
(** Convert leaves the objects as they are, the result holds what the counts say, and it is the value of the
    object: *)
Theorem C116_convert : forall t (h : heap) ext o a, flat t = true -> WF h ext -> den (objectAt h) o a ->
  exists b v h', convert t (Some a) h = Ok (b, v, h') /\ WF h' (ownedo v ++ ext) /\ (forall y, objectAt h' y = objectAt h y) /\
    match tconv t o with
    | Some x => b = true /\ exists w, v = Some w /\ rep (objectAt h') x w
    | None => b = false
    end.
Proof. intros t h ext o a F W D. destruct (convert_ok t h ext o a F W D) as (b & v & h' & E & W' & S & G). exists b, v, h'. split; [exact E|]. split; [exact W'|]. split; [apply S|exact G]. Qed.
(** there and back *)
Theorem C116_round_trip : forall t (x : tval) v (h : heap) ext, WF h ext -> objectAt h 0 = Some (BBool false) -> objectAt h 1 = Some (BBool true) ->
  flat t = true -> fits t x -> rep (objectAt h) x v -> keyed x ->
  exists p h1 w h2, cast v h = Ok (p, h1) /\ convert t p h1 = Ok (true, Some w, h2) /\ rep (objectAt h2) x w /\ WF h2 (owned w ++ ptrs p ++ ext).
Proof.
  intros t x v h ext W H0 H1 F X R K. destruct (cast_ok x v h ext W (conj H0 H1) R K) as (a & h1 & E & W1 & G & D & _). destruct (convert_ok t h1 _ _ a F W1 D) as (b & w & h2 & E2 & W2 & S2 & G2).
  rewrite (tconv_tpy t F x X K) in G2. cbn in G2. destruct G2 as (-> & w' & -> & Rw). exists (Some a), h1, w', h2. auto.
Qed.
(** the hypotheses are met by a map with a list, a string and an AnyObject that points to a list *)
Definition hx : heap := heap0 ++ [Some (mkCell 2 (BList [Some 4; Some 4])); Some (mkCell 2 (BInt 5))].
Definition vx : cval := VMap [("a"%string, VList [VInt 1; VInt 2]); ("b"%string, VObj (Some 3))].
Definition xx : tval := XMap [("a"%string, XList [XInt 1; XInt 2]); ("b"%string, XObj (PList [PInt 5; PInt 5]))].
Example C116_case : WF hx [0; 1; 2; 3; 3] /\ rep (objectAt hx) xx vx /\ keyed xx /\
  fits (TMap TObj) (XMap [("b"%string, XObj (@PNone N))]) /\ fits (TList TInt) (XList [XInt (-5)]) /\ @tconv N (TList TInt) (PList [PInt 3; PStr "a"]) = None.
Proof.
  split; [intros a; destruct a as [|[|[|[|[|[|a]]]]]]; cbn; auto; lia|]. split.
  - cbn. repeat (split; try reflexivity). exists [4; 4]. repeat split.
  - split; [|cbn; repeat split; lia]. cbn. repeat split. repeat constructor; cbn; intuition discriminate.
Qed.

(** C117. Convert to a std::tuple uses up one reference of somebody else for every element but the first: *)
Theorem C117_tuple_law : forall ts a os (h : heap) ext, forallb flat ts = true -> ts <> [] -> List.length os = List.length ts ->
  den (objectAt h) (PTup os) a -> WF h (repeat a (List.length ts - 1) ++ a :: ext) ->
  exists b v h', convert (TTup ts) (Some a) h = Ok (b, v, h') /\ WF h' (ownedo v ++ a :: ext) /\ (forall y, objectAt h' y = objectAt h y).
Proof. intros ts a os h ext F NE L D W. destruct (tuple_law ts a os h ext F NE L D W) as (b & v & h' & E & W' & S). exists b, v, h'. split; [exact E|]. split; [exact W'|]. apply S. Qed.
(** so an Object that alone holds a pair is left with a freed one, and its destructor touches it. *)
Definition ht : heap := heap0 ++ [Some (mkCell 1 (BInt 1)); Some (mkCell 1 (BInt 2)); Some (mkCell 1 (BTup [Some 3; Some 4]))].
Theorem C117_tuple_refuted : exists (h : heap) ext a o v h', WF h (a :: ext) /\ den (objectAt h) o a /\
  convert (TTup [TInt; TInt]) (Some a) h = Ok (true, Some v, h') /\ objectAt h' a = None /\ decref (Some a) h' = UB.
Proof.
  exists ht, [0; 1; 2], 5, (PTup [PInt 1; PInt 2]). do 2 eexists. split; [intros a; destruct a as [|[|[|[|[|[|[|a]]]]]]]; cbn; auto; lia|]. split; [exists [3; 4]; repeat split|]. split; [reflexivity|]. split; reflexivity.
Qed.
Definition ht2 : heap := heap0 ++ [Some (mkCell 1 (BInt 1)); Some (mkCell 1 (BInt 2)); Some (mkCell 2 (BTup [Some 3; Some 4]))].
Example C117_case : den (objectAt ht2) (PTup [PInt 1; PInt 2]) 5 /\ WF ht2 (repeat 5 (List.length [TInt; TInt] - 1) ++ 5 :: [0; 1; 2]).
Proof. split; [exists [3; 4]; repeat split|]. intros a; destruct a as [|[|[|[|[|[|[|a]]]]]]]; cbn; auto; lia. Qed.
End PropGlue.
Print Assumptions C115_counts.
Print Assumptions C115_no_leak.
Print Assumptions C115_all_freed.
Print Assumptions C115_cycle_refuted.
Print Assumptions C116_cast.
Print Assumptions C116_cast_freed.
Print Assumptions C116_convert.
Print Assumptions C116_round_trip.
Print Assumptions C117_tuple_law.
Print Assumptions C117_tuple_refuted.
