(** * Results on the weight-table index and line-weight evaluation (C35-C38) *)
From Coq Require Import ZArith List Bool Lia Reals Lra.
From Verif Require Import Base Num NumR NumF Complex Lattice P_Lattice IndexMap Weights P_IndexMap.
Import ListNotations.
Open Scope Z_scope.

(** ** C35 The index is below the table size and determines all components.
    [imap_ok]: positive extents, size fits an unsigned int. [args_ok]: spin indices below the
    spin extent, both sites inside the lattice. [disp]: displacement modulo the lattice. *)
Theorem C35_index_injective : forall (N : Num) (m : imap), imap_ok m ->
  (forall a b rin rout tin tout, args_ok m a b rin rout -> 0 <= TauIndex m tin tout < im_maxtau m ->
     exists i, GetIndexSmooth m a b rin rout tin tout = Ok i /\ 0 <= i < tabsize m /\
     forall a' b' rin' rout' tin' tout', args_ok m a' b' rin' rout' ->
       0 <= TauIndex m tin' tout' < im_maxtau m ->
       (GetIndexSmooth m a' b' rin' rout' tin' tout' = Ok i <->
        a = a' /\ b = b' /\ sub rin = sub rin' /\ sub rout = sub rout' /\
        disp (Size (im_lat m)) (coord rin) (coord rout) = disp (Size (im_lat m)) (coord rin') (coord rout') /\
        TauIndex m tin tout = TauIndex m tin' tout')) /\
  (forall a b rin rout, args_ok m a b rin rout ->
     exists i, GetIndexDelta m a b rin rout = Ok i /\ 0 <= i < tabsizeD m /\
     forall a' b' rin' rout', args_ok m a' b' rin' rout' ->
       (GetIndexDelta m a' b' rin' rout' = Ok i <->
        a = a' /\ b = b' /\ sub rin = sub rin' /\ sub rout = sub rout' /\
        disp (Size (im_lat m)) (coord rin) (coord rout) = disp (Size (im_lat m)) (coord rin') (coord rout'))).
Proof. exact @index_injective. Qed.
Print Assumptions C35_index_injective.
Example C35_case :
  let m := @mkIM NumF (f_ofZ 1) 64 (mkLat [4; 4] 2) (-1) 4 in
  imap_ok m /\ args_ok m 3 2 (mkSite 1 [3; 0]) (mkSite 0 [1; 2]) /\
  TauIndex m (f_ofZ 0) (f_ofZ 0) = 0 /\ tabsize m = 65536 /\
  GetIndexSmooth m 3 2 (mkSite 1 [3; 0]) (mkSite 0 [1; 2]) (f_ofZ 0) (f_ofZ 0) = Ok 62080.
Proof.
  split; [|split; [|split; [|split]]]; try (vm_compute; reflexivity).
  - constructor; simpl; try lia; try discriminate; repeat constructor; vm_compute; reflexivity.
  - repeat split; simpl; try lia; repeat constructor; lia.
Qed.

(** ** C36 Time bins (exact arithmetic) *)
Theorem C36_time_bin : forall m : @imap NumR, (0 < (im_beta m : R))%R -> 0 < im_maxtau m ->
  (forall tin tout : R, (0 <= tin < im_beta m)%R -> (0 <= tout < im_beta m)%R ->
     (0 <= @TauIndex NumR m tin tout < im_maxtau m) /\
     forall n, @TauIndex NumR m tin tout = n <->
       exists k : Z, ((tout < tin)%R /\ k = 1 \/ (tin <= tout)%R /\ k = 0) /\
         (IZR n * (im_beta m / IZR (im_maxtau m)) <= tout - tin + IZR k * im_beta m
         < IZR (n + 1) * (im_beta m / IZR (im_maxtau m)))%R) /\
  (forall tau : R, (- im_beta m < tau < 0)%R ->
     @TauIndex1 NumR m (tau + im_beta m)%R = @TauIndex1 NumR m tau) /\
  (forall tin tout : R, im_sym m = -1 ->
     (@TauSym NumR m tin tout = -1 <-> (tout <= tin)%R) /\
     (@TauSym NumR m tin tout = 1 <-> (tin < tout)%R)).
Proof. exact tau_bin. Qed.
Print Assumptions C36_time_bin.
Example C36_case : let m := @mkIM NumR 2%R 8 (mkLat [4] 1) (-1) 2 in
  (0 < (im_beta m : R))%R /\ 0 < im_maxtau m /\ (0 <= 1 < im_beta m)%R.
Proof. simpl. lra || (split; [lra|split; [lia|lra]]). Qed.

(** ** C37 is false: index 3 (up,up) is not recognised, index 2 (up,down) is. *)
Theorem C37_same_spin_refuted :
  IsSameSpin (SpinIndex2 UP UP) = false /\ IsSameSpin (SpinIndex2 UP DOWN) = true.
Proof. exact same_spin_refuted. Qed.
Print Assumptions C37_same_spin_refuted.

(** ** C38 Directed and plain evaluation agree, except for measuring delta lines *)
Theorem C38_directed_weight :
  (forall (N : Num) T d ra rb ta tb sa sb me gg ext,
    GWeightDir T d ra rb ta tb sa sb me gg ext =
    match d with IN => GWeight T ra rb ta tb sa sb me gg ext
               | OUT => GWeight T rb ra tb ta sb sa me gg ext end) /\
  (forall (N : Num) T d ra rb ta tb sa sb wo me de ww ext, me && de = false ->
    WWeightDir T d ra rb ta tb sa sb wo me de ww ext =
    match d with IN => WWeight T ra rb ta tb sa sb wo me de ww ext
               | OUT => WWeight T rb ra tb ta sb sa wo me de ww ext end) /\
  (exists (T : @tables NumR) r t s ext,
    WWeightDir T IN r r t t s s false true true false ext <> WWeight T r r t t s s false true true false ext).
Proof.
  split; [exact @GWeightDir_eq|split; [exact @WWeightDir_eq|exact dir_differ]].
Qed.
Print Assumptions C38_directed_weight.
