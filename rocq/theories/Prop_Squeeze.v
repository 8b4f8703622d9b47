(** * C156-C160: the tables that compress the three-point function *)
Require Import ZArith List Bool Arith Lia Reals.
From Coquelicot Require Complex.
From Verif Require Import Squeeze SqueezeSpec P_Squeeze P_Squeeze2 P_Squeeze3.
Import ListNotations.
Import Coquelicot.Complex.
Local Open Scope nat_scope.

(** C156: the numbers of the pairs of times *)
Theorem C156_restore : forall n t1 t2, t1 < n -> t2 < n ->
  nth_error (tauRestore (timeMap n)) (tauSqueeze (timeMap n) t1 t2) = Some (Nat.min t1 t2, Nat.max t1 t2).
Proof. exact tau_restore. Qed.
Print Assumptions C156_restore.

Theorem C156_unordered : forall n t1 t2 u1 u2, t1 < n -> t2 < n -> u1 < n -> u2 < n ->
  (tauSqueeze (timeMap n) t1 t2 = tauSqueeze (timeMap n) u1 u2 <-> (t1 = u1 /\ t2 = u2) \/ (t1 = u2 /\ t2 = u1)).
Proof. exact tau_unordered. Qed.
Print Assumptions C156_unordered.

Theorem C156_size : forall n, 2 * length (tauRestore (timeMap n)) = n * (n + 1).
Proof. exact time_size. Qed.
Print Assumptions C156_size.

Theorem C156_factors : forall n t1 t2, n <= 257 -> t1 < n -> t2 < n ->
  tauSym (timeMap n) t1 t2 = (if t1 =? t2 then 1 else 2) /\ tauFlag (timeMap n) t1 t2 = (if t2 <? t1 then 1 else 0).
Proof. exact tau_factors. Qed.
Print Assumptions C156_factors.

Example C156_meets : 32 <= 257 /\ tauSqueeze (timeMap 4) 3 1 = 6 /\ tauSym (timeMap 4) 3 1 = 2 /\ tauFlag (timeMap 4) 3 1 = 1.
Proof. repeat split; try lia; reflexivity. Qed.

Theorem C156_identity : forall n t, 256 < t -> t < n ->
  tauSym (timeMap n) t t = 2 /\ tauFlag (timeMap n) t t = 1.
Proof. exact tau_identity. Qed.
Print Assumptions C156_identity.
Example C156_identity_meets : 256 < 300 /\ 300 < 512.
Proof. lia. Qed.

Theorem C156_factors_refuted : exists n t, t < n /\ ~ (tauSym (timeMap n) t t = 1 /\ tauFlag (timeMap n) t t = 0).
Proof. exact tau_identity_ex. Qed.
Print Assumptions C156_factors_refuted.

(** C157: the numbers of the pairs of sites *)
Theorem C157_alike : forall s Lx Ly u v, closed s Lx Ly -> inside Lx Ly u -> inside Lx Ly v ->
  (rSqueeze (siteMap s Lx Ly) u = rSqueeze (siteMap s Lx Ly) v <-> alike s Lx Ly u v).
Proof. exact squeeze_alike. Qed.
Print Assumptions C157_alike.

Theorem C157_count : forall s Lx Ly v, closed s Lx Ly -> inside Lx Ly v ->
  exists l, NoDup l /\ length l = rSym (siteMap s Lx Ly) v /\ forall u, In u l <-> inside Lx Ly u /\ alike s Lx Ly u v.
Proof. exact squeeze_counts. Qed.
Print Assumptions C157_count.

Theorem C157_restore : forall s Lx Ly v, closed s Lx Ly -> inside Lx Ly v ->
  exists w, nth_error (rRestore (siteMap s Lx Ly)) (rSqueeze (siteMap s Lx Ly) v) = Some w /\ inside Lx Ly w /\ alike s Lx Ly w v.
Proof. exact squeeze_restores. Qed.
Print Assumptions C157_restore.

Theorem C157_every_number : forall s Lx Ly i w, closed s Lx Ly -> nth_error (rRestore (siteMap s Lx Ly)) i = Some w ->
  inside Lx Ly w /\ rSqueeze (siteMap s Lx Ly) w = i.
Proof. exact restore_squeezes. Qed.
Print Assumptions C157_every_number.

Example C157_meets :
  let v := ((0, 1), (2, 1))%Z in let u := ((0, 1), (1, 1))%Z in
  inside 3 2 v /\ inside 3 2 u /\ alike Square 3 2 u v /\ rSym (siteMap Square 3 2) v = 2 /\ closed Triangular 3 3.
Proof.
  cbv zeta. unfold inside, onLattice. cbn [fst snd]. repeat split; try lia; try reflexivity.
  exists (-1, 0, 1)%Z. repeat split; try reflexivity. right. now left.
Qed.

Theorem C157_alike_refuted : exists Lx Ly u v, inside Lx Ly u /\ inside Lx Ly v /\ alike Triangular Lx Ly u v /\
  rSqueeze (siteMap Triangular Lx Ly) u <> rSqueeze (siteMap Triangular Lx Ly) v.
Proof. exact triangular_overlap. Qed.
Print Assumptions C157_alike_refuted.

(** The pairs that carry the number of v are fewer than the factor says *)
Theorem C157_count_refuted : exists Lx Ly v, inside Lx Ly v /\ rSym (siteMap Triangular Lx Ly) v = 3 /\
  forall u, inside Lx Ly u -> rSqueeze (siteMap Triangular Lx Ly) u = rSqueeze (siteMap Triangular Lx Ly) v -> u = v.
Proof. exact triangular_count. Qed.
Print Assumptions C157_count_refuted.

(** C158: compress and expand *)
Theorem C158_round_trip : forall n s Lx Ly G sp v t1 t2,
  closed s Lx Ly -> symmetric s Lx Ly n G -> exchanged Lx Ly n G -> inside Lx Ly v -> t1 < n -> t2 < n ->
  uncompress n s Lx Ly (compress n s Lx Ly G) sp v t1 t2 = G sp v t1 t2.
Proof. exact round_trip. Qed.
Print Assumptions C158_round_trip.

Theorem C158_nothing_else : forall n s Lx Ly c sp i j, closed s Lx Ly ->
  i < length (rRestore (siteMap s Lx Ly)) -> j < length (tauRestore (timeMap n)) ->
  compress n s Lx Ly (uncompress n s Lx Ly c) sp i j = c sp i j.
Proof. exact trip_round. Qed.
Print Assumptions C158_nothing_else.

Theorem C158_symmetric : forall n s Lx Ly c, closed s Lx Ly -> symmetric s Lx Ly n (uncompress n s Lx Ly c).
Proof. exact uncompress_symmetric. Qed.
Print Assumptions C158_symmetric.

Theorem C158_exchanged : forall n s Lx Ly c sp p q t1 t2, t1 < n -> t2 < n -> t1 <> t2 ->
  uncompress n s Lx Ly c sp (p, q) t1 t2 = Copp (Cconj (uncompress n s Lx Ly c sp (q, p) t2 t1)).
Proof. exact uncompress_exchanged. Qed.
Print Assumptions C158_exchanged.

Theorem C158_exchanged_refuted : exists n s Lx Ly c, closed s Lx Ly /\ ~ exchanged Lx Ly n (uncompress n s Lx Ly c).
Proof. exact uncompress_diagonal. Qed.
Print Assumptions C158_exchanged_refuted.

(** C159: the Monte Carlo reads what Python wrote *)
Theorem C159_reads : forall n s Lx Ly c sp v t1 t2, closed s Lx Ly -> inside Lx Ly v -> n <= 257 -> t1 < n -> t2 < n ->
  t1 <= t2 \/ alike s Lx Ly (swapV v) v ->
  read n s Lx Ly c sp v t1 t2 = uncompress n s Lx Ly c sp v t1 t2.
Proof. exact read_spec. Qed.
Print Assumptions C159_reads.

Theorem C159_reads_refuted : exists n s Lx Ly G sp v t1 t2,
  closed s Lx Ly /\ n <= 257 /\ symmetric s Lx Ly n G /\ exchanged Lx Ly n G /\ inside Lx Ly v /\ t1 < n /\ t2 < n /\
  read n s Lx Ly (compress n s Lx Ly G) sp v t1 t2 <> G sp v t1 t2.
Proof. exact read_differs. Qed.
Print Assumptions C159_reads_refuted.
Example C158_meets : symmetric Square 2 2 2 G0 /\ exchanged 2 2 2 G0 /\ G0 0 v0 1 0 = RtoC 1 /\ inside 2 2 v0 /\
  length (rRestore (siteMap Square 2 2)) = 16 /\ length (tauRestore (timeMap 2)) = 3.
Proof.
  split; [exact G0_symmetric|]. split; [exact G0_exchanged|]. split; [reflexivity|].
  split; [unfold v0, inside, onLattice; cbn [fst snd]; lia|]. split; reflexivity.
Qed.
Example C159_meets : alike Square 4 4 (swapV ((1, 0), (3, 0))%Z) ((1, 0), (3, 0))%Z /\ inside 4 4 ((1, 0), (3, 0))%Z.
Proof.
  split; [|unfold inside, onLattice; cbn [fst snd]; lia].
  exists (-1, 0, 1)%Z. repeat split; try reflexivity. right. now left.
Qed.

(** C160: what the Monte Carlo collects when it meets every configuration once *)
Theorem C160_diagonal : forall n s Lx Ly all G v t,
  closed s Lx Ly -> NoDup all -> (forall u, In u all <-> inside Lx Ly u) ->
  symmetric s Lx Ly n G -> inside Lx Ly v -> n <= 257 -> t < n ->
  accumulate n s Lx Ly (everything n all G) (rSqueeze (siteMap s Lx Ly) v) (tauSqueeze (timeMap n) t t) = G 0 v t t.
Proof. exact average_diagonal. Qed.
Print Assumptions C160_diagonal.

(** Off the diagonal it is the mean over the exchange of the sites alone *)
Theorem C160_mean : forall n s Lx Ly all G p q t1 t2,
  closed s Lx Ly -> NoDup all -> (forall u, In u all <-> inside Lx Ly u) ->
  symmetric s Lx Ly n G -> exchanged Lx Ly n G -> inside Lx Ly (p, q) -> n <= 257 -> t1 < t2 -> t2 < n ->
  accumulate n s Lx Ly (everything n all G) (rSqueeze (siteMap s Lx Ly) (p, q)) (tauSqueeze (timeMap n) t1 t2) =
  Cdiv (Cplus (G 0 (p, q) t1 t2) (G 0 (q, p) t1 t2)) (RtoC 2).
Proof. exact average_swap. Qed.
Print Assumptions C160_mean.
Example C160_meets : NoDup (siteList 2 2) /\ (forall u, In u (siteList 2 2) <-> inside 2 2 u) /\ G0 0 (swapV v0) 0 1 = RtoC (-1).
Proof. split; [exact list22|]. split; [apply siteList_in|reflexivity]. Qed.

Theorem C160_collects_refuted : exists n s Lx Ly all G v t1 t2,
  closed s Lx Ly /\ n <= 257 /\ NoDup all /\ (forall u, In u all <-> inside Lx Ly u) /\
  symmetric s Lx Ly n G /\ exchanged Lx Ly n G /\ inside Lx Ly v /\ t1 < t2 /\ t2 < n /\
  accumulate n s Lx Ly (everything n all G) (rSqueeze (siteMap s Lx Ly) v) (tauSqueeze (timeMap n) t1 t2) <> G 0 v t1 t2.
Proof. exact measured_mixed. Qed.
Print Assumptions C160_collects_refuted.
