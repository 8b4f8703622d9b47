(** Proofs about saving big dictionaries. *)
Require Import List Arith Bool String Ascii Lia.
Require Import Verif.BigDict.
Import ListNotations.
Local Open Scope string_scope.

Lemma dir_app f e : dirOf e = None -> dirOf (f ++ e) = dirOf f.
Proof.
  intros H. induction f as [|c f IH]; cbn; [exact H|]. now rewrite IH.
Qed.
Lemma dir_ext f : dirOf (withExt f) = dirOf f.
Proof.
  unfold withExt. destruct String.eqb; [reflexivity|]. now rewrite dir_app.
Qed.
Lemma self_neq f : "_" ++ f <> f.
Proof. intros H. apply (f_equal String.length) in H. cbn in H. lia. Qed.

Section Save.
Context {value : Type}.
Implicit Types d st : disk value.

Lemma save_plain d f x : dirOf f = None ->
  save d f x = ([put d ("_" ++ withExt f) (Some Torn); put d ("_" ++ withExt f) (Some (Full x));
                 put (put d ("_" ++ withExt f) None) (withExt f) (Some (Full x))], true).
Proof.
  intros H. unfold save, reachable. cbn [append dirOf]. rewrite dir_ext, H. reflexivity.
Qed.

Lemma save_atomic d f x : dirOf f = None ->
  snd (save d f x) = true /\
  forall st, In st (fst (save d f x)) ->
  (files st (withExt f) = files d (withExt f) \/ files st (withExt f) = Some (Full x)) /\
  (forall n, n <> withExt f -> n <> "_" ++ withExt f -> files st n = files d n).
Proof.
  intros H. rewrite (save_plain d f x H). split; [reflexivity|]. intros st I.
  assert (N : (withExt f =? "_" ++ withExt f) = false) by (apply String.eqb_neq; intros E; now apply (self_neq (withExt f))).
  cbn [fst In] in I. destruct I as [<-|[<-|[<-|[]]]]; unfold put; cbn [files]; rewrite ?String.eqb_refl.
  1,2: rewrite N; split; [now left|]; intros n A B; apply String.eqb_neq in B; now rewrite B.
  split; [now right|]. intros n A B. apply String.eqb_neq in A, B. now rewrite A, B.
Qed.
Lemma save_last d f x : dirOf f = None ->
  files (last (fst (save d f x)) d) (withExt f) = Some (Full x) /\ files (last (fst (save d f x)) d) ("_" ++ withExt f) = None.
Proof.
  intros H. rewrite (save_plain d f x H). cbn [fst last]. unfold put. cbn [files]. rewrite !String.eqb_refl.
  split; [reflexivity|]. destruct (String.eqb_spec ("_" ++ withExt f) (withExt f)) as [E|_]; [now apply self_neq in E|reflexivity].
Qed.
Lemma save_unseen d f x st n : dirOf f = None -> In st (fst (save d f x)) -> listed st n = true ->
  files st n = files d n \/ files st n = Some (Full x).
Proof.
  intros H I L. destruct (save_atomic d f x H) as [_ A]. destruct (A st I) as [B C].
  destruct (String.eqb_spec n (withExt f)) as [->|N]; [exact B|].
  destruct (String.eqb_spec n ("_" ++ withExt f)) as [->|M]; [|left; now apply C].
  exfalso. unfold listed in L. cbn [append] in L. destruct (files st _); [|discriminate].
  destruct (dirOf (String "_" (withExt f))); cbn in L; discriminate.
Qed.

(** A name with a directory: the underscore goes in front of the directory *)
Lemma save_dir d f x q : dirOf f = Some q -> dirs d ("_" ++ q) = false -> save d f x = ([], false).
Proof. intros H D. unfold save, reachable. cbn [append dirOf]. rewrite dir_ext, H. cbn [append] in D. now rewrite D. Qed.
End Save.
