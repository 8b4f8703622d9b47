(** * Exact arithmetic: the instance of [Num] over Coq's real numbers *)
From Coq Require Import ZArith Reals Lra.
From Verif Require Import Base Num.
Open Scope R_scope.

Definition Rltb (x y : R) : bool := if Rlt_dec x y then true else false.
Definition Rleb (x y : R) : bool := if Rle_dec x y then true else false.
Definition Reqb (x y : R) : bool := if Req_EM_T x y then true else false.

(** [floor] of a real: the integer part of the standard library. *)
Definition NumR : Num := {|
  real := R; rofZ := IZR; radd := Rplus; rsub := Rminus; rmul := Rmult;
  rdiv := Rdiv; rneg := Ropp; rsqrt := R_sqrt.sqrt;
  rltb := Rltb; rleb := Rleb; reqb := Reqb; rfloor := Int_part |}.

Lemma Rltb_spec : forall x y, Rltb x y = true <-> x < y.
Proof. intros x y; unfold Rltb; destruct (Rlt_dec x y); split; auto; discriminate. Qed.
Lemma Rleb_spec : forall x y, Rleb x y = true <-> x <= y.
Proof. intros x y; unfold Rleb; destruct (Rle_dec x y); split; auto; discriminate. Qed.
Lemma Reqb_spec : forall x y, Reqb x y = true <-> x = y.
Proof. intros x y; unfold Reqb; destruct (Req_EM_T x y); split; auto; discriminate. Qed.
Lemma Rltb_false : forall x y, Rltb x y = false <-> y <= x.
Proof. intros x y; unfold Rltb; destruct (Rlt_dec x y); split; intros; auto; try discriminate; lra. Qed.
Lemma Rleb_false : forall x y, Rleb x y = false <-> y < x.
Proof. intros x y; unfold Rleb; destruct (Rle_dec x y); split; intros; auto; try discriminate; lra. Qed.
Lemma Reqb_false : forall x y, Reqb x y = false <-> x <> y.
Proof. intros x y; unfold Reqb; destruct (Req_EM_T x y); split; intros; auto; try discriminate; contradiction. Qed.
