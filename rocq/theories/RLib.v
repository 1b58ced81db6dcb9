(** Comparisons on real numbers as booleans, for transcribing C conditions on
    doubles (exact arithmetic, no NaN). *)
From Coq Require Import Reals Bool Lra.
Open Scope R_scope.

Definition Rltb (a b : R) : bool := if Rlt_dec a b then true else false.
Definition Rleb (a b : R) : bool := if Rle_dec a b then true else false.
Definition Reqb (a b : R) : bool := if Req_EM_T a b then true else false.

Lemma Rltb_spec a b : reflect (a < b) (Rltb a b).
Proof. unfold Rltb. destruct (Rlt_dec a b); now constructor. Qed.
Lemma Rleb_spec a b : reflect (a <= b) (Rleb a b).
Proof. unfold Rleb. destruct (Rle_dec a b); now constructor. Qed.
Lemma Reqb_spec a b : reflect (a = b) (Reqb a b).
Proof. unfold Reqb. destruct (Req_EM_T a b); now constructor. Qed.

Lemma Rltb_true a b : a < b -> Rltb a b = true.
Proof. intros. destruct (Rltb_spec a b); [trivial|lra]. Qed.
Lemma Rltb_false a b : b <= a -> Rltb a b = false.
Proof. intros. destruct (Rltb_spec a b); [lra|trivial]. Qed.
Lemma Rleb_true a b : a <= b -> Rleb a b = true.
Proof. intros. destruct (Rleb_spec a b); [trivial|lra]. Qed.
Lemma Rleb_false a b : b < a -> Rleb a b = false.
Proof. intros. destruct (Rleb_spec a b); [lra|trivial]. Qed.

(** decs.h:720-722: MY_MIN, MY_MAX, MY_SIGN *)
Definition MY_MIN (a b : R) : R := if Rltb a b then a else b.
Definition MY_MAX (a b : R) : R := if Rltb b a then a else b.
Definition MY_SIGN (a : R) : R := if Rltb a 0 then -1 else 1.

Ltac rcases :=
  repeat match goal with
  | |- context [Rltb ?a ?b] => destruct (Rltb_spec a b)
  | |- context [Rleb ?a ?b] => destruct (Rleb_spec a b)
  | |- context [Reqb ?a ?b] => destruct (Reqb_spec a b)
  | H : context [Rltb ?a ?b] |- _ => destruct (Rltb_spec a b)
  | H : context [Rleb ?a ?b] |- _ => destruct (Rleb_spec a b)
  end; cbn [andb orb negb] in *.

Lemma MY_MIN_min a b : MY_MIN a b = Rmin a b.
Proof. unfold MY_MIN, Rmin. rcases; destruct (Rle_dec a b); lra. Qed.
Lemma MY_MAX_max a b : MY_MAX a b = Rmax a b.
Proof. unfold MY_MAX, Rmax. rcases; destruct (Rle_dec a b); lra. Qed.
