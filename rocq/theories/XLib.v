(** Extended reals: exact finite values, infinities and NaN with the C rules for
    arithmetic and comparison.  Rounding, overflow and the sign of zero are not
    represented (x/0 is the infinity with the sign of x). *)
From Coq Require Import Reals Bool Lra.
From Verif Require Import RLib.
Open Scope R_scope.

Inductive X : Set := Fin (r : R) | PInf | NInf | NaN.
Declare Scope X_scope.
Delimit Scope X_scope with X.
Bind Scope X_scope with X.

Definition xopp (a : X) : X := match a with Fin r => Fin (- r) | PInf => NInf | NInf => PInf | NaN => NaN end.
Definition xabs (a : X) : X := match a with Fin r => Fin (Rabs r) | PInf | NInf => PInf | NaN => NaN end.
Definition xadd (a b : X) : X :=
  match a, b with
  | Fin x, Fin y => Fin (x + y)
  | NaN, _ | _, NaN | PInf, NInf | NInf, PInf => NaN
  | PInf, _ | _, PInf => PInf
  | NInf, _ | _, NInf => NInf
  end.
Definition xsub (a b : X) : X := xadd a (xopp b).
(** an infinity of the given sign; NaN for a zero factor *)
Definition inf_by (s : R) : X := if Rltb 0 s then PInf else if Rltb s 0 then NInf else NaN.
Definition xmul (a b : X) : X :=
  match a, b with
  | NaN, _ | _, NaN => NaN
  | Fin x, Fin y => Fin (x * y)
  | Fin x, PInf | PInf, Fin x => inf_by x
  | Fin x, NInf | NInf, Fin x => inf_by (- x)
  | PInf, PInf | NInf, NInf => PInf
  | PInf, NInf | NInf, PInf => NInf
  end.
Definition xdiv (a b : X) : X :=
  match a, b with
  | NaN, _ | _, NaN => NaN
  | Fin x, Fin y => if Reqb y 0 then inf_by x else Fin (x / y)
  | Fin _, PInf | Fin _, NInf => Fin 0
  | PInf, Fin y => if Rltb y 0 then NInf else PInf
  | NInf, Fin y => if Rltb y 0 then PInf else NInf
  | _, _ => NaN
  end.
Definition xsqrt (a : X) : X :=
  match a with Fin x => if Rltb x 0 then NaN else Fin (sqrt x) | PInf => PInf | NInf | NaN => NaN end.
(** comparisons are false on NaN *)
Definition xltb (a b : X) : bool :=
  match a, b with
  | NaN, _ | _, NaN => false
  | Fin x, Fin y => Rltb x y
  | PInf, _ | _, NInf => false
  | NInf, _ | _, PInf => true
  end.
Definition xleb (a b : X) : bool :=
  match a, b with
  | NaN, _ | _, NaN => false
  | Fin x, Fin y => Rleb x y
  | NInf, _ | _, PInf => true
  | PInf, _ | _, NInf => false
  end.
(** decs.h:720-721 *)
Definition xmin (a b : X) : X := if xltb a b then a else b.
Definition xmax (a b : X) : X := if xltb b a then a else b.

Notation "a + b" := (xadd a b) : X_scope.
Notation "a - b" := (xsub a b) : X_scope.
Notation "a * b" := (xmul a b) : X_scope.
Notation "a / b" := (xdiv a b) : X_scope.
Notation "- a" := (xopp a) : X_scope.

Lemma xdiv_fin x y : y <> 0 -> xdiv (Fin x) (Fin y) = Fin (x / y).
Proof. intros H. cbn. destruct (Reqb_spec y 0); [contradiction|reflexivity]. Qed.
Lemma xsqrt_fin x : 0 <= x -> xsqrt (Fin x) = Fin (sqrt x).
Proof. intros H. cbn. now rewrite Rltb_false. Qed.
