(** What interpolation to a tracer is compared with. *)
From Coq Require Import Reals ZArith List.
Import ListNotations.
Open Scope R_scope.

(** the polynomial c0 + c1 x + c2 x^2 + ... *)
Fixpoint poly (c : list R) (x : R) : R := match c with [] => 0 | a :: c => a + x * poly c x end.
(** sum of f 0, ..., f (n-1) *)
Fixpoint sum_to (n : nat) (f : nat -> R) : R := match n with O => 0 | S n => sum_to n f + f n end.
(** a polynomial of degree two in each of three variables: coefficient of x^a y^b z^c *)
Definition triquad (c : nat -> nat -> nat -> R) (x y z : R) : R :=
  sum_to 3 (fun a => sum_to 3 (fun b => sum_to 3 (fun d => c a b d * x ^ a * y ^ b * z ^ d))).
(** C layout of double v[n1][n2][n3][size] *)
Definition offset (n2 n3 size i j k ip : Z) : Z := (((i * n2 + j) * n3 + k) * size + ip)%Z.
