(** Vocabulary for the tables of opacities. *)
From Coq Require Import Reals ZArith List.
From Verif Require Import RLib XLib IntLib TabSpec.
Open Scope R_scope.

(** element (i, j, k, t, n), with i fastest after t and n, in a table with n1, n2 values
    on the first two axes, nt species and nb groups *)
Definition slot (n1 n2 nt nb i j k t n : Z) : Z := ((((k * n2 + j) * n1 + i) * nt + t) * nb + n)%Z.
Definition inside (n1 n2 n3 nt nb i j k t n : Z) : Prop :=
  (0 <= i < n1)%Z /\ (0 <= j < n2)%Z /\ (0 <= k < n3)%Z /\ (0 <= t < nt)%Z /\ (0 <= n < nb)%Z.
(** r is the decimal logarithm of x, brought into the table from lo to hi *)
Definition placed10 (lo hi tol : R) (x : X) (r : R) : Prop :=
  match x with
  | Fin y => (y < Rpower 10 lo /\ r = lo) \/ (Rpower 10 lo <= y < Rpower 10 hi /\ Rpower 10 r = y) \/ (Rpower 10 hi <= y /\ r = hi - tol)
  | PInf => r = hi - tol
  | NInf => r = lo
  | NaN => False
  end.
Definition lerp (t a b : R) : R := a + t * (b - a).
(** the eight corners of the cell (i, j, k), one direction after another *)
Definition blend (a b c : R) (f : Z -> Z -> Z -> R) (i j k : Z) : R :=
  lerp c (lerp b (lerp a (f i j k) (f (i + 1)%Z j k)) (lerp a (f i (j + 1)%Z k) (f (i + 1)%Z (j + 1)%Z k)))
         (lerp b (lerp a (f i j (k + 1)%Z) (f (i + 1)%Z j (k + 1)%Z)) (lerp a (f i (j + 1)%Z (k + 1)%Z) (f (i + 1)%Z (j + 1)%Z (k + 1)%Z))).
(** i is the cell of the axis a with spacing d that contains r, from xi on *)
Definition cell (a : list R) (d r : R) (i : Z) (xi : R) : Prop :=
  (0 <= i)%Z /\ (i + 1 < Z.of_nat (length a))%Z /\ rd a i = Some xi /\ rd a (i + 1) = Some (xi + d) /\ xi <= r < xi + d.
(** the n-th of m + 1 frequencies spaced by equal ratios from lo to hi *)
Definition nu_of (lo hi : R) (m n : Z) : R := lo * Rpower (hi / lo) (IZR n / IZR m).
(** the trapezoidal rule with spacing h *)
Fixpoint trapezoid (h : R) (g : list R) : R :=
  match g with
  | (a :: (b :: _) as g')%list => h * ((a + b) / 2) + trapezoid h g'
  | _ => 0
  end.
