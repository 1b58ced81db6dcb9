(** Partial derivatives, spherical coordinates and the innermost stable orbit. *)
From Coq Require Import Reals Bool List.
From Coquelicot Require Import Coquelicot.
Open Scope R_scope.

(** [d] is the derivative of [f] at [X] along coordinate [j] *)
Definition put (X : nat -> R) (j : nat) (x : R) : nat -> R := fun i => if Nat.eqb i j then x else X i.
Definition partial (f : (nat -> R) -> R) (X : nat -> R) (j : nat) (d : R) : Prop :=
  is_derive (fun x => f (put X j x)) (X j) d.
(** squared energy of the circular equatorial orbit at r = x^2 that turns with the hole if a > 0
    (Bardeen, Press & Teukolsky 1972, 2.12) *)
Definition energy2 (a x : R) : R := (x ^ 3 - 2 * x + a) ^ 2 / (x ^ 3 * (x ^ 3 - 3 * x + 2 * a)).
(** there is such an orbit, outside the horizon *)
Definition orbit (a x : R) : Prop := 0 < x /\ 1 + sqrt (1 - a * a) < x * x /\ 0 < x ^ 3 - 3 * x + 2 * a.
(** farther than 1e-20 from both halves of the axis *)
Definition off (t : R) : Prop := / 10 ^ 20 < Rabs t /\ / 10 ^ 20 < Rabs (PI - t).
(** the product of [A] and [B] is the identity up to [eps] *)
Definition nearly_inverse (eps : R) (A B : nat -> nat -> R) : Prop := forall i j, (i < 4)%nat -> (j < 4)%nat ->
  Rabs (A i 0%nat * B 0%nat j + A i 1%nat * B 1%nat j + A i 2%nat * B 2%nat j + A i 3%nat * B 3%nat j - (if Nat.eqb i j then 1 else 0)) <= eps.
