(** Vocabulary for bins. *)
From Coq Require Import Reals ZArith.
From Verif Require Import RLib.
Open Scope R_scope.

(** bin k of width d from x0 contains x *)
Definition in_bin (x0 d : R) (k : Z) (x : R) : Prop := x0 + IZR k * d <= x < x0 + (IZR k + 1) * d.
(** equal up to whole turns *)
Definition same_angle (a b : R) : Prop := exists n : Z, a = b + IZR n * (2 * PI).
(** angle between a spatial vector K and the a-th basis vector in the metric g *)
Definition norm2 (g : nat -> nat -> R) (K : nat -> R) : R :=
  g 1%nat 1%nat * K 1%nat ^ 2 + g 2%nat 2%nat * K 2%nat ^ 2 + g 3%nat 3%nat * K 3%nat ^ 2
  + 2 * (g 1%nat 2%nat * K 1%nat * K 2%nat + g 1%nat 3%nat * K 1%nat * K 3%nat + g 2%nat 3%nat * K 2%nat * K 3%nat).
Definition basis_dot (g : nat -> nat -> R) (K : nat -> R) (a : nat) : R := g a 1%nat * K 1%nat + g a 2%nat * K 2%nat + g a 3%nat * K 3%nat.
Definition direction_cosine g K a : R := basis_dot g K a / (sqrt (g a a) * sqrt (norm2 g K)).
Definition diagonal (g : nat -> nat -> R) : Prop := forall a b, (1 <= a <= 3)%nat -> (1 <= b <= 3)%nat -> (a = b -> 0 < g a b) /\ (a <> b -> g a b = 0).
(** th and phi are the polar angle and the azimuth of the direction (x, y, z) *)
Definition spherical (x y z th phi : R) : Prop :=
  let r := sqrt (x * x + y * y + z * z) in 0 <= th <= PI /\ 0 <= phi < 2 * PI /\ x = r * sin th * cos phi /\ y = r * sin th * sin phi /\ z = r * cos th.
