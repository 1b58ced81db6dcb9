(** Vocabulary for fields and currents. *)
From Coq Require Import Reals ZArith.
Open Scope R_scope.

(** Levi-Civita symbol of four indices below four, as a product of differences *)
Definition levi (a b c d : nat) : R :=
  (INR b - INR a) * (INR c - INR a) * (INR d - INR a) * (INR c - INR b) * (INR d - INR b) * (INR d - INR c) / 12.
Definition s4 (f : nat -> R) : R := f 0%nat + f 1%nat + f 2%nat + f 3%nat.
(** vectors of space are functions of 1, 2, 3 *)
Definition cross (a b : nat -> R) (m : nat) : R := match m with
  | 1%nat => a 2%nat * b 3%nat - a 3%nat * b 2%nat
  | 2%nat => a 3%nat * b 1%nat - a 1%nat * b 3%nat
  | _ => a 1%nat * b 2%nat - a 2%nat * b 1%nat
  end.
Definition square (a : nat -> R) : R := a 1%nat ^ 2 + a 2%nat ^ 2 + a 3%nat ^ 2.
(** electric field of a perfect conductor whose four-velocity has the space part U *)
Definition electric (U B : nat -> R) (m : nat) : R := - cross (fun i => U i / sqrt (1 + square U)) B m.
(** neighbours of a point and central differences *)
Definition neighbour (d : nat) (n : Z) (z : Z * Z * Z) : Z * Z * Z := let '(i, j, k) := z in
  match d with 1%nat => ((i + n)%Z, j, k) | 2%nat => (i, (j + n)%Z, k) | _ => (i, j, (k + n)%Z) end.
Definition central (h : nat -> R) (d : nat) (f : Z * Z * Z -> R) (z : Z * Z * Z) : R := (f (neighbour d 1 z) - f (neighbour d (-1) z)) / (2 * h d).
Definition divergence (h : nat -> R) (F : Z * Z * Z -> nat -> R) (z : Z * Z * Z) : R :=
  central h 1 (fun z => F z 1%nat) z + central h 2 (fun z => F z 2%nat) z + central h 3 (fun z => F z 3%nat) z.
Definition curl (h : nat -> R) (F : Z * Z * Z -> nat -> R) (z : Z * Z * Z) (m : nat) : R := match m with
  | 1%nat => central h 2 (fun z => F z 3%nat) z - central h 3 (fun z => F z 2%nat) z
  | 2%nat => central h 3 (fun z => F z 1%nat) z - central h 1 (fun z => F z 3%nat) z
  | _ => central h 1 (fun z => F z 2%nat) z - central h 2 (fun z => F z 1%nat) z
  end.
Definition midway (a b : nat -> R) (m : nat) : R := (a m + b m) / 2.
(** sums over the n zones from s on, and over a box *)
Fixpoint zsum (s : Z) (n : nat) (f : Z -> R) : R := match n with O => 0 | S m => zsum s m f + f (s + Z.of_nat m)%Z end.
Definition box_sum (s : Z) (n1 n2 n3 : nat) (f : Z * Z * Z -> R) : R :=
  zsum s n1 (fun i => zsum s n2 (fun j => zsum s n3 (fun k => f (i, j, k)))).
