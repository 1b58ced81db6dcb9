(** Vocabulary for the electromagnetic flux: fields of a perfect conductor in flat space
    (speed of light 1, the factor of 4 pi absorbed), from textbook electrodynamics. *)
From Coq Require Import Reals.
Open Scope R_scope.

Definition v3 := nat -> R.
Definition dot3 (a b : v3) : R := a 1%nat * b 1%nat + a 2%nat * b 2%nat + a 3%nat * b 3%nat.
Definition cross (a b : v3) : v3 := fun i => match i with
  | 1%nat => a 2%nat * b 3%nat - a 3%nat * b 2%nat
  | 2%nat => a 3%nat * b 1%nat - a 1%nat * b 3%nat
  | _ => a 1%nat * b 2%nat - a 2%nat * b 1%nat end.
(** electric field in a conductor moving with velocity v *)
Definition electric (v B : v3) : v3 := fun i => - cross v B i.
(** Poynting's vector *)
Definition poynting (v B : v3) : v3 := cross (electric v B) B.
(** momentum i carried in direction i: Maxwell's stress with the sign of a pressure *)
Definition stress (v B : v3) (i : nat) : R :=
  (dot3 (electric v B) (electric v B) + dot3 B B) / 2 - electric v B i * electric v B i - B i * B i.
(** Minkowski's metric, either position of the indices *)
Definition mink (i j : nat) : R := if Nat.eqb i j then (if Nat.eqb i 0 then -1 else 1) else 0.
(** Lorentz factor and velocity for the spatial part of the four-velocity *)
Definition lorentz (u : v3) : R := sqrt (1 + dot3 u u).
Definition velocity (u : v3) : v3 := fun i => u i / lorentz u.
(** magnetic field squared in the rest frame *)
Definition b2 (v B : v3) : R := dot3 B B - dot3 (electric v B) (electric v B).
