(** Averages over a thermal distribution. *)
From Coq Require Import Reals.
Open Scope R_scope.

Fixpoint rsum (n : nat) (f : nat -> R) : R := match n with O => 0 | S m => rsum m f + f m end.
(** Maxwell-Juettner distribution of the Lorentz factor at temperature th; k2 is K_2(1/th) *)
Definition juttner (k2 th g : R) : R := g * sqrt (g ^ 2 - 1) * exp (- g / th) / (th * k2).
(** first terms of the expansion of K_2(1/th) for small th *)
Definition k2_cold (th : R) : R := exp (- (1 / th)) * sqrt (PI * th / 2) * (1 + 15 / 8 * th + 105 / 128 * th ^ 2 - 315 / 1024 * th ^ 3).
Definition k2_of (K2 : R -> R) (th : R) : R := if Rlt_dec (1 / 100) th then K2 (1 / th) else k2_cold th.
(** Midpoints of 240 steps of th / 20 upwards from 1, and of 40 steps from -1 to 1 *)
Definition lorentz (th : R) (k : nat) : R := 1 + (INR k + 1 / 2) * (th / 20).
Definition cosine (l : nat) : R := - 1 + (INR l + 1 / 2) / 20.
(** Midpoint rule for the integral of the distribution times F over the Lorentz factor; with
    F = 1 it is the number of particles the rule counts (1 up to its error). *)
Definition over_energy (K2 : R -> R) (th : R) (F : R -> R) : R :=
  rsum 240 (fun k => th / 20 * juttner (k2_of K2 th) th (lorentz th k) * F (lorentz th k)).
(** and for the mean over all directions *)
Definition over_angle (F : R -> R) : R := rsum 40 (fun l => 1 / 40 * F (cosine l)).
(** velocity of a particle *)
Definition velocity (g : R) : R := sqrt (g ^ 2 - 1) / g.
