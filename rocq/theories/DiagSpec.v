(** Vocabulary for the diagnostics: sums over the whole grid. *)
From Coq Require Import Reals ZArith List.
From Verif Require Import DiagModel.
Import ListNotations.
Open Scope R_scope.

(** f 0 + ... + f (n - 1) *)
Definition sum (n : nat) (f : Z -> R) : R := fold_right (fun i s => f (Z.of_nat i) + s) 0 (seq 0 n).
(** zones of the whole grid *)
Definition tot1 (g : grid3) : nat := (c1 g * n1 g)%nat.
Definition tot2 (g : grid3) : nat := (c2 g * n2 g)%nat.
Definition tot3 (g : grid3) : nat := (c3 g * n3 g)%nat.
(** sum over the shell i of the whole grid, and over all zones *)
Definition around (g : grid3) (f : field) (i : Z) : R := sum (tot2 g) (fun j => sum (tot3 g) (fun k => f i j k)).
Definition everywhere (g : grid3) (f : field) : R := sum (tot1 g) (fun i => around g f i).
(** flux through faces i of direction 1, per coordinate area *)
Definition through (g : grid3) (f : field) (i : Z) : R := around g (fun i j k => f i j k * dx2 g * dx3 g) i.
(** the change by fluxes over a time dt, step.c:214-220 without the source *)
Definition stepped (g : grid3) (dt : R) (u f1 f2 f3 : field) : field := fun i j k =>
  u i j k + dt * (- (f1 (i + 1)%Z j k - f1 i j k) / dx1 g - (f2 i (j + 1)%Z k - f2 i j k) / dx2 g - (f3 i j (k + 1)%Z - f3 i j k) / dx3 g).
