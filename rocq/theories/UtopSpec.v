(** Specification vocabulary for the inversion. *)
From Coq Require Import Reals List.
From Verif Require Import XLib GeomModel GeomSpec UtopModel.
Open Scope R_scope.

(** The geometry structure of a metric with volume element [g]. *)
Definition geometry (G : mat) (g : R) : geom :=
  {| gg := g; gcov := G; UtopModel.gcon := fst (gcon_func G); galpha := lapse (fst (gcon_func G)) |}.
(** Lorentz factor of a spatial velocity. *)
Definition lorentz (G : mat) (U : nat -> R) : R := sqrt (1 + spatial G U U).
(** Variables after the magnetic field, no index twice. *)
Definition extra_vars (l : list (nat * bool)) : Prop :=
  (forall s, In s l -> (8 <= fst s)%nat) /\ (forall s s', In s l -> In s' l -> fst s = fst s' -> s = s').
(** A primitive vector holding the given state. *)
Definition holds (p : nat -> X) (rho u : R) (U B : nat -> R) (l : list (nat * bool)) (sc : nat -> R) : Prop :=
  p 0%nat = Fin rho /\ p 1%nat = Fin u /\ (forall m, (1 <= m < 4)%nat -> p (S m) = Fin (U m)) /\
  (forall m, (1 <= m < 4)%nat -> p (4 + m)%nat = Fin (B m)) /\ (forall i, In i (map fst l) -> p i = Fin (sc i)).
(** Adiabatic gas. *)
Definition ideal (gam : R) : R -> R -> R := fun _ u => (gam - 1) * u.
(** The inversion's residual for given conserved variables. *)
Definition residual (press_w : X -> X -> X) (U : nat -> X) (ge : geom) (Wp : X) : X :=
  let i := convert U ge in err_eqn press_w (i_Bsq i) (i_D i) (i_Ep i) (i_QdB i) (i_Qtsq i) Wp.
