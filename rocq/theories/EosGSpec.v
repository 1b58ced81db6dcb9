(** What the ideal-gas formulas are compared with. *)
From Coq Require Import Reals.
Open Scope R_scope.

(** Internal energy density as a function of density when no heat is exchanged: a function
    that obeys the first law du = (u + p) drho / rho with the pressure p of the gas. *)
Definition adiabat (press : R -> R -> R) (lo hi : R) (u : R -> R) : Prop :=
  forall rho, lo < rho < hi -> derivable_pt_lim u rho ((u rho + press rho (u rho)) / rho).
(** f does not change on (lo, hi) *)
Definition constant_on (lo hi : R) (f : R -> R) : Prop := forall a b, lo < a < hi -> lo < b < hi -> f a = f b.
