(** Two gases sharing one density. *)
From Coq Require Import Reals.
Open Scope R_scope.

(** energy density of a gas with adiabatic index g whose pressure is K rho^g *)
Definition energy (g rho K : R) : R := K * Rpower rho g / (g - 1).
(** pressure of a gas with index g and energy density u *)
Definition press (g u : R) : R := (g - 1) * u.
(** Ratio of the ion and electron temperatures: of the pressures, both having the same number
    of particles.  Electrons have entropy kel and index game, ions the rest of u and index g. *)
Definition tp_te (g game rho u kel : R) : R := press g (u - energy game rho kel) / press game (energy game rho kel).
(** kinetic temperature p / (n k) *)
Definition kinetic (p n k : R) : R := p / (n * k).
(** Modified Bessel function of the second kind: [K] up to argument 100, the leading term of the
    expansion for large arguments beyond. *)
Definition bessel (K : nat -> R -> R) (n : nat) (x : R) : R := if Rlt_dec 100 x then exp (- x) * sqrt (PI / (2 * x)) else K n x.
(** Temperature factor of the energy exchange between electrons and ions at the dimensionless
    temperatures te and ti (Stepney and Guilbert 1983). *)
Definition exchange_factor (K : nat -> R -> R) (te ti : R) : R :=
  ((2 * (te + ti) ^ 2 + 1) / (te + ti) * K 1%nat ((te + ti) / (te * ti)) + 2 * K 0%nat ((te + ti) / (te * ti))) / (K 2%nat (1 / te) * K 2%nat (1 / ti)).
