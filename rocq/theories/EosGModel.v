(** Ideal-gas and polytropic equations of state and the floors.  core/eos_gamma.c:12-67,
    core/eos_poly.c:14-82.  pow(x, y) is written Rpower x y, which it is for x > 0; the theorems
    take positive densities. *)
From Coq Require Import Reals.
From Verif Require Import RLib.
Open Scope R_scope.

Section Gamma.
(** run-time parameter gam *)
Variable gam : R.
(** 12-14 *)
Definition pressure_rho0_u (rho u : R) : R := (gam - 1) * u.
(** 16-18 *)
Definition pressure_rho0_w (rho w : R) : R := (w - rho) * (gam - 1) / gam.
(** 24 *)
Definition enthalpy_rho0_u (rho u : R) : R := rho + u * gam.
(** 26-28 *)
Definition adiabatic_constant (rho u : R) : R := u * Rpower rho (- gam).
(** 20-22 *)
Definition entropy_rho0_u (rho u : R) : R := (gam - 1) * adiabatic_constant rho u.
(** 55-59 *)
Definition sound_speed_rho0_u (rho u : R) : R := sqrt (gam * pressure_rho0_u rho u / enthalpy_rho0_u rho u).
(** 61 *)
Definition u_press (press : R) : R := press / (gam - 1).
(** 63-66 *)
Definition temp (rho u : R) : R := (gam - 1) * u / rho.

(** decs.h:75-82 *)
Definition RHOMIN : R := / 10 ^ 5.
Definition RHOMINLIMIT : R := / 10 ^ 17.
Definition UUMIN : R := / 10 ^ 3 * RHOMIN.
Definition UUMINLIMIT : R := / 10 ^ 3 * RHOMINLIMIT.
Definition BSQORHOMAX : R := 50.
Definition BSQOUMAX : R := 2500.
Definition UORHOMAX : R := 50.
(** 39-45 *)
Definition rho_floor (scale bsq : R) : R := MY_MAX (MY_MAX (RHOMIN * scale) RHOMINLIMIT) (bsq / BSQORHOMAX).
(** 30, 47-54 *)
Definition u_floor (scale bsq : R) : R := MY_MAX (MY_MAX (UUMIN * Rpower scale gam) UUMINLIMIT) (bsq / BSQOUMAX).
(** 32-37: ( *rhoflr, *uflr ) *)
Definition set_floors (scale u bsq : R) : R * R := (MY_MAX (rho_floor scale bsq) (u / UORHOMAX), u_floor scale bsq).
End Gamma.

Section Poly.
Definition SMALL : R := / 10 ^ 20.
(** eos_poly.c:14-22: the same with u or w, neither of which is used *)
Definition poly_pressure (rho K Gam : R) : R := K * Rpower (Rabs (rho + SMALL)) Gam.
(** 24-27 *)
Definition poly_enthalpy (rho u K Gam : R) : R := rho + u + poly_pressure rho K Gam.
(** 34-42 *)
Definition poly_sound_speed (rho u K Gam : R) : R :=
  let rho := MY_MAX 0 rho in
  let u := MY_MAX 0 u in
  let rhogam := K * Rpower rho (Gam - 1) in
  sqrt (Gam * rhogam / (1 + u + rhogam)).
End Poly.
