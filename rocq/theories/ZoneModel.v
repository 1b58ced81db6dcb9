(** The fluid as the radiation sees it: core/rad_utils.c, core/radiation.c. *)
From Coq Require Import Reals Bool.
From Verif Require Import RLib GeomModel.
Open Scope R_scope.

(** ** get_fluid_zone, rad_utils.c:303-368; V m and B m, m = 1..3, are the primitives U1.. and B1..; what the
    function stores *)
Record zone := mkz { zUcon : vec; zUcov : vec; zBcon : vec; zBcov : vec; zB : R }.
Definition zone_ucon (gcov gcon : mat) (Vcon : vec) : vec :=
  let VdotV := sum3 (fun l => sum3 (fun m => gcov l m * Vcon l * Vcon m)) in
  let Vfac := sqrt (- 1 / gcon 0%nat 0%nat * (1 + Rabs VdotV)) in
  fun l => if Nat.eqb l 0 then - Vfac * gcon 0%nat 0%nat else Vcon l - Vfac * gcon 0%nat l.
Definition fluid_zone (B_unit : R) (gcov gcon : mat) (V B : vec) : zone :=
  let Bp := fun l => B l * B_unit in
  let Ucon := zone_ucon gcov gcon V in
  let Ucov := lower Ucon gcov in
  let UdotBp := sum3 (fun l => Ucov l * Bp l) in
  let Bcon := fun l => if Nat.eqb l 0 then UdotBp else (Bp l + Ucon l * UdotBp) / Ucon 0%nat in
  let Bcov := lower Bcon gcov in
  mkz Ucon Ucov Bcon Bcov (sqrt (sum4 (fun l => Bcon l * Bcov l))).
(** get_Thetae without ELECTRONS, 183-192, and the cut of strongly magnetised zones, 360-366 *)
Definition get_Thetae (Thetae_unit thetae_max rho u : R) : R := MY_MIN (u / rho * Thetae_unit) thetae_max.
Definition zone_Ne (Ne_unit rho : R) : R := rho * Ne_unit.
Definition zone_Thetae (SMALL B_unit Ne_unit Thetae_unit thetae_max sigma_max rho u B : R) : R :=
  let Ne := zone_Ne Ne_unit rho in
  let sigma := (B / B_unit) ^ 2 / (Ne / Ne_unit) in
  if Rltb sigma_max sigma then SMALL else get_Thetae Thetae_unit thetae_max rho u.

(** ** radiation.c *)
(** get_fluid_nu, 85-95 *)
Definition get_fluid_nu (ME CL HPL : R) (Kcov Ucon : vec) : R :=
  let ener := - (sum4 (fun l => Kcov l * Ucon l)) in ener * ME * CL * CL / HPL.
(** get_bk_angle, 98-123 *)
Definition SMALLEPS : R := / 10 ^ 10.
Definition clamp_mu (mu : R) : R :=
  if Rltb 1 (Rabs mu) then
    let mu := mu / Rabs mu in
    if Rltb 0 mu then mu - SMALLEPS else mu + SMALLEPS
  else mu.
Definition get_bk_angle (K Ucov Bcov : vec) (B : R) : R :=
  if Reqb B 0 then PI / 2
  else
    let k := Rabs (sum4 (fun l => K l * Ucov l)) in
    let mu := sum4 (fun l => K l * Bcov l) / Rabs (k * B) in
    acos (clamp_mu mu).

(** ** Scatterers of neutrinos *)
(** decs.h:176-180 *)
Inductive interaction := TYPE_P | TYPE_N | TYPE_A | TYPE_ALPHA | TYPE_E.
(** the mass in scatterer_number_density, rad_utils.c:251-274, with the index of the mass fraction: MF_XP, MF_XN,
    MF_XH, MF_XA are 0..3 here.  None: the program stops. *)
Definition scatterer (MP MN Abar : R) (electron_type : bool) (i : interaction) : option (nat * R) :=
  match i with
  | TYPE_P => Some (0%nat, MP)
  | TYPE_E => if electron_type then Some (0%nat, MP) else None
  | TYPE_N => Some (1%nat, MN)
  | TYPE_A => Some (2%nat, (MN + MP) * Abar)
  | TYPE_ALPHA => Some (3%nat, 4 * (MN + MP))
  end.
Definition scatterer_number_density (MP MN rho : R) (Xi : nat -> R) (Abar : R) (electron_type : bool) (i : interaction) : option R :=
  match scatterer MP MN Abar electron_type i with Some (k, mass) => Some (rho * Xi k / mass) | None => None end.
(** scatterer_dimensionless_temp, 196-232 *)
Definition scatterer_dimensionless_temp (MP MN ME CL T : R) (Abar : R) (electron_type : bool) (i : interaction) : option R :=
  match i with
  | TYPE_P => Some (T / (MP * CL * CL))
  | TYPE_N => Some (T / (MN * CL * CL))
  | TYPE_A => Some (T / ((MN + MP) * Abar * CL * CL))
  | TYPE_ALPHA => Some (T / (4 * (MN + MP) * CL * CL))
  | TYPE_E => if electron_type then Some (T / (ME * CL * CL)) else None
  end.
