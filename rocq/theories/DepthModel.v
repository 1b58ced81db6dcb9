(** Units, optical depths and numbers of superphotons: core/util.c:138-165, core/interact.c:187, 318-322, 366-371,
    core/radiation.c:40-48, core/make_superphotons.c:350-423, core/rad_utils.c:280-299. *)
From Coq Require Import Reals Bool.
From Coquelicot Require Import Coquelicot.
From Verif Require Import RLib GeomModel ZoneModel.
Open Scope R_scope.

(** ** set_units, util.c:138-165; L_unit is read from the parameters unless the metric is MKS.  Thetae_unit and TEMP_unit left out *)
Record units := mku { L_unit : R; T_unit : R; RHO_unit : R; U_unit : R; B_unit : R; Ne_unit : R; kphys_to_num : R }.
Definition set_units (GNEWT CL MP ME : R) (mks : bool) (Mbh L_par M_unit : R) : units :=
  let L := if mks then GNEWT * Mbh / (CL * CL) else L_par in
  let RHO := M_unit * / L ^ 3 in
  mku L (L / CL) RHO (RHO * CL * CL) (CL * sqrt (4 * PI * RHO)) (RHO / (MP + ME)) (ME / M_unit).

(** ** Optical depths of a segment of duration dtint, interact.c *)
Section Depth.
Variables (HPL ME CL L_unit : R).
(** 187 *)
Definition dlam (dtint : R) (Kcon : vec) : R := dtint / Kcon 0%nat.
(** 242, 321-322; alpha nu is alpha_inv_abs at this type, zone and angle *)
Definition dtau_abs (alpha : R -> R) (dtint : R) (Kcon Kcov Ucon : vec) : R :=
  let nu := get_fluid_nu ME CL HPL Kcov Ucon in (HPL * L_unit / (ME * CL * CL)) * dlam dtint Kcon * alpha nu.
(** alpha_inv_scatt, radiation.c:40-48; sigma is total_cross_lkup *)
Definition alpha_inv_scatt (ne : R) (sigma : R -> R) (nu : R) : R := let Eg := HPL * nu / (ME * CL * CL) in nu * sigma Eg * ne.
(** 368-370 *)
Definition dtau_scatt (ne : R) (sigma : R -> R) (dtint : R) (Kcon Kcov Ucon : vec) : R :=
  let nu := get_fluid_nu ME CL HPL Kcov Ucon in (HPL * L_unit / (ME * CL * CL)) * dlam dtint Kcon * alpha_inv_scatt ne sigma nu.
End Depth.

(** ** get_dnz *)
(** decs.h:87 *)
Definition SMALL : R := / 10 ^ 20.
(** f, make_superphotons.c:350-363, over the reals: J is never infinite; wgt nu is get_wgt with the zone's optical depth *)
Definition f (J wgt : R -> R) (x : R) : R :=
  let nu := exp x in
  let Jsamp := J nu * nu in
  if Rltb (wgt nu) SMALL then 0 else Jsamp / (nu * wgt nu).
(** 404-416: the quadrature taken as exact; [zoneVol] is dV L_unit^3, [g] the determinant *)
Definition dnz (HPL zoneVol g dt T_unit nthreads lnu_min lnu_max : R) (J wgt : R -> R) : R :=
  RInt (f J wgt) lnu_min lnu_max / HPL * zoneVol * g * (dt * T_unit) / nthreads.
(** The options that matter: EOS is EOS_TYPE_TABLE, GAMMA_FALLBACK, METRIC is MKS (decs.h:198-211 then gives POLYTROPE_FALLBACK) *)
Record options := mko { table : bool; gamma_fallback : bool; mks : bool }.
Definition polytrope_fallback (o : options) : bool := if table o then negb (gamma_fallback o) else false.
(** What the tests read of a zone: X1 of the centre, and rho, u and the atmosphere marker in a state *)
Record prims := mkr { RHO : R; UU : R; ATM : R }.
(** decs.h:84 *)
Definition ATM_THRESH : R := 1 / 10.
(** precompute_microphysics, rad_utils.c:280-299: is the zone's microphysics computed in this step?  P is the state at its beginning *)
Definition computed (o : options) (stopx_rad dx1 x1 : R) (P : prims) : bool :=
  if table o && mks o && Rltb (ATM P) ATM_THRESH then false else Rleb x1 (stopx_rad + (3 + 1) * dx1).
(** make_superphotons.c:383-400: does the zone emit?  Prad is the half-step state *)
Definition emits (o : options) (startx_rad stopx_rad rho_poly_thresh x1 : R) (Prad : prims) : bool :=
  if Rltb x1 startx_rad || Rltb stopx_rad x1 then false
  else if table o && polytrope_fallback o && negb (gamma_fallback o) then
    if Rltb (RHO Prad) rho_poly_thresh || Rltb (UU Prad) SMALL then false
    else if mks o && Rltb (ATM Prad) ATM_THRESH then false else true
  else true.
