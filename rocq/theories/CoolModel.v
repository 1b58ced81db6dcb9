(** Cooling times, the time step with radiation and the switch of the oscillations:
    core/rad_utils.c:677-746, core/step.c:133-172, core/make_superphotons.c:376-402,
    core/oscillations.c:13-27, core/io.c:1031.  A process is the list of its zones; the
    emissivity get_J of a zone is given and may be infinite or not a number.  What
    ESTIMATE_THETAE changes is left out. *)
From Coq Require Import Reals Bool List.
From Verif Require Import RLib XLib TimeModel.
Import ListNotations.
Open Scope R_scope.

(** a zone: X[1], P[RHO], P[UU], P[ATM] and get_J *)
Record zone := Zone { x1 : R; rho : R; uu : R; atm : R; emiss : X }.
(** startx_rad[1], stopx_rad[1]; EOS_TYPE_TABLE && POLYTROPE_FALLBACK && !GAMMA_FALLBACK;
    METRIC == MKS; rho_poly_thresh and the units *)
Record cfg := Cfg { startx_rad : R; stopx_rad : R; table : bool; mks : bool; rho_thresh : R; U_unit : R; T_unit : R }.
(** decs.h:84 *)
Definition ATM_THRESH : R := 1 / 10.

(** get_dt_cool_rad_zone, rad_utils.c:677-683 *)
Definition get_dt_cool_rad_zone (c : cfg) (u : R) (getJ : X) : X :=
  let u_cgs := Rabs (u * U_unit c) in
  let J := xabs getJ in
  let dt_cool_cgs := (Fin (u_cgs + SMALL) / (J + Fin SMALL))%X in
  (dt_cool_cgs / Fin (T_unit c))%X.
(** set_cooling_time, 685-711, in one zone *)
Definition set_cooling_time (c : cfg) (z : zone) : X :=
  if Rltb (x1 z) (startx_rad c) || Rltb (stopx_rad c) (x1 z) then PInf
  else if table c && (Rltb (rho z) (rho_thresh c) || Rltb (uu z) SMALL) then PInf
  else get_dt_cool_rad_zone c (uu z) (emiss z).
(** get_min_dt_cool, 713-746: the zones of one process, *)
Fixpoint min_zones (c : cfg) (zs : list zone) (dt_cool : X) : X :=
  match zs with
  | [] => dt_cool
  | z :: zs =>
      if Rltb (x1 z) (startx_rad c) || Rltb (stopx_rad c) (x1 z) then min_zones c zs dt_cool
      else if table c && (Rltb (rho z) (rho_thresh c) || Rltb (uu z) SMALL) then min_zones c zs dt_cool
      else if table c && mks c && Rltb (atm z) ATM_THRESH then min_zones c zs dt_cool
      else let dtc_zone := get_dt_cool_rad_zone c (uu z) (emiss z) in
           min_zones c zs (if xltb dtc_zone dt_cool then dtc_zone else dt_cool)
  end.
(** and mpi_min over the processes *)
Definition get_min_dt_cool (c : cfg) (procs : list (list zone)) : X :=
  fold_right (fun zs m => xmin (min_zones c zs PInf) m) PInf procs.

(** get_dnz, make_superphotons.c:380-402: whether photons are made in the zone *)
Definition emits (c : cfg) (z : zone) : bool :=
  negb (Rltb (x1 z) (startx_rad c) || Rltb (stopx_rad c) (x1 z)) &&
  negb (table c && (Rltb (rho z) (rho_thresh c) || Rltb (uu z) SMALL)) &&
  negb (table c && mks c && Rltb (atm z) ATM_THRESH).

(** step.c:135-136; dt_light_min is finite and the same on all processes (coord.c:536),
    and so is dt_cool.  Only finite products occur: cour_cool times infinity is infinite *)
Definition ndt (cour cour_cool dt_light_min : R) (dt_cool : X) : R :=
  match xmin (Fin (cour * dt_light_min)) (Fin cour_cool * dt_cool)%X with Fin d => d | _ => cour * dt_light_min end.
(** step.c:132-172: the next time step *)
Definition next_dt (c : cfg) (cour cour_cool dt_light_min tf t dt : R) (procs : list (list zone)) : R :=
  let n := ndt cour cour_cool dt_light_min (get_min_dt_cool c procs) in
  snd (step_time true tf t dt n (map (fun _ => n) (tl procs))).

(** get_dt_oscillations, oscillations.c:13-27, and step.c:77; the number densities of the
    zones of each process *)
Definition nph_max (zs : list R) : R := fold_left MY_MAX zs 0.
Definition dt_osc_local (NUFERM T_unit : R) (zs : list R) : R := 1 / (NUFERM * nph_max zs + SMALL) / T_unit.
Definition get_dt_oscillations (NUFERM T_unit : R) (zs : list R) (others : list (list R)) : R :=
  mpi_min (dt_osc_local NUFERM T_unit zs) (map (dt_osc_local NUFERM T_unit) others).
Definition oscillations_active (NUFERM T_unit dt : R) (zs : list R) (others : list (list R)) : bool :=
  Rleb (get_dt_oscillations NUFERM T_unit zs others) dt.
