(** Temperature from the tabulated equation of state: core/eos_stellar_collapse.c
    over exact reals, with the tables of TabModel and the root finder of RootModel. *)
From Coq Require Import Reals Bool ZArith List.
From Verif Require Import RLib XLib IntLib TabModel RootModel.
Import ListNotations.
Open Scope R_scope.

(** pow(10., x) and log10(x) *)
Definition pow10 (x : R) : R := exp (x * ln 10).
Definition log10 (x : R) : R := ln x / ln 10.
(** eos_stellar_collapse.h:22-23: TABLE_TOL and TABLE_FTOL *)
Definition TABLE_TOL : R := / 10 ^ 10.

(** find_min and find_max, util.c:59-75, for a table with at least one entry *)
Definition find_min (l : list R) : R := match fold_minmax l None with Some (lo, _) => lo | None => 0 end.
Definition find_max (l : list R) : R := match fold_minmax l None with Some (_, hi) => hi | None => 0 end.

Section Tables.
(** axes, the table of log energy, and e_shift, u_shift, RHO_unit, U_unit *)
Variables (arho atmp ayes : axis) (tab_le : list R) (e_shift u_shift RHO_unit U_unit : R).

(** one column of a table, over the temperatures: 1339-1345 *)
Definition column (tab : list R) (i k : Z) : list R :=
  map (fun j => match rd tab (EOS_ELEM arho atmp i (Z.of_nat j) k) with Some t => t | None => 0 end) (seq 0 (length atmp)).
(** fill_max_min_2d, 1331-1350: the entry of index Nrho * iY + irho of the two tables *)
Definition fill_2d (pick : list R -> R) (tab : list R) : list R :=
  map (fun e => pick (column tab (Z.of_nat (Nat.modulo e (length arho))) (Z.of_nat (Nat.div e (length arho))))) (seq 0 (length arho * length ayes)).
Definition tab_le_min_2d : list R := fill_2d find_min tab_le.
Definition tab_le_max_2d : list R := fill_2d find_max tab_le.

(** catch_ye 1500-1508 and catch_lT 1523-1533 on numbers *)
Definition catch_in (a : axis) (x : R) : R :=
  if Rltb x (ax_min a) then ax_min a else if Rleb (ax_max a) x then ax_max a - TOL else x.
(** catch_rho 1436-1445, with 351-352 *)
Definition catch_rho (rho : R) : R :=
  if Rltb rho (pow10 (ax_min arho)) then ax_min arho
  else if Rleb (pow10 (ax_max arho)) rho then ax_max arho - TOL else log10 rho.
(** u2e, e2u, le2e, e2le: 1406-1416 *)
Definition u2e (rho u : R) : R := (u - u_shift) / rho.
Definition e2u (rho e : R) : R := e * rho + u_shift.
Definition le2e (le : R) : R := pow10 le - e_shift.
Definition e2le (e : R) : R := log10 (e + e_shift).
(** catch_e 1457-1465, with 369-370 and 389-390 *)
Definition catch_e (e : R) : R :=
  if Rltb e (le2e (find_min tab_le)) then find_min tab_le
  else if Rleb (le2e (find_max tab_le)) e then find_max tab_le - TOL else e2le e.
(** catch_var_2d_monotone 1376-1385 (SC_MONOTONE_SAFE 1) *)
Definition catch_var_2d_monotone (lrho Ye var : R) (tab : list R) : option R :=
  match EOS_SC_interp arho atmp ayes lrho (ax_min atmp) Ye tab with
  | None => None
  | Some varmin =>
      if Rleb var varmin then Some (varmin + TOL)
      else match EOS_SC_interp arho atmp ayes lrho (ax_max atmp) Ye tab with
           | None => None
           | Some varmax => if Rleb varmax var then Some (varmax - TOL) else Some var
           end
  end.
(** lT_f 1199-1205.  A read outside the table would be 0 here; there is none for a
    density caught by catch_rho (C48). *)
Definition lT_f (lrho ye : R) (tab : list R) (lT : R) : R :=
  match EOS_SC_interp arho atmp ayes lrho lT ye tab with Some v => v | None => 0 end.
(** find_lT 958-968 *)
Definition find_lT (fuel : nat) (lrho lTguess ye : R) (tab : list R) (val : R) : outcome :=
  find_root (lT_f lrho ye tab) val (ax_min atmp) (ax_max atmp - 2 * TOL) TABLE_TOL TABLE_TOL fuel lTguess.

(** What EOS_SC_fill does: it stores (lrho, lT, ye); or exits; or is undefined (division
    by a vanishing density, a read outside a table); or is still searching. *)
Inductive filled := Stored (lrho lT ye : R) | Exit | Undefined | Searching.
(** EOS_SC_fill 584-647, on p[RHO], p[UU], p[YE] and eos[EOS_LT] in code units *)
Definition EOS_SC_fill (fuel : nat) (rho u ye lT : R) : filled :=
  let u := u * U_unit in
  let rho := rho * RHO_unit in
  let lrho := catch_rho rho in
  let ye := catch_in ayes ye in
  if Reqb rho 0 then Undefined else
  let e := u2e rho u in
  let le := catch_e e in
  match catch_var_2d arho ayes lrho ye le tab_le_min_2d tab_le_max_2d with
  | None => Undefined
  | Some le =>
      match catch_var_2d_monotone lrho ye le tab_le with
      | None => Undefined
      | Some le =>
          let lTguess := catch_in atmp lT in
          match find_lT fuel lrho lTguess ye tab_le le with
          | Success leosTemp => Stored lrho leosTemp ye
          | Fail => Exit
          | Diverge => Searching
          end
      end
  end.
(** EOS_SC_get_u_of_T 688-701, with 357-358: density in cgs, energy in code units *)
Definition EOS_SC_get_u_of_T (rho T ye : R) : option R :=
  let T := if Rltb T (pow10 (ax_min atmp)) then pow10 (ax_min atmp) else T in
  let T := if Rltb (pow10 (ax_max atmp)) T then pow10 (ax_max atmp) else T in
  let lrho := catch_rho rho in
  let lT := catch_in atmp (log10 T) in
  let ye := catch_in ayes ye in
  match EOS_SC_interp arho atmp ayes lrho lT ye tab_le with
  | None => None
  | Some le => Some (e2u rho (le2e le) / U_unit)
  end.
(** EOS_SC_get_min_rho 878-884 *)
Definition EOS_SC_get_min_rho : R :=
  let delrho := ax_max arho - ax_min arho in
  let lrho_min := ax_min arho + 1 / 100 * delrho in
  pow10 lrho_min / RHO_unit.
(** EOS_SC_get_minu 888-902 (OLD_U_FLOORS 0): density in cgs, energy in code units *)
Definition EOS_SC_get_minu (rho ye : R) : option R :=
  let lrho := catch_rho rho in
  let lT := ax_min atmp in
  let ye := catch_in ayes ye in
  match EOS_SC_interp arho atmp ayes lrho lT ye tab_le with
  | None => None
  | Some le => Some (e2u rho (le2e le) / U_unit)
  end.
(** EOS_SC_rho_floor 864-874 (no GAMMA_FALLBACK); RHOMIN, RHOMINLIMIT, BSQORHOMAX *)
Definition EOS_SC_rho_floor (RHOMIN RHOMINLIMIT BSQORHOMAX scale bsq : R) : R :=
  let rhoflr := RHOMIN * scale in
  let rhominlimit := MY_MAX RHOMINLIMIT EOS_SC_get_min_rho in
  let rhoflr := MY_MAX rhoflr rhominlimit in
  MY_MAX rhoflr (bsq / BSQORHOMAX).
(** EOS_SC_u_floor 904-912 *)
Definition EOS_SC_u_floor (RHOMIN RHOMINLIMIT BSQORHOMAX BSQOUMAX scale bsq ye : R) : option R :=
  let rhoflr := EOS_SC_rho_floor RHOMIN RHOMINLIMIT BSQORHOMAX scale bsq * RHO_unit in
  match EOS_SC_get_minu rhoflr ye with
  | None => None
  | Some minu => Some (if Rltb (Rabs minu) (bsq / BSQOUMAX) then bsq / BSQOUMAX else minu)
  end.
(** The energy set in the cold floor: fixup.c:222-227 (POLYTROPE_FALLBACK, COLD_FLOORS).
    pv[RHO] is in code units.  The same call is in EOS_u_press, eos.c:288-290. *)
Definition cold_u (rho ye : R) : option R := EOS_SC_get_minu rho ye.
End Tables.

(** The table of squared sound speeds: 493-527, one entry; CL is 2.99792458e10
    (constants.h), SMALL decs.h:87 *)
Definition CL : R := 29979245800.
Definition cs2_entry (rho P hm1 dpdrhoe dpderho h_shift_cs : R) : R :=
  let h := hm1 + CL * CL - h_shift_cs in
  let cs2 := (dpdrhoe + P / (rho * rho) * dpderho) / h in
  let cs2 := MY_MAX cs2 (10 * SMALL) in
  MY_MIN cs2 (1 - 10 * SMALL).
(** EOS_SC_gamma 672-683 *)
Definition EOS_SC_gamma (arho atmp ayes : axis) (tab_cs2 tab_lP : list R) (lrho lT ye : R) : option R :=
  match EOS_SC_interp arho atmp ayes lrho lT ye tab_cs2, EOS_SC_interp arho atmp ayes lrho lT ye tab_lP with
  | Some cs2, Some lP =>
      let gamma := cs2 * pow10 (lrho - lP) in
      let gamma := if Rltb gamma (11 / 10) then 11 / 10 else gamma in
      Some (if Rltb 2 gamma then 2 else gamma)
  | _, _ => None
  end.
