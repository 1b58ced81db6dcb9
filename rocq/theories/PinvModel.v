(** Pressure from enthalpy and energy from pressure in the tabulated equation of state:
    core/eos_stellar_collapse.c over exact reals. *)
From Coq Require Import Reals Bool ZArith List.
From Verif Require Import RLib XLib IntLib TabModel RootModel InvModel.
Import ListNotations.
Open Scope R_scope.

Section Tables.
(** axes, tables of log energy and log pressure, e_shift, u_shift, RHO_unit, U_unit *)
Variables (arho atmp ayes : axis) (tab_le tab_lP : list R) (e_shift u_shift RHO_unit U_unit : R).

(** an entry of a table; both tables have Nrho * NT * NYe *)
Definition at_elem (tab : list R) (e : nat) : R := nth e tab 0.
(** the log density of the element EOS_ELEM(irho, iT, iY) *)
Definition lrho_of (e : nat) : R := nth (Nat.modulo e (length arho)) arho 0.
(** 426-452: enthalpy less the rest energy, with u_shift, and specific enthalpy less 1 *)
Definition wmrho_entry (e : nat) : R :=
  let rho := pow10 (lrho_of e) in
  let en := le2e e_shift (at_elem tab_le e) in
  let P := pow10 (at_elem tab_lP e) in
  e2u u_shift rho en + P.
Definition hm1_entry (e : nat) : R :=
  let rho := pow10 (lrho_of e) in
  let en := le2e e_shift (at_elem tab_le e) in
  let P := pow10 (at_elem tab_lP e) in
  en + P / rho.
Definition tab_wmrho : list R := map wmrho_entry (seq 0 (length tab_le)).
Definition tab_hm1 : list R := map hm1_entry (seq 0 (length tab_le)).
(** 464-474: w_shift from tab_wmrho_min, h_shift from tab_hm1_min *)
Definition shift_of (tab : list R) : R :=
  if Rleb (find_min tab) 0 then - (101 / 100) * (find_min tab - SMALL) else 0.
Definition w_shift : R := shift_of tab_wmrho.
Definition h_shift : R := shift_of tab_hm1.
(** 477-488; w2lw 1434, h2lh *)
Definition w2lw (w : R) : R := log10 (w + w_shift).
Definition h2lh (h : R) : R := log10 (h + h_shift).
Definition tab_lwmrho : list R := map w2lw tab_wmrho.
Definition tab_lhm1 : list R := map h2lh tab_hm1.
(** catch_w 1477-1485 and catch_press 1467-1475, with 391-392, 455-456 and 492-493 *)
Definition catch_w (w : R) : R :=
  if Rltb w (find_min tab_wmrho) then find_min tab_lwmrho
  else if Rleb (find_max tab_wmrho) w then find_max tab_lwmrho - TOL else w2lw w.
Definition catch_press (press : R) : R :=
  if Rltb press (pow10 (find_min tab_lP)) then find_min tab_lP
  else if Rleb (pow10 (find_max tab_lP)) press then find_max tab_lP - TOL else log10 press.

(** What the two functions do: a value and the temperature left in lTold; or exit; or a
    read outside a table; or still searching. *)
Inductive solved := Got (v lT : R) | Exits | Bad | Busy.
(** EOS_SC_pressure_rho0_w 703-776 (SC_MONOTONE_SAFE 1) *)
Definition EOS_SC_pressure_rho0_w (fuel : nat) (rho w ye lTold : R) : solved :=
  let lTguess := catch_in atmp lTold in
  let w := w - rho in
  let rho := rho * RHO_unit in
  let w := w * U_unit in
  let lrho := catch_rho arho rho in
  let lw := catch_w w in
  let ye := catch_in ayes ye in
  match catch_var_2d arho ayes lrho ye lw (fill_2d arho atmp ayes find_min tab_lwmrho) (fill_2d arho atmp ayes find_max tab_lwmrho) with
  | None => Bad
  | Some lw =>
      match catch_var_2d_monotone arho atmp ayes lrho ye lw tab_lwmrho with
      | None => Bad
      | Some lw =>
          match find_lT arho atmp ayes fuel lrho lTguess ye tab_lwmrho lw with
          | Success leosTemp =>
              match EOS_SC_interp arho atmp ayes lrho leosTemp ye tab_lP with
              | None => Bad
              | Some log_press => Got (pow10 log_press / U_unit) leosTemp
              end
          | Fail => Exits
          | Diverge => Busy
          end
      end
  end.
(** EOS_SC_u_press 778-835 *)
Definition EOS_SC_u_press (fuel : nat) (press rho ye lTold : R) : solved :=
  let lTguess := catch_in atmp lTold in
  let press := press * U_unit in
  let rho := rho * RHO_unit in
  let lrho := catch_rho arho rho in
  let lp := catch_press press in
  let ye := catch_in ayes ye in
  match catch_var_2d arho ayes lrho ye lp (fill_2d arho atmp ayes find_min tab_lP) (fill_2d arho atmp ayes find_max tab_lP) with
  | None => Bad
  | Some lp =>
      match find_lT arho atmp ayes fuel lrho lTguess ye tab_lP lp with
      | Success leosTemp =>
          match EOS_SC_interp arho atmp ayes lrho leosTemp ye tab_le with
          | None => Bad
          | Some le => Got (e2u u_shift rho (le2e e_shift le) / U_unit) leosTemp
          end
      | Fail => Exits
      | Diverge => Busy
      end
  end.
(** EOS_SC_pressure_rho0_u 649-652 *)
Definition EOS_SC_pressure_rho0_u (lrho lT ye : R) : option R :=
  match EOS_SC_interp arho atmp ayes lrho lT ye tab_lP with
  | None => None
  | Some lP => Some (pow10 lP / U_unit)
  end.
End Tables.
