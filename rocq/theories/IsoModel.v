(** States of given enthalpy on an adiabat of the tabulated equation of state:
    core/eos_stellar_collapse.c:1020-1022, 1092-1145, 1207-1231, over exact reals. *)
From Coq Require Import Reals Bool ZArith List.
From Verif Require Import RLib XLib IntLib TabModel RootModel InvModel AdiaModel.
Import ListNotations.
Open Scope R_scope.

Section Adiabat.
Variables (arho atmp ayes : axis) (a : adiabat).

(** the array a->lT: entries other than imin to imax were never written, a read of one
    is undefined *)
Definition lT_rd (i : Z) : option R :=
  if (ad_imin a <=? i)%Z && (i <=? ad_imax a)%Z then rd (ad_lT a) (i - ad_imin a) else None.
(** interp_1d, util.c:96-107, as called in 1129-1130 and 1213-1214 *)
Definition lT_of (x : R) : option X :=
  let x := if Rltb x (ad_lrho_min a) then ad_lrho_min a else x in
  let x := if Rltb (ad_lrho_max a) x then ad_lrho_max a - SMALL else x in
  let nx := (ad_imax a - ad_imin a)%Z in
  let dx := (Fin (ad_lrho_max a - ad_lrho_min a) / Fin (IZR (nx - 1)))%X in
  match to_int (Fin (IZR (ad_imin a)) + Fin (x - ad_lrho_min a) / dx)%X with
  | None => None
  | Some ix =>
      match rd arho ix, lT_rd ix, lT_rd (ix + 1) with
      | Some xi, Some yi, Some yj => let delx := (Fin (x - xi) / dx)%X in Some ((Fin 1 - delx) * Fin yi + delx * Fin yj)%X
      | _, _, _ => None
      end
  end.
(** a table along the adiabat *)
Definition along (ye : R) (tab : list R) (lrho : R) : option R :=
  match lT_of lrho with Some (Fin lT) => EOS_SC_interp arho atmp ayes lrho lT ye tab | _ => None end.
(** lT_f_adiabat 1207-1231 as the function given to find_root; an undefined value is 0
    here *)
Definition lT_f_adiabat (tab : list R) (lrho : R) : R := match along (ad_ye a) tab lrho with Some v => v | None => 0 end.

(** EOS_SC_hm1_min_adiabat 1020-1022 *)
Definition EOS_SC_hm1_min_adiabat (m : R) : R := m / (CL * CL).

Variables (tab_hm1 tab_lhm1 tab_le : list R) (e_shift h_shift u_shift RHO_unit U_unit : R).
(** catch_hm1 1545-1553, with 454-455 *)
Definition catch_hm1 (hm1 : R) : R :=
  if Rltb hm1 (find_min tab_hm1) then find_min tab_hm1
  else if Rleb (find_max tab_hm1) hm1 then find_max tab_hm1 - TOL else hm1.
(** the logarithm looked for, 1094-1104; m is a->hm1_min *)
Definition target (hm1 m : R) : R :=
  let hm1 := catch_hm1 (hm1 * CL * CL) in
  let hm1 := if Rltb hm1 m then m + TOL else hm1 in
  log10 (hm1 + h_shift).
(** a state (rho, u) in code units with the density found, exit(1), undefined behaviour,
    or still searching *)
Inductive state := State (rho u lrho : R) | Exit | Undefined | Searching.
(** EOS_SC_isoentropy_hm1 1092-1145.  hm1_min is infinite only for an adiabat without a
    node, for which interp_1d divides 0 by 0. *)
Definition EOS_SC_isoentropy_hm1 (fuel : nat) (hm1 lrho_guess : R) : state :=
  match ad_hm1_min a with
  | Fin m =>
      match find_root (lT_f_adiabat tab_lhm1) (target hm1 m) (ad_lrho_min a) (ad_lrho_max a) TABLE_TOL TABLE_TOL fuel (catch_lrho arho lrho_guess) with
      | Diverge => Searching
      | Fail => Exit
      | Success lrho =>
          match along (catch_in ayes (ad_ye a)) tab_le lrho with
          | None => Undefined
          | Some le =>
              let e := pow10 le - e_shift in
              let rho_cgs := pow10 lrho in
              let u_cgs := e * rho_cgs + u_shift in
              State (rho_cgs / RHO_unit) (u_cgs / U_unit) lrho
          end
      end
  | _ => Undefined
  end.
End Adiabat.
