(** Electron thermodynamics.  core/electrons.c:32-298, one zone at a time.  pow(x, y) is
    Rpower x y, which it is for x > 0.  The diagnostics Qvisc, Qcoul, Nsuper and Esuper are
    left out; bsq and u^t, which the code takes from get_state, are arguments. *)
From Coq Require Import Reals Bool.
From Verif Require Import RLib XLib.
Open Scope R_scope.

Section E.
(** run-time parameters *)
Variables gam game gamp tptemin tptemax : R.

(** 32-42: (KTOT, KEL) *)
Definition init_electrons (fel0 rho u : R) : R * R :=
  let uel := fel0 * u in
  ((gam - 1) * u * Rpower rho (- gam), (game - 1) * uel * Rpower rho (- game)).

(** 283-298; P[KEL] may be infinite or not a number *)
Definition kel_limit (KTOT rho tpte : R) : R := KTOT * Rpower rho (gam - game) / (tpte + (gam - 1) / (game - 1)).
Definition fixup_electrons_1zone (KTOT rho : R) (KEL : X) : X :=
  let kelmax := Fin (kel_limit KTOT rho tptemin) in
  let kelmin := Fin (kel_limit KTOT rho tptemax) in
  let KEL := match KEL with NaN => kelmin | _ => KEL end in
  let KEL := xmax KEL kelmin in
  xmin KEL kelmax.

(** 57-83: new (KEL, KTOT) of Pf *)
Definition heat_electrons_zone (fel rho_s rho_f u_f KEL_f KTOT_f : R) : R * R :=
  let ktotharm := (gam - 1) * u_f / Rpower rho_f gam in
  (KEL_f + (game - 1) / (gam - 1) * Rpower rho_s (gam - game) * fel * (ktotharm - KTOT_f), ktotharm).

(** 85-131.  bsq = 0 makes beta infinite in C and 1e20 after the test.  MP_ME is MP / ME. *)
Definition ESMALL : R := / 10 ^ 20.
Definition log10 (x : R) : R := ln x / ln 10.
Definition get_fel (beta_heat : bool) (fel0 MP_ME rho uu KEL bsq : R) : R :=
  if negb beta_heat then fel0 else
  let Tpr := (gam - 1) * uu / rho in
  let uel := 1 / (game - 1) * KEL * Rpower rho game in
  let Tel := (game - 1) * uel / rho in
  let Tel := if Rleb Tel 0 then ESMALL else Tel in
  let Tpr := if Rleb Tpr 0 then ESMALL else Tpr in
  let Trat := Rabs (Tpr / Tel) in
  let pres := rho * Tpr in
  let beta := if Reqb bsq 0 then 10 ^ 20 else let b := pres / bsq * 2 in if Rltb (10 ^ 20) b then 10 ^ 20 else b in
  let mbeta := 2 - 2 / 10 * log10 Trat in
  let c2 := if Rleb Trat 1 then (16 / 10) / Trat else (12 / 10) / Trat in
  let c3 := if Rleb Trat 1 then 18 + 5 * log10 Trat else 18 in
  let qrat := 92 / 100 * (c2 ^ 2 + Rpower beta mbeta) / (c3 ^ 2 + Rpower beta mbeta) * exp (- 1 / beta) * Rpower (MP_ME * Trat) (1 / 2) in
  1 / (1 + qrat).

Section Coulomb.
(** physical constants and units; gsl_Kn is the library's Bessel function *)
Variables MP ME KBOL CL THOMSON Ne_unit U_unit T_unit COULOMB_LOG : R.
Variable gsl_Kn : nat -> R -> R.
(** 134-140 *)
Definition Kn (n : nat) (x : R) : R := if Rltb 100 x then exp (- x) * sqrt (PI / (2 * x)) else gsl_Kn n x.
(** 150-159 *)
Definition thetae (rho KEL : R) : R := MP / ME * KEL * Rpower rho (game - 1).
Definition Te (rho KEL : R) : R := thetae rho KEL * ME * CL * CL / KBOL.
Definition Ti (rho uu KEL : R) : R :=
  let ue := KEL * Rpower rho game / (game - 1) in
  let up := uu - ue in
  let n := rho * Ne_unit in
  up * U_unit * (gamp - 1) / (n * KBOL).
(** 166-197: the heating rate in code units *)
Definition Qc (rho uu KEL : R) : R :=
  let te := thetae rho KEL in
  let Te := Te rho KEL in
  let Ti := Ti rho uu KEL in
  let ti := KBOL * Ti / (MP * CL * CL) in
  let tm := 1 / (1 / te + 1 / ti) in
  let n := rho * Ne_unit in
  let prefac := 3 / 2 * ME / MP * n * n * COULOMB_LOG * CL * KBOL * THOMSON * (Ti - Te) in
  let crit := / 100 in
  let '(term1, term2) :=
    if Rltb te crit && Rltb ti crit then (sqrt (tm / (PI * te * ti / 2)), sqrt (tm / (PI * te * ti / 2)))
    else if Rltb te crit then (exp (- 1 / ti) / Kn 2 (1 / ti) * sqrt (tm / te), exp (- 1 / ti) / Kn 2 (1 / ti) * sqrt (tm / te))
    else if Rltb ti crit then (exp (- 1 / te) / Kn 2 (1 / te) * sqrt (tm / ti), exp (- 1 / te) / Kn 2 (1 / te) * sqrt (tm / ti))
    else (Kn 1 (1 / tm) / (Kn 2 (1 / te) * Kn 2 (1 / ti)), Kn 0 (1 / tm) / (Kn 2 (1 / te) * Kn 2 (1 / ti))) in
  let term1 := term1 * ((2 * (te + ti) ^ 2 + 1) / (te + ti)) in
  let term2 := term2 * 2 in
  prefac * (term1 + term2) * (T_unit / U_unit).
(** 143-215: new Pf[KEL]; ucon0 is u^t of Ps *)
Definition coulomb (Dt ucon0 rho_s u_s KEL_s rho_f KEL_f : R) : R :=
  if Rltb 0 (Te rho_s KEL_s) && Rltb 0 (Ti rho_s u_s KEL_s) then
    let ue_f := KEL_f * Rpower rho_f game / (game - 1) + Qc rho_s u_s KEL_s * Dt / ucon0 in
    (game - 1) * ue_f * Rpower rho_f (- game)
  else KEL_f.
End Coulomb.

(** 217-273: new (KEL, KTOT) of Pr.  ucon is the velocity at the half step, ucon0 is u^t of
    Pr, gdet is geom->g. *)
Definition apply_rad_force_e (Dt : R) (ucon radG : nat -> R) (gdet rho_h rho_r u_r KEL_r ucon0 : R) : R * R :=
  let C := 0 + - ucon 0%nat * radG 0%nat + - ucon 1%nat * radG 1%nat + - ucon 2%nat * radG 2%nat + - ucon 3%nat * radG 3%nat in
  let C := C / gdet in
  let Urho := rho_r * ucon0 in
  let Uel := KEL_r * Urho in
  let Uel := Uel + Dt * (C * (game - 1) * Rpower rho_h (1 - game)) in
  (Uel / Urho, (gam - 1) * u_r * Rpower rho_r (- gam)).

(** fixup.c:234-243 (in fixup1zone, after the floors): new (UU, KTOT) *)
Definition KTOTMAX : R := 3.
Definition entropy_ceiling (rho u : R) : R * R :=
  let KTOT := (gam - 1) * (u * Rpower rho (- gam)) in
  if Rltb KTOTMAX KTOT then (KTOTMAX * Rpower rho gam / (gam - 1), KTOTMAX) else (u, KTOT).
End E.
