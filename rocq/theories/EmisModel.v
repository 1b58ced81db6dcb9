(** Emission and absorption of light: core/emissivity.c and core/radiation.c with RADTYPE_LIGHT,
    and the flat neutrino emissivity.  Not-a-number and infinity checks are left out: the numbers
    here are reals.  get_J (125) passes m->Bmag, which is not a member of the structure, so the
    code does not compile with SYNCHROTRON; J_synch is modelled with its field as an argument. *)
From Coq Require Import Reals Bool ZArith List.
From Verif Require Import RLib XLib IntLib.
Open Scope R_scope.

Section Constants.
(** constants.h:10-17, decs.h:87 *)
Variables EE CL ME MP HPL KBOL : R.
(** pow(x, y) for x >= 0 and y > 0 *)
Definition cpow (x y : R) : R := if Rltb 0 x then Rpower x y else 0.

(** ** Planck function and absorption, radiation.c *)
(** Bnu_inv, 12-28 *)
Definition Bnu_inv (nu Thetae : R) : R :=
  let x := HPL * nu / (ME * CL * CL * Thetae) in
  if Rltb x (/ 10 ^ 3) then (2 * HPL / (CL * CL)) / (x / 24 * (24 + x * (12 + x * (4 + x))))
  else (2 * HPL / (CL * CL)) / (exp x - 1).
(** jnu_inv, 30-37, and alpha_inv_abs, 68-79; j is jnu *)
Definition jnu_inv (j nu : R) : R := j / (nu * nu).
Definition alpha_inv_abs (j nu Thetae : R) : R := jnu_inv j nu / (Bnu_inv nu Thetae + / 10 ^ 100).
(** jnu_gray and J_gray, emissivity.c:430-440; kappa is the opacity parameter *)
Definition jnu_gray (kappa nu Ne Thetae : R) : R := MP * Ne * kappa * Bnu_inv nu Thetae * nu * nu * nu.
Definition J_gray (Ne Thetae : R) : R := 0.

(** ** Bremsstrahlung, emissivity.c *)
(** jnu_brem, 171-194 *)
Definition efac (x : R) : R := if Rltb x (/ 10 ^ 3) then (24 - 24 * x + 12 * x * x - 4 * x * x * x + x * x * x * x) / 24 else exp (- x).
Definition jnu_brem (nu Ne Thetae : R) : R :=
  let Te := Thetae * ME * CL * CL / KBOL in
  let rel := 1 + 44 / 10 ^ 11 * Te in
  let x := HPL * nu / (KBOL * Te) in
  let gff := 12 / 10 in
  let jv := 1 / (4 * PI) * 2 ^ 5 * PI * EE ^ 6 / (3 * ME * CL ^ 3) in
  let jv := jv * Rpower (2 * PI / (3 * KBOL * ME)) (1 / 2) in
  let jv := jv * (Rpower Te (- 1 / 2) * Ne * Ne) in
  jv * (efac x * rel * gff).
(** Jnu_brem, 212-214 *)
Definition Jnu_brem (nu Ne Thetae : R) : R := 4 * PI * jnu_brem nu Ne Thetae.
(** J_brem, 216-225 *)
Definition J_brem (Ne Thetae : R) : R :=
  let Te := Thetae * ME * CL * CL / KBOL in
  let gff := 12 / 10 in
  let rel := 1 + 44 / 10 ^ 11 * Te in
  let Jb := sqrt (2 * PI * KBOL * Te / (3 * ME)) in
  let Jb := Jb * (2 ^ 5 * PI * EE ^ 6 / (3 * HPL * ME * CL ^ 3)) in
  Jb * (Ne * Ne * gff * rel).

(** ** Synchrotron radiation, emissivity.c *)
Definition THETAE_MIN : R := 3 / 10.
Definition KMIN : R := 2 / 1000.
Definition KMAX : R := 10 ^ 7.
Definition TMIN : R := THETAE_MIN.
Definition TMAX : R := 10 ^ 2.
Definition CST : R := 188774862536 / 10 ^ 11.
Section Tables.
(** the arrays K2 and F_synch, of NU_BINS + 1 entries *)
Variable NU_BINS : Z.
Variables K2 F_synch : list R.
(** lK_min, dlK, lT_min, dl_T, 248-252 *)
Definition dlK : R := ln (KMAX / KMIN) / IZR NU_BINS.
Definition dl_T : R := ln (TMAX / TMIN) / IZR NU_BINS.
(** linear_interp_K2_synch, 276-287, and the last lines of linear_interp_F_synch, 294-302.
    None: an entry outside the array. *)
Definition interp (table : list R) (lo d x : R) : option R :=
  let di := (ln x - ln lo) / d in
  let i := truncZ di in
  let di := di - IZR i in
  match rd table i, rd table (i + 1) with
  | Some a, Some b => Some (exp ((1 - di) * a + di * b))
  | _, _ => None
  end.
Definition linear_interp_K2_synch (Thetae : R) : option R := interp K2 TMIN dl_T Thetae.
Definition linear_interp_F_synch (K : R) : option R := if Rltb K KMIN || Rltb KMAX K then Some 0 else interp F_synch KMIN dlK K.
(** K2_eval_synch, 305-312 *)
Definition K2_eval_synch (Thetae : R) : option R :=
  if Rltb Thetae THETAE_MIN then Some 0 else if Rltb TMAX Thetae then Some (2 * Thetae * Thetae) else linear_interp_K2_synch Thetae.
(** jnu_synch, 315-343; k2 is what K2_eval_synch returned *)
Definition nu_s (Thetae B theta : R) : R :=
  let nuc := EE * B / (2 * PI * ME * CL) in (2 / 9) * nuc * Thetae * Thetae * sin theta.
Definition jnu_synch_of (k2 nu Ne Thetae B theta : R) : R :=
  let nus := nu_s Thetae B theta in
  if Rltb (10 ^ 12 * nus) nu then 0
  else
    let x := nu / nus in
    let xp1 := cpow x (1 / 3) in
    let xx := sqrt x + CST * sqrt xp1 in
    let f := xx * xx in
    (sqrt 2 * PI * EE * EE * Ne * nus / (3 * CL * k2)) * f * exp (- xp1).
Definition jnu_synch (nu Ne Thetae B theta : R) : option R :=
  if Rltb Thetae THETAE_MIN then Some 0
  else match K2_eval_synch Thetae with Some k2 => Some (jnu_synch_of k2 nu Ne Thetae B theta) | None => None end.
(** jnu_integrand_synch, 387-397 *)
Definition jnu_integrand_synch (K th : R) : R :=
  let sth := sin th in let x := K / sth in
  if Rltb sth (/ 10 ^ 150) || Rltb (2 * 10 ^ 8) x then 0 else sth * sth * (sqrt x + CST * cpow x (1 / 6)) ^ 2 * exp (- cpow x (1 / 3)).
(** F_eval_synch, 400-418 *)
Definition KFAC : R := 9 * PI * ME * CL / EE.
Definition F_eval_synch (Thetae Bmag nu : R) : option R :=
  let K := KFAC * nu / (Bmag * Thetae * Thetae) in
  if Rltb KMAX K then Some 0
  else if Rltb K KMIN then let x := cpow K (333333333333333333 / 10 ^ 18) in Some (x * (3767503800178 / 10 ^ 11 + 2240274341836 / 10 ^ 12 * x))
  else linear_interp_F_synch K.
(** Jnu_synch, 346-369; k2 and F are what the two functions returned *)
Definition Jnu_synch_of (k2 F Ne Thetae Bmag : R) : R :=
  let nuC := EE * Bmag / (2 * PI * ME * CL) in
  sqrt 2 * PI * EE * EE * Ne * (2 / 9 * nuC) * Thetae * Thetae / (3 * CL * k2) * F.
Definition Jnu_synch (nu Ne Thetae Bmag : R) : option R :=
  if Rltb Thetae THETAE_MIN then Some 0
  else match F_eval_synch Thetae Bmag nu, K2_eval_synch Thetae with
       | Some F, Some k2 => Some (Jnu_synch_of k2 F Ne Thetae Bmag)
       | _, _ => None
       end.
(** J_synch, 371-384 *)
Definition J_synch_of (k2 Ne Thetae Bmag : R) : R :=
  let J := 32 * sqrt 2 * (10 + Rpower 2 (5 / 6) + 4 * Rpower 2 (11 / 12)) in
  let J := J * (Bmag * Bmag * Ne * PI * EE * EE * EE * EE * Thetae ^ 5) in
  J / (81 * CL * CL * CL * k2 * ME * ME * PI).
Definition J_synch (Ne Thetae Bmag : R) : option R := option_map (fun k2 => J_synch_of k2 Ne Thetae Bmag) (K2_eval_synch Thetae).
End Tables.
End Constants.

(** ** Flat neutrino emissivity, 443-468 *)
Inductive nutype := NU_ELECTRON | ANTINU_ELECTRON | NU_HEAVY.
Definition nutype_eqb (a b : nutype) : bool := match a, b with
  | NU_ELECTRON, NU_ELECTRON | ANTINU_ELECTRON, ANTINU_ELECTRON | NU_HEAVY, NU_HEAVY => true | _, _ => false end.
Section Flat.
Variables U_unit T_unit cnu_flat numin numax : R.
Variable EMISSTYPE_FLAT : nutype.
Definition jnu_flat (nu : R) (type : nutype) (Ye : R) : R :=
  let C := cnu_flat * U_unit / ((numax - numin) * T_unit) in
  let chi := if Rleb numin nu && Rleb nu numax then 1 else 0 in
  let f := match EMISSTYPE_FLAT with
           | NU_ELECTRON => if nutype_eqb type NU_ELECTRON then 2 * Ye else 0
           | ANTINU_ELECTRON => if nutype_eqb type ANTINU_ELECTRON then 1 - 2 * Ye else 0
           | NU_HEAVY => 0
           end in
  C * f * chi.
Definition Jnu_flat (nu : R) (type : nutype) (Ye : R) : R := 4 * PI * jnu_flat nu type Ye.
Definition J_flat (type : nutype) (Ye : R) : R := 4 * PI * (numax - numin) * jnu_flat (5 / 10 * (numax + numin)) type Ye.
End Flat.
