(** C58 (limits on the electron entropy), C90 (electron heating). *)
From Coq Require Import Reals Lra.
From Verif Require Import RLib XLib ElecModel ElecSpec ElecProofs ElecMore.
Open Scope R_scope.

(** *** C58 *)
(** Whatever the electron entropy was (infinite and NaN included), afterwards the ratio of the
    temperatures lies between the limits. *)
Theorem C58_bounds : forall gam game lo hi, 1 < gam -> 1 < game -> forall rho u K, 0 < u -> u = energy gam rho K -> 0 <= lo <= hi -> forall KEL,
  exists k, fixup_electrons_1zone gam game lo hi K rho KEL = Fin k /\ 0 < k /\ lo <= tp_te gam game rho u k <= hi.
Proof. exact fix_bounds. Qed.
Print Assumptions C58_bounds.
(** An entropy that meets the limits is kept. *)
Theorem C58_keeps : forall gam game lo hi, 1 < gam -> 1 < game -> forall rho u K, 0 < u -> u = energy gam rho K -> 0 <= lo <= hi -> forall k,
  0 < k -> lo <= tp_te gam game rho u k <= hi -> fixup_electrons_1zone gam game lo hi K rho (Fin k) = Fin k.
Proof. exact fix_keeps. Qed.
Print Assumptions C58_keeps.
(** NaN becomes the coldest electrons allowed. *)
Theorem C58_nan : forall gam game lo hi, 1 < gam -> 1 < game -> forall rho u K, 0 < u -> u = energy gam rho K -> 0 <= lo <= hi ->
  exists k, fixup_electrons_1zone gam game lo hi K rho NaN = Fin k /\ tp_te gam game rho u k = hi.
Proof. exact fix_nan. Qed.
Print Assumptions C58_nan.
(** The total entropy belongs to the energy, as the theorems above ask, after the ceiling in
    fixup1zone, which precedes fixup_electrons; the ceiling only lowers the energy. *)
Theorem C58_ceiling : forall gam, 1 < gam -> forall rho v, let (u', K') := entropy_ceiling gam rho v in u' = energy gam rho K' /\ K' <= 3 /\ u' <= v.
Proof. exact ceiling. Qed.
Print Assumptions C58_ceiling.
(** coulomb() computes the ion temperature with the index gamp, fixup_electrons_1zone with gam:
    by the former the limit is not kept (gam = 13/9, game = 4/3, gamp = 5/3). *)
Theorem C58_gamp_refuted : exists gam game gamp lo hi rho u K k, 1 < gam /\ 1 < game /\ 1 < gamp /\ 0 <= lo <= hi /\ 0 < rho /\ 0 < u /\ u = energy gam rho K /\
  fixup_electrons_1zone gam game lo hi K rho NaN = Fin k /\ hi < tp_te gamp game rho u k.
Proof. exact fix_gamp. Qed.
Print Assumptions C58_gamp_refuted.
(** energy 1 at density 1 with gam = 2: entropy 1 *)
Example C58_nonvacuous : 1 = energy 2 1 1 /\ let (u', K') := entropy_ceiling 2 1 4 in u' = 3 /\ K' = 3.
Proof.
  split; [|exact ceiling_example]. unfold energy, Rpower. rewrite ln_1, Rmult_0_r, exp_0. lra.
Qed.

(** *** C90 *)
(** At the start the electrons hold the fraction fel0 of the energy. *)
Theorem C90_init : forall gam game, 1 < gam -> 1 < game -> forall fel0 rho u,
  let (K, k) := init_electrons gam game fel0 rho u in energy gam rho K = u /\ energy game rho k = fel0 * u.
Proof. exact init_split. Qed.
Print Assumptions C90_init.
(** The heating fraction is one. *)
Theorem C90_fraction : forall gam game fel0 mpme rho u k bsq, 0 < mpme -> 0 < rho -> 0 <= bsq -> 0 < get_fel gam game true fel0 mpme rho u k bsq < 1.
Proof. exact fel_range. Qed.
Print Assumptions C90_fraction.
(** The electrons receive that fraction of the dissipated energy (the energy less what the
    advected entropy stands for) if the density of the two states is the same. *)
Theorem C90_heat_partial : forall gam game, 1 < gam -> 1 < game -> forall fel rho u k K,
  let k' := fst (heat_electrons_zone gam game fel rho rho u k K) in energy game rho k' - energy game rho k = fel * (u - energy gam rho K).
Proof. exact heat_exact. Qed.
Print Assumptions C90_heat_partial.
(** In general it is multiplied by a power of the ratio of the densities; the total entropy is
    reset to the energy. *)
Theorem C90_heat_general : forall gam game, 1 < gam -> 1 < game -> forall fel rho_s rho_f u k K,
  let (k', K') := heat_electrons_zone gam game fel rho_s rho_f u k K in
  energy gam rho_f K' = u /\
  energy game rho_f k' - energy game rho_f k = fel * (u - energy gam rho_f K) * (Rpower rho_s (gam - game) / Rpower rho_f (gam - game)).
Proof. exact heat_gain. Qed.
Print Assumptions C90_heat_general.
(** so the electrons can receive more than all of it. *)
Theorem C90_heat_refuted : exists fel rho_s rho_f u k K, 0 < fel < 1 /\ 0 < rho_s /\ 0 < rho_f /\ 0 < k /\ 0 < K /\
  energy 2 rho_f K < u /\ u - energy 2 rho_f K < energy (3/2) rho_f (fst (heat_electrons_zone 2 (3/2) fel rho_s rho_f u k K)) - energy (3/2) rho_f k.
Proof. exact heat_density. Qed.
Print Assumptions C90_heat_refuted.
(** Coulomb exchange heats the electrons exactly when the ions are hotter (temperatures as
    coulomb() computes them), for every positive Bessel function. *)
Theorem C90_coulomb_sign : forall game gamp MP ME KBOL CL THOMSON Ne_unit U_unit T_unit LOG gsl_Kn,
  1 < game -> 1 < gamp -> 0 < MP -> 0 < ME -> 0 < KBOL -> 0 < CL -> 0 < THOMSON -> 0 < Ne_unit -> 0 < U_unit -> 0 < T_unit -> 0 < LOG ->
  (forall n x, 0 < x -> 0 < gsl_Kn n x) ->
  forall Dt ucon0 rho u k rho_f k_f, 0 < Dt -> 0 < ucon0 -> 0 < rho ->
  let TE := Te game MP ME KBOL CL rho k in
  let TI := Ti game gamp KBOL Ne_unit U_unit rho u k in
  let k' := coulomb game gamp MP ME KBOL CL THOMSON Ne_unit U_unit T_unit LOG gsl_Kn Dt ucon0 rho u k rho_f k_f in
  0 < TE -> 0 < TI -> (TE < TI <-> k_f < k') /\ (TI < TE <-> k' < k_f).
Proof. exact coul_sign. Qed.
Print Assumptions C90_coulomb_sign.
(** The ion temperature is the kinetic one of the rest of the energy; the electron one is the
    kinetic one times MP / (MP + ME). *)
Theorem C90_temperatures : forall game gamp MP ME KBOL CL RHO_unit rho u k, 1 < game -> 0 < MP -> 0 < ME -> 0 < KBOL -> 0 < RHO_unit -> 0 < rho ->
  let U_unit := RHO_unit * CL * CL in let Ne_unit := RHO_unit / (MP + ME) in
  Ti game gamp KBOL Ne_unit U_unit rho u k = kinetic (press gamp (u - energy game rho k) * U_unit) (rho * Ne_unit) KBOL /\
  Te game MP ME KBOL CL rho k = kinetic (press game (energy game rho k) * U_unit) (rho * Ne_unit) KBOL * (MP / (MP + ME)).
Proof. intros. exact (conj (ti_kinetic _ _ _ _ _ _ _ _) (te_kinetic _ _ _ _ _ _ _ _ H H0 H1 H2 H3 H4)). Qed.
Print Assumptions C90_temperatures.
(** so that electrons are still heated when both kinetic temperatures are equal. *)
Theorem C90_equilibrium_refuted : exists game gamp rho u k, 1 < game /\ 1 < gamp /\ 0 < rho /\ 0 < k /\ tp_te gamp game rho u k = 1 /\
  forall MP ME KBOL CL THOMSON RHO_unit T_unit LOG gsl_Kn Dt ucon0 rho_f k_f,
  0 < MP -> 0 < ME -> 0 < KBOL -> 0 < CL -> 0 < THOMSON -> 0 < RHO_unit -> 0 < T_unit -> 0 < LOG -> (forall n x, 0 < x -> 0 < gsl_Kn n x) ->
  0 < Dt -> 0 < ucon0 ->
  k_f < coulomb game gamp MP ME KBOL CL THOMSON (RHO_unit / (MP + ME)) (RHO_unit * CL * CL) T_unit LOG gsl_Kn Dt ucon0 rho u k rho_f k_f.
Proof. exact coul_drift_at. Qed.
Print Assumptions C90_equilibrium_refuted.
(** The electrons gain Qc Dt / u^t; nothing happens at temperatures that are not positive. *)
Theorem C90_coulomb_amount : forall game gamp MP ME KBOL CL THOMSON Ne_unit U_unit T_unit LOG gsl_Kn, 1 < game ->
  forall Dt ucon0 rho u k rho_f k_f,
  let TE := Te game MP ME KBOL CL rho k in
  let TI := Ti game gamp KBOL Ne_unit U_unit rho u k in
  let k' := coulomb game gamp MP ME KBOL CL THOMSON Ne_unit U_unit T_unit LOG gsl_Kn Dt ucon0 rho u k rho_f k_f in
  (0 < TE -> 0 < TI -> energy game rho_f k' - energy game rho_f k_f =
     Qc game gamp MP ME KBOL CL THOMSON Ne_unit U_unit T_unit LOG gsl_Kn rho u k * Dt / ucon0) /\
  (TE <= 0 \/ TI <= 0 -> k' = k_f).
Proof. intros. exact (conj (coul_gain _ _ _ _ _ _ _ _ _ _ _ _ H _ _ _ _ _ _ _) (coul_skip _ _ _ _ _ _ _ _ _ _ _ _ _ _ _ _ _ _ _)). Qed.
Print Assumptions C90_coulomb_amount.
(** Qc is one formula in all four branches: with the Bessel functions replaced by the leading
    term beyond 100 the cold branches are no approximation of their own. *)
Theorem C90_coulomb_rate : forall game gamp MP ME KBOL CL THOMSON Ne_unit U_unit T_unit LOG K,
  0 < MP -> 0 < ME -> 0 < KBOL -> 0 < CL -> (forall n x, 0 < x -> 0 < K n x) ->
  forall rho u k,
  let TE := Te game MP ME KBOL CL rho k in
  let TI := Ti game gamp KBOL Ne_unit U_unit rho u k in
  0 < TE -> 0 < TI ->
  Qc game gamp MP ME KBOL CL THOMSON Ne_unit U_unit T_unit LOG K rho u k =
    3 / 2 * (ME / MP) * (rho * Ne_unit) ^ 2 * LOG * CL * KBOL * THOMSON * (TI - TE) *
    exchange_factor (bessel K) (KBOL * TE / (ME * CL ^ 2)) (KBOL * TI / (MP * CL ^ 2)) * (T_unit / U_unit).
Proof. exact coul_rate. Qed.
Print Assumptions C90_coulomb_rate.
(** Radiation gives the electrons minus the four-force along the velocity times Dt / u^t if the
    density at the half step and at the end is the same. *)
Theorem C90_radiation_partial : forall gam game, 1 < gam -> 1 < game -> forall Dt ucon radG gdet rho u k ucon0, 0 < rho -> 0 < ucon0 -> gdet <> 0 ->
  let (k', K') := apply_rad_force_e gam game Dt ucon radG gdet rho rho u k ucon0 in
  energy gam rho K' = u /\
  energy game rho k' - energy game rho k =
    - (ucon 0%nat * radG 0%nat + ucon 1%nat * radG 1%nat + ucon 2%nat * radG 2%nat + ucon 3%nat * radG 3%nat) / gdet * Dt / ucon0.
Proof. exact rad_gain. Qed.
Print Assumptions C90_radiation_partial.
(** Ions hotter than electrons: unit constants, density 1, electrons with a quarter of energy 4. *)
Example C90_nonvacuous : let TE := Te 2 1 1 1 1 1 1 in let TI := Ti 2 2 1 1 1 1 4 1 in 0 < TE /\ 0 < TI /\ TE < TI.
Proof. unfold Te, Ti, thetae, Rpower. rewrite ln_1, !Rmult_0_r, exp_0. lra. Qed.
