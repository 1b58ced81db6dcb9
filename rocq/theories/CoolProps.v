(** Property theorems C115 (cooling times and the time step with radiation). *)
From Coq Require Import Reals Bool List Lra.
From Verif Require Import RLib XLib TimeModel CoolModel CoolProofs.
Import ListNotations.
Open Scope R_scope.

(** C115.  The cooling time of a zone is positive, and in it the zone radiates its
    internal energy, but for the small number in both. *)
Theorem C115_zone : forall c u J, 0 < T_unit c ->
  exists d, get_dt_cool_rad_zone c u (Fin J) = Fin d /\ 0 < d /\ d * T_unit c * (Rabs J + / 10 ^ 20) = Rabs (u * U_unit c) + / 10 ^ 20.
Proof. exact zone_time. Qed.
Print Assumptions C115_zone.
(** The time taken for all processes is the least of those of the zones that make
    photons, and infinite if there are none; zones whose emissivity is not a number are
    passed over. *)
Theorem C115_least : forall c procs, 0 < T_unit c ->
  (get_min_dt_cool c procs = PInf /\ forall z, In z (concat procs) -> emits c z = true -> emiss z = NaN) \/
  (exists z d, In z (concat procs) /\ emits c z = true /\ get_dt_cool_rad_zone c (uu z) (emiss z) = Fin d /\ get_min_dt_cool c procs = Fin d /\ 0 <= d /\
     forall w, In w (concat procs) -> emits c w = true -> emiss w <> NaN -> exists e, get_dt_cool_rad_zone c (uu w) (emiss w) = Fin e /\ d <= e).
Proof. exact min_ok. Qed.
Print Assumptions C115_least.
(** In the next step no zone that makes photons radiates more than the fraction cour_cool
    of its internal energy, if none of the limits is below the small number. *)
Theorem C115_step : forall c cour cour_cool light tf t dt procs, 0 < T_unit c -> 0 < cour_cool -> / 10 ^ 20 <= 13 / 10 * dt -> / 10 ^ 20 <= cour * light ->
  (forall z J, In z (concat procs) -> emits c z = true -> emiss z = Fin J -> / 10 ^ 20 * T_unit c * (Rabs J + / 10 ^ 20) <= cour_cool * (Rabs (uu z * U_unit c) + / 10 ^ 20)) ->
  (forall z, In z (concat procs) -> emits c z = true -> emiss z <> PInf /\ emiss z <> NInf) ->
  let d := next_dt c cour cour_cool light tf t dt procs in
  d <= 13 / 10 * dt /\ d <= cour * light /\
  forall z J, In z (concat procs) -> emits c z = true -> emiss z = Fin J -> d * T_unit c * Rabs J <= cour_cool * (Rabs (uu z * U_unit c) + / 10 ^ 20).
Proof. exact step_ok. Qed.
Print Assumptions C115_step.
(** Otherwise a step of the length of the last one is tried, in which a zone radiates more
    than it has. *)
Theorem C115_step_refuted : exists c z J cour light tf t dt, 0 < T_unit c /\ 0 < U_unit c /\ 0 < uu z /\ emits c z = true /\ emiss z = Fin J /\ 0 < cour < 1 /\ 0 < light /\ 0 < dt /\
  Rabs (uu z * U_unit c) + / 10 ^ 20 < next_dt c cour 1 light tf t dt [[z]] * T_unit c * Rabs J.
Proof. exact step_refuted. Qed.
Print Assumptions C115_step_refuted.
(** The least of the cooling times written to the dumps is the one the step is limited by, *)
Theorem C115_output_partial : forall c procs, 0 < T_unit c -> table c && mks c = false -> (forall z, In z (concat procs) -> emiss z <> NaN) ->
  get_min_dt_cool c procs = fold_right xmin PInf (map (set_cooling_time c) (concat procs)).
Proof. exact output_ok. Qed.
Print Assumptions C115_output_partial.
(** but not with a tabulated equation of state around a black hole, where the atmosphere
    has a cooling time although it makes no photons. *)
Theorem C115_output_refuted : exists c z d, 0 < T_unit c /\ set_cooling_time c z = Fin d /\ get_min_dt_cool c [[z]] = PInf.
Proof. exact output_refuted. Qed.
Print Assumptions C115_output_refuted.
(** Oscillations are switched on exactly if in some zone of some process the time of an
    oscillation, at the frequency given by the number density, is no longer than the step. *)
Theorem C115_oscillations : forall NUFERM T dt zs others, 0 < NUFERM -> 0 < T -> 0 < dt ->
  oscillations_active NUFERM T dt zs others = true <->
  1 <= / 10 ^ 20 * T * dt \/ exists p n, In p (zs :: others) /\ In n p /\ 1 <= (NUFERM * n + / 10 ^ 20) * T * dt.
Proof. exact active_ok. Qed.
Print Assumptions C115_oscillations.
(** Two processes with a zone each, one outside the region that radiates. *)
Example C115_nonvacuous : let c := Cfg 0 1 false false 0 1 1 in let z := Zone (1 / 2) 1 1 1 (Fin 1) in let w := Zone 2 1 1 1 (Fin 5) in
  emits c z = true /\ emits c w = false /\ / 10 ^ 20 * T_unit c * (Rabs 1 + / 10 ^ 20) <= 1 / 2 * (Rabs (uu z * U_unit c) + / 10 ^ 20) /\
  (exists d, next_dt c (1 / 2) (1 / 2) 10 100 0 1 [[z]; [w]] = d /\ d * T_unit c * Rabs 1 <= 1 / 2 * (Rabs (uu z * U_unit c) + / 10 ^ 20)).
Proof. exact cool_example. Qed.
