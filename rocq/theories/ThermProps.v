(** Property theorems C98 (cross-sections averaged over thermal scatterers). *)
From Coq Require Import Reals Bool ZArith Lia Lra.
From Verif Require Import RLib ScatModel ScatSpec ThermModel ThermSpec ThermLight.
Open Scope R_scope.

(** Light: the double loop ends and gives the average of the boosted Klein-Nishina
    cross-section over the thermal distribution and over all directions; it is positive, at
    most the Thomson value, and falls short of it at most in proportion to the energy.  K2 is
    the Bessel function of the library, of which only the sign is used. *)
Theorem C98_light : forall K2, (forall x, 0 < x -> 0 < K2 x) -> forall w th, 0 <= w -> / 10 ^ 3 <= th -> forall fuel, (240 < fuel)%nat ->
  exists c, total_cross_num_light K2 fuel w th = Some c /\
    c = over_energy K2 th (fun g => over_angle (fun mu => hc_klein_nishina (w * g * (1 - mu * velocity g)) * (1 - mu * velocity g))) /\
    0 < c <= over_energy K2 th (fun _ => 1) /\ (1 - 4 * w * (1 + 12 * th)) * over_energy K2 th (fun _ => 1) <= c.
Proof. exact light_full. Qed.
Print Assumptions C98_light.
(** So at the temperatures of the table the shortcut to the Thomson value is right to half a
    percent. *)
Theorem C98_thomson : forall K2, (forall x, 0 < x -> 0 < K2 x) -> forall w th, 0 <= w -> / 10 ^ 3 <= th -> forall fuel, (240 < fuel)%nat -> w * th < / 10 ^ 6 ->
  exists c, total_cross_num_light K2 fuel w th = Some c /\ (1 - 5 / 1000) * over_energy K2 th (fun _ => 1) <= c <= over_energy K2 th (fun _ => 1).
Proof. exact thomson_limit. Qed.
Print Assumptions C98_thomson.
(** Below them it is not: cold scatterers are given the Thomson cross-section for light of a
    hundred rest energies, twenty times too much. *)
Theorem C98_cold_refuted : exists w th, 0 < th < / 10 ^ 3 /\
  (forall K2 fuel MAXW THOMSON table, total_cross_lkup_light K2 fuel MAXW THOMSON table w th = Some THOMSON) /\ kn_total w < / 20.
Proof. exact cold_refuted. Qed.
Print Assumptions C98_cold_refuted.
(** Neutrinos whose energy stays below the largest one in the frame of every scatterer: the
    average of the quadratic law is the square of the energy times the average over the
    distribution of gamma^2 (1 + v^2), but for 1/1600 of the second term. *)
Theorem C98_neutrino : forall K2, (forall x, 0 < x -> 0 < K2 x) -> forall fuel wmax w th, (240 < fuel)%nat -> 0 <= w -> 0 < th -> 2 * w * (1 + 12 * th) <= wmax ->
  total_cross_num_nu K2 fuel wmax w th = Some (w ^ 2 * over_energy K2 th (fun g => g ^ 2 + 1599 / 1600 * (g ^ 2 - 1))).
Proof. exact nu_avg. Qed.
Print Assumptions C98_neutrino.
(** Lookup of light with any full table whose entries are between a and b: it never falls back
    on the integral and never leaves the table; each of the three regimes is as stated. *)
Theorem C98_lookup_light : forall K2 fuel MAXW THOMSON table a b w th, 2 / 10 ^ 16 < MAXW -> 0 < THOMSON -> 0 <= w ->
  (forall i j, (0 <= i <= NW)%Z -> (0 <= j <= NT)%Z -> exists v, table i j = Some v /\ a <= v <= b) ->
  exists c, total_cross_lkup_light K2 fuel MAXW THOMSON table w th = Some c /\ 0 < c /\
    (w * th < / 10 ^ 6 -> c = THOMSON) /\
    (/ 10 ^ 6 <= w * th -> th < / 10 ^ 3 -> c = kn_total w * THOMSON) /\
    (/ 10 ^ 6 <= w * th -> / 10 ^ 3 <= th -> THOMSON * Rpower 10 a <= c <= THOMSON * Rpower 10 b).
Proof. exact lkup_light. Qed.
Print Assumptions C98_lookup_light.
(** The same for neutrinos and every target. *)
Theorem C98_lookup_neutrino : forall K2 fuel MAXW wmax table a b w th t A Z, 2 / 10 ^ 16 < MAXW -> 0 <= w -> 0 <= wmax ->
  (forall i j, (0 <= i <= NW)%Z -> (0 <= j <= NT)%Z -> exists v, table i j = Some v /\ a <= v <= b) ->
  exists c s, total_cross_lkup_nu K2 fuel MAXW wmax table w th t A Z = Some c /\ c = nu_cross_factor s t A Z /\ 0 <= c /\
    (th < / 10 ^ 3 -> s = Rmin w wmax ^ 2) /\ (/ 10 ^ 3 <= th -> Rpower 10 a <= s <= Rpower 10 b).
Proof. exact lkup_nu. Qed.
Print Assumptions C98_lookup_neutrino.
Example C98_nonvacuous : (forall x, 0 < x -> 0 < / x) /\ / 10 ^ 3 <= 1 / 10 /\ 2 * (1 / 100) * (1 + 12 * (1 / 10)) <= 1 /\ 2 / 10 ^ 16 < 8 /\
  (forall i j, (0 <= i <= NW)%Z -> (0 <= j <= NT)%Z -> exists v, (fun i j => Some (IZR (i + j))) i j = Some v /\ 0 <= v <= IZR (NW + NT)).
Proof.
  split; [exact Rinv_0_lt_compat|]. split; [lra|]. split; [lra|]. split; [lra|]. intros i j I J. eexists. split; [reflexivity|]. split; apply IZR_le; lia.
Qed.
