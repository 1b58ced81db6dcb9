(** C57 (ideal-gas equation of state). *)
From Coq Require Import Reals Lra.
From Verif Require Import RLib EosGModel EosGSpec EosGProofs EosGMore.
Open Scope R_scope.

(** The pressure from the enthalpy is the pressure from the energy. *)
Theorem C57_pressure_w : forall gam rho u, gam <> 0 -> pressure_rho0_w gam rho (rho + u + pressure_rho0_u gam rho u) = pressure_rho0_u gam rho u.
Proof. intros gam rho u G. rewrite <- enthalpy_is. exact (press_w gam rho u G). Qed.
Print Assumptions C57_pressure_w.
(** Energy to pressure and pressure to energy undo each other. *)
Theorem C57_inverse : forall gam, gam <> 1 ->
  (forall rho u, u_press gam (pressure_rho0_u gam rho u) = u) /\ (forall rho p, pressure_rho0_u gam rho (u_press gam p) = p).
Proof. intros gam G. exact (conj (fun rho u => u_of_press gam rho u G) (fun rho p => press_of_u gam rho p G)). Qed.
Print Assumptions C57_inverse.
Theorem C57_temperature : forall gam rho u, rho <> 0 -> pressure_rho0_u gam rho u = rho * temp gam rho u.
Proof. exact press_temp. Qed.
Print Assumptions C57_temperature.
Theorem C57_enthalpy : forall gam rho u, enthalpy_rho0_u gam rho u = rho + u + pressure_rho0_u gam rho u.
Proof. exact enthalpy_is. Qed.
Print Assumptions C57_enthalpy.
(** The sound speed is real and below that of light. *)
Theorem C57_sound_bounds : forall gam, 1 < gam -> forall rho u, gam <= 2 -> 0 < rho -> 0 <= u -> 0 <= sound_speed_rho0_u gam rho u < 1.
Proof. exact sound_sub. Qed.
Print Assumptions C57_sound_bounds.
(** Its square is dp/de along an adiabat: a solution of the first law without heat. *)
Theorem C57_sound_is_derivative : forall gam, 1 < gam -> forall lo hi u rho, 0 <= lo -> adiabat (pressure_rho0_u gam) lo hi u -> lo < rho < hi -> 0 <= u rho ->
  exists dp de, derivable_pt_lim (fun r => pressure_rho0_u gam r (u r)) rho dp /\ derivable_pt_lim (fun r => r + u r) rho de /\ 0 < de /\
    dp = sound_speed_rho0_u gam rho (u rho) ^ 2 * de.
Proof. exact sound_is. Qed.
Print Assumptions C57_sound_is_derivative.
(** The entropy is constant along every adiabat. *)
Theorem C57_entropy : forall gam lo hi u, 0 <= lo -> adiabat (pressure_rho0_u gam) lo hi u -> constant_on lo hi (fun rho => entropy_rho0_u gam rho (u rho)).
Proof. exact adiabat_const. Qed.
Print Assumptions C57_entropy.
(** and is pressure over density to the power gam. *)
Theorem C57_entropy_is : forall gam rho u, 0 < rho -> entropy_rho0_u gam rho u * Rpower rho gam = pressure_rho0_u gam rho u.
Proof. exact entropy_is. Qed.
Print Assumptions C57_entropy_is.
(** The polytrope: pressure K rho^Gam, enthalpy and first law (for u = p / (Gam - 1)), with the
    density taken larger by SMALL. *)
Theorem C57_poly : forall K Gam rho, 1 < Gam -> 0 <= rho ->
  poly_pressure rho K Gam = K * Rpower (rho + / 10 ^ 20) Gam /\
  (forall u, poly_enthalpy rho u K Gam = rho + u + poly_pressure rho K Gam) /\
  let u r := poly_pressure r K Gam / (Gam - 1) in
  derivable_pt_lim u rho ((u rho + poly_pressure rho K Gam) / (rho + / 10 ^ 20)).
Proof. intros K Gam rho G P. exact (conj (poly_at K Gam rho P) (conj (fun _ => eq_refl) (poly_first_law K Gam rho G P))). Qed.
Print Assumptions C57_poly.
(** The polytrope's sound speed takes u for u / rho and can exceed that of light although the
    true one (Gam p / (rho + u + p)) does not. *)
Theorem C57_poly_refuted : exists rho u K Gam, 0 < rho /\ 0 < K /\ 1 < Gam <= 2 /\ u = K * Rpower rho Gam / (Gam - 1) /\
  Gam * (K * Rpower rho Gam) / (rho + u + K * Rpower rho Gam) < 1 /\ 1 < poly_sound_speed rho u K Gam.
Proof. exact poly_too_fast. Qed.
Print Assumptions C57_poly_refuted.
Example C57_nonvacuous : adiabat (pressure_rho0_u 2) 0 10 (fun rho => rho ^ 2) /\ sound_speed_rho0_u 2 1 1 ^ 2 = 2 / 3.
Proof. exact adiabat_example. Qed.
