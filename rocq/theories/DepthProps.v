(** C107, C108: units, optical depths and the number of superphotons. *)
From Coq Require Import Reals Bool ZArith Lia Lra.
From Coquelicot Require Import Coquelicot.
From Verif Require Import RLib GeomModel GeomSpec NullProofs ZoneModel ZoneSpec ZoneProofs DepthModel DepthProofs.
From Verif Require EmitModel.
Open Scope R_scope.

(** C107.  Absorption: the path of the segment is K dt / K^0, of duration dt; the optical depth is the absorption coefficient at the
    frequency in the fluid frame, alpha / nu, times the length in cm the fluid sees. *)
Theorem C107_absorption : forall HPL ME CL L, 0 < HPL -> 0 < ME -> 0 < CL -> forall G alpha beta, spacetime G alpha beta -> forall K u,
  inner G K K = 0 -> 0 < K 0%nat -> inner G u u = -1 -> 0 < u 0%nat -> forall a dt, 0 <= dt ->
  let nu := - inner G K u * (ME * CL * CL) / HPL in let d := fun mu => K mu * (dt / K 0%nat) in
  0 < nu /\ d 0%nat = dt /\ dtau_abs HPL ME CL L a dt K (lower K G) u = (a nu / nu) * (L * sqrt (inner G (rest_part G u d) (rest_part G u d))).
Proof.
  intros HPL ME CL L PH PM PC G alpha beta ST K u NK K0 NU U0 a dt T. cbv zeta. rewrite <- (nu_val HPL ME CL PH G alpha beta ST K u).
  destruct (depth_abs HPL ME CL L PH PM PC G alpha beta ST K u NK K0 NU U0 a dt T) as [A B]. repeat split; [|exact A|exact B].
  exact (nu_pos HPL ME CL PH PM PC G alpha beta ST K u NK K0 NU U0).
Qed.
Print Assumptions C107_absorption.
(** Scattering: number density times cross section, at the energy in the fluid frame, times that length. *)
Theorem C107_scattering : forall HPL ME CL L, 0 < HPL -> 0 < ME -> 0 < CL -> forall G alpha beta, spacetime G alpha beta -> forall K u,
  inner G K K = 0 -> 0 < K 0%nat -> inner G u u = -1 -> 0 < u 0%nat -> forall ne s dt, 0 <= dt -> let d := fun mu => K mu * (dt / K 0%nat) in
  dtau_scatt HPL ME CL L ne s dt K (lower K G) u = ne * s (- inner G K u) * (L * sqrt (inner G (rest_part G u d) (rest_part G u d))).
Proof. exact depth_scatt. Qed.
Print Assumptions C107_scattering.
Example C107_depth_nonvacuous : let G := drift (1/2) in let K := vec4 1 (1/2) 0 0 in let u := vec4 1 (-1/2) 0 0 in
  spacetime G 1 (drift_beta (1/2)) /\ inner G K K = 0 /\ 0 < K 0%nat /\ inner G u u = -1 /\ 0 < u 0%nat /\ - inner G K u = 1.
Proof. cbv zeta. split; [exact (drift_st (1/2))|]. unfold inner, sigma4, drift, vec4. repeat split; try field; lra. Qed.
(** The units: mass, length, time and energy fit together; a magnetic field b has the energy density b^2/2 in the code's unit; a
    superphoton of weight w and energy E in units of m_e c^2 has the energy w E m_e c^2 in erg; matter is neutral hydrogen. *)
Theorem C107_units : forall GNEWT CL MP ME mks Mbh L_par M_unit, 0 < GNEWT -> 0 < CL -> 0 < MP -> 0 < ME -> 0 < Mbh -> 0 < L_par -> 0 < M_unit ->
  let v := set_units GNEWT CL MP ME mks Mbh L_par M_unit in
  0 < L_unit v /\ CL * T_unit v = L_unit v /\ (mks = true -> L_unit v * CL ^ 2 = GNEWT * Mbh) /\ RHO_unit v * L_unit v ^ 3 = M_unit /\ U_unit v * L_unit v ^ 3 = M_unit * CL ^ 2 /\
  (forall b, (b * B_unit v) ^ 2 / (8 * PI) = b ^ 2 / 2 * U_unit v) /\ (forall w E, kphys_to_num v * w * E * (U_unit v * L_unit v ^ 3) = w * E * (ME * CL ^ 2)) /\
  (forall rho, rho * Ne_unit v * (MP + ME) = rho * RHO_unit v).
Proof.
  intros GNEWT CL MP ME m Mbh L_par M_unit PG PC PP PM PB PL PU v. assert (L0 : 0 < L_unit v).
  { unfold v, set_units. cbn [L_unit]. destruct m; [|exact PL]. apply Rdiv_lt_0_compat; apply Rmult_lt_0_compat; assumption. }
  unfold v, set_units in *. cbn [L_unit T_unit RHO_unit U_unit B_unit Ne_unit kphys_to_num] in *. set (L := if m then GNEWT * Mbh / (CL * CL) else L_par) in *.
  assert (LP : 0 < L ^ 3) by (apply pow_lt, L0). split; [exact L0|]. split; [field; lra|]. split; [intros ->; unfold L; field; lra|]. split; [field; lra|]. split; [field; lra|]. split.
  - intros b. assert (PI0 := PI_RGT_0). assert (SQ : sqrt (4 * PI * (M_unit * / L ^ 3)) * sqrt (4 * PI * (M_unit * / L ^ 3)) = 4 * PI * (M_unit * / L ^ 3)).
    { apply sqrt_sqrt. apply Rmult_le_pos; [lra|]. apply Rmult_le_pos; [lra|]. left. apply Rinv_0_lt_compat, LP. }
    replace ((b * (CL * sqrt (4 * PI * (M_unit * / L ^ 3)))) ^ 2) with (b ^ 2 * CL ^ 2 * (sqrt (4 * PI * (M_unit * / L ^ 3)) * sqrt (4 * PI * (M_unit * / L ^ 3)))) by ring. rewrite SQ. field. lra.
  - split; [intros w E; field; lra|]. intros rho. field. lra.
Qed.
Print Assumptions C107_units.
Example C107_units_nonvacuous : let v := set_units 1 2 3 1 true 8 5 16 in L_unit v = 2 /\ T_unit v = 1 /\ RHO_unit v = 2 /\ U_unit v = 8.
Proof. unfold set_units. cbn. repeat split; field. Qed.

(** C108.  Whatever the weights, the expected energy of the superphotons made in a zone, counted over the threads, is the emissivity
    integrated over the frequencies times volume and time. *)
Theorem C108_energy : forall HPL V g dt T n lo hi J w, 0 < HPL -> 0 < n -> 0 < lo -> lo < hi ->
  (forall nu, lo <= nu <= hi -> continuous J nu) -> (forall nu, lo <= nu <= hi -> SMALL <= w nu) ->
  let density x := f J w x / HPL * V * g * (dt * T) / n in
  is_RInt (fun x => n * (density x * (w (exp x) * (HPL * exp x)))) (ln lo) (ln hi) (V * g * (dt * T) * RInt J lo hi) /\
  (ex_RInt (f J w) (ln lo) (ln hi) -> is_RInt density (ln lo) (ln hi) (dnz HPL V g dt T n (ln lo) (ln hi) J w)).
Proof.
  intros HPL V g dt T n lo hi J w PH Pn Plo Phi CJ Pw density. split.
  - exact (energy HPL V g dt T n lo hi J w PH Pn Plo Phi CJ Pw).
  - intros E. exact (density_total HPL V g dt T n lo hi J w PH Pn E).
Qed.
Print Assumptions C108_energy.
Example C108_energy_nonvacuous : (forall nu, 1 <= nu <= 2 -> continuous (fun _ => 3) nu) /\ (forall nu, 1 <= nu <= 2 -> SMALL <= 1 / nu) /\ RInt (fun _ => 3) 1 2 = 3.
Proof.
  split; [intros; apply continuous_const|]. split.
  - intros nu H. unfold SMALL. unfold Rdiv. rewrite Rmult_1_l. apply Rinv_le_contravar; [lra|]. apply Rle_trans with (1 := proj2 H). pose proof (pow_R1_Rle 10 19 ltac:(lra)) as P. change (10 ^ 20) with (10 * 10 ^ 19). lra.
  - rewrite RInt_const. unfold scal. cbn. unfold mult. cbn. ring.
Qed.
(** The number of pairs has the expected number as its mean over the uniform draw. *)
Theorem C108_rounding : forall d, 0 <= d < 2147483647 -> is_RInt (fun x => match EmitModel.number_of_pairs d x with Some n => IZR n | None => 0 end) 0 1 d.
Proof. exact rounding. Qed.
Print Assumptions C108_rounding.
Example C108_rounding_nonvacuous : 0 <= 5 / 2 < 2147483647. Proof. lra. Qed.
(** A zone that emits has had its microphysics computed in this step, as long as no zone leaves the atmosphere in the half step and
    GAMMA_FALLBACK is off. *)
Theorem C108_fresh : forall o start stop rho0 dx1 x1 P Prad, 0 <= dx1 -> emits o start stop rho0 x1 Prad = true -> (table o = true -> gamma_fallback o = false) ->
  (ATM P < ATM_THRESH -> ATM Prad < ATM_THRESH) -> computed o stop dx1 x1 P = true.
Proof. exact fresh. Qed.
Print Assumptions C108_fresh.
(** The marker is read in two states: a zone leaving the atmosphere in the half step emits with what was computed in an earlier step,
    or never. *)
Theorem C108_fresh_refuted : exists o start stop rho0 dx1 x1 P Prad, gamma_fallback o = false /\ 0 < dx1 /\ emits o start stop rho0 x1 Prad = true /\ computed o stop dx1 x1 P = false.
Proof.
  exists (mko true false true), 0, 2, 0, 1, 1, (mkr 1 1 0), (mkr 1 1 1). unfold emits, computed, polytrope_fallback, ATM_THRESH. cbn [table gamma_fallback mks RHO UU ATM]. cbn [negb andb orb].
  assert (S : SMALL <= 1). { unfold SMALL. rewrite <- Rinv_1. apply Rinv_le_contravar; [lra|]. apply pow_R1_Rle. lra. }
  split; [reflexivity|]. split; [lra|]. rewrite !(Rltb_false) by lra. rewrite Rltb_true by lra. split; reflexivity.
Qed.
Print Assumptions C108_fresh_refuted.
(** With GAMMA_FALLBACK the whole atmosphere does. *)
Theorem C108_fallback_refuted : exists o start stop rho0 dx1 x1 P, 0 < dx1 /\ emits o start stop rho0 x1 P = true /\ computed o stop dx1 x1 P = false.
Proof.
  exists (mko true true true), 0, 2, 0, 1, 1, (mkr 1 1 0). unfold emits, computed, polytrope_fallback, ATM_THRESH. cbn [table gamma_fallback mks RHO UU ATM]. cbn [negb andb orb].
  split; [lra|]. rewrite !(Rltb_false) by lra. rewrite Rltb_true by lra. split; reflexivity.
Qed.
Print Assumptions C108_fallback_refuted.
Example C108_fresh_nonvacuous : emits (mko true false true) 0 2 0 1 (mkr 1 1 1) = true.
Proof.
  assert (S : SMALL <= 1). { unfold SMALL. rewrite <- Rinv_1. apply Rinv_le_contravar; [lra|]. apply pow_R1_Rle. lra. }
  unfold emits, polytrope_fallback, ATM_THRESH. cbn [table gamma_fallback mks RHO UU ATM]. cbn [negb andb orb]. rewrite !Rltb_false by lra. reflexivity.
Qed.
