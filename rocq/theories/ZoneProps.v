(** C103, C104: the fluid and the scatterers as the radiation sees them. *)
From Coq Require Import Reals Bool Lia Lra.
From Verif Require Import RLib FluxModel GeomModel GeomSpec GeomProofs SpaceProofs NullProofs ZoneModel ZoneSpec ZoneProofs.
Open Scope R_scope.

(** C103.  The radiation's own computation of the four-velocity gives that of the fluid solver. *)
Theorem C103_velocity : forall G alpha beta, spacetime G alpha beta -> forall bu V B, let gcon := fst (gcon_func G) in
  exists u, ucon_calc G gcon (lapse gcon) V = Some u /\ same4 (zUcon (fluid_zone bu G gcon V B)) u.
Proof. exact (fun G alpha beta ST bu V B => zone_vel G alpha beta ST V). Qed.
Print Assumptions C103_velocity.
Theorem C103_unit : forall G alpha beta, spacetime G alpha beta -> forall bu V B, let u := zUcon (fluid_zone bu G (fst (gcon_func G)) V B) in
  inner G u u = -1 /\ 0 < u 0%nat.
Proof. exact (fun G alpha beta ST bu V B => zone_unit G alpha beta ST V). Qed.
Print Assumptions C103_unit.
(** The field is that of the fluid solver in the other unit, orthogonal to the velocity, and B its length. *)
Theorem C103_field : forall G alpha beta, spacetime G alpha beta -> forall V B bu, let z := fluid_zone bu G (fst (gcon_func G)) V B in
  let u := zUcon z in let b := bcon B u (lower u G) in
  same4 (zBcon z) (fun i => bu * b i) /\ inner G (zBcon z) u = 0 /\ zB z = Rabs bu * sqrt (inner G b b) /\ 0 <= inner G b b.
Proof. exact zone_field. Qed.
Print Assumptions C103_field.
(** Every superphoton has a positive frequency in the fluid frame: its energy there over h. *)
Theorem C103_frequency : forall G alpha beta, spacetime G alpha beta -> forall bu V B ME CL HPL K, 0 < ME -> 0 < CL -> 0 < HPL ->
  inner G K K = 0 -> 0 < K 0%nat -> let z := fluid_zone bu G (fst (gcon_func G)) V B in
  get_fluid_nu ME CL HPL (lower K G) (zUcon z) = - inner G K (zUcon z) * (ME * CL ^ 2) / HPL /\ 0 < get_fluid_nu ME CL HPL (lower K G) (zUcon z).
Proof. exact zone_nu. Qed.
Print Assumptions C103_frequency.
(** The angle returned is the one between wave vector and field in the rest frame of the fluid; the repair of cosines beyond 1 is
    never needed. *)
Theorem C103_angle : forall G alpha beta, spacetime G alpha beta -> forall bu V B K, inner G K K = 0 -> 0 < K 0%nat ->
  let z := fluid_zone bu G (fst (gcon_func G)) V B in zB z <> 0 ->
  rest_angle G (zUcon z) K (zBcon z) (get_bk_angle K (zUcov z) (zBcov z) (zB z)).
Proof. exact zone_angle. Qed.
Print Assumptions C103_angle.
(** Strongly magnetised zones are made cold; elsewhere the temperature is capped. *)
Theorem C103_cut : forall G alpha beta, spacetime G alpha beta -> forall bu V B SMALL Ne_unit Tu tmax smax rho u, 0 < bu -> 0 < Ne_unit -> 0 < rho ->
  let z := fluid_zone bu G (fst (gcon_func G)) V B in let b := bcon B (zUcon z) (lower (zUcon z) G) in
  zone_Thetae SMALL bu Ne_unit Tu tmax smax rho u (zB z) = if Rltb smax (inner G b b / rho) then SMALL else Rmin (u / rho * Tu) tmax.
Proof. exact zone_cut. Qed.
Print Assumptions C103_cut.
Example C103_nonvacuous : let G := drift (1/2) in let z := fluid_zone 2 G (fst (gcon_func G)) (vec4 0 0 (3/4) 0) (vec4 0 1 0 0) in
  spacetime G 1 (drift_beta (1/2)) /\ inner G (vec4 1 (1/2) 0 0) (vec4 1 (1/2) 0 0) = 0 /\ zUcon z 0%nat = 5/4 /\ 0 < zB z.
Proof.
  cbv zeta. pose proof (drift_st (1/2)) as ST. split; [exact ST|]. split; [unfold inner, sigma4, drift, vec4; field|].
  destruct (zone_vel _ _ _ ST (vec4 0 0 (3/4) 0)) as (u & E & S).
  assert (SQ : sqrt (1 + spatial (drift (1/2)) (vec4 0 0 (3/4) 0) (vec4 0 0 (3/4) 0)) = 5/4).
  { rewrite drift_spatial. unfold vec4. replace (1 + _) with (5/4 * (5/4)) by field. apply sqrt_square. lra. }
  assert (U0 : u 0%nat = 5/4). { unfold ucon_calc in E. rewrite (gamma_defined _ _ _ ST), (lapse_alpha _ _ _ ST), SQ in E. injection E as <-. cbn [Nat.eqb]. field. }
  split; [cbn [fluid_zone zUcon]; rewrite S by lia; exact U0|].
  pose proof (zone_field _ _ _ ST (vec4 0 0 (3/4) 0) (vec4 0 1 0 0) 2) as F. cbv zeta in F. destruct F as (_ & _ & -> & _). rewrite Rabs_pos_eq by lra. apply Rmult_lt_0_compat; [lra|]. apply sqrt_lt_R0.
  destruct (zone_unit _ _ _ ST (vec4 0 0 (3/4) 0)) as (N & P). set (w := zone_ucon _ _ _) in *.
  pose proof (bcon_ok _ _ _ ST (vec4 0 1 0 0) w N ltac:(lra)) as BO. cbv zeta in BO. destruct BO as (_ & BB & _). rewrite BB. apply Rdiv_lt_0_compat; [|apply Rmult_lt_0_compat; exact P].
  match goal with |- 0 < ?a + ?b * ?b => assert (A1 : a = 1) by (unfold inner, sigma4, drift, vec4; cbn [Nat.eqb]; field); rewrite A1; pose proof (Rle_0_sqr b) as SB; unfold Rsqr in SB end. lra.
Qed.

(** C104.  Free nucleons are counted by their mass. *)
Theorem C104_nucleons : forall MP MN rho Xi Abar e, 0 < MP <= MN -> 0 <= rho -> (forall k, 0 <= Xi k) ->
  (exists n, scatterer_number_density MP MN rho Xi Abar e TYPE_P = Some n /\ weighs n 1 MP MN (rho * Xi 0%nat)) /\
  (exists n, scatterer_number_density MP MN rho Xi Abar e TYPE_N = Some n /\ weighs n 1 MP MN (rho * Xi 1%nat)).
Proof. exact nucleons. Qed.
Print Assumptions C104_nucleons.
(** Of nuclei and alpha particles half are counted. *)
Theorem C104_half : forall MP MN rho Xi Abar e, 0 < MP <= MN -> 0 <= rho -> (forall k, 0 <= Xi k) -> 0 < Abar ->
  (exists n, scatterer_number_density MP MN rho Xi Abar e TYPE_A = Some n /\ weighs (2 * n) Abar MP MN (rho * Xi 2%nat)) /\
  (exists n, scatterer_number_density MP MN rho Xi Abar e TYPE_ALPHA = Some n /\ weighs (2 * n) 4 MP MN (rho * Xi 3%nat)).
Proof. exact nuclei_half. Qed.
Print Assumptions C104_half.
(** So their number does not make up the mass. *)
Theorem C104_nuclei_refuted : exists MP MN rho Xi Abar e n m, 0 < MP <= MN /\ MN <= 101 / 100 * MP /\ 0 < rho /\ (forall k, 0 <= Xi k) /\ 0 < Abar /\
  scatterer_number_density MP MN rho Xi Abar e TYPE_ALPHA = Some n /\ ~ weighs n 4 MP MN (rho * Xi 3%nat) /\
  scatterer_number_density MP MN rho Xi Abar e TYPE_A = Some m /\ ~ weighs m Abar MP MN (rho * Xi 2%nat).
Proof.
  exists (167262171 / 10 ^ 32), (167492728 / 10 ^ 32), 1, (fun _ => 1 / 4), 56, true. do 2 eexists. split; [lra|]. split; [lra|]. split; [lra|]. split; [intros; lra|]. split; [lra|].
  split; [reflexivity|]. split; [|split; [reflexivity|]]; unfold weighs; intros [_ H]; apply (Rle_not_lt _ _ H); lra.
Qed.
Print Assumptions C104_nuclei_refuted.
(** Density and temperature of a scatterer go by the same mass, except for electrons. *)
Theorem C104_same_mass : forall MP MN ME CL T rho Xi Abar e i n th, 0 < MP -> 0 < MN -> 0 < CL -> 0 < Abar -> i <> TYPE_E ->
  scatterer_number_density MP MN rho Xi Abar e i = Some n -> scatterer_dimensionless_temp MP MN ME CL T Abar e i = Some th ->
  n * T = th * CL ^ 2 * (rho * match i with TYPE_P | TYPE_E => Xi 0%nat | TYPE_N => Xi 1%nat | TYPE_A => Xi 2%nat | TYPE_ALPHA => Xi 3%nat end).
Proof. exact temp_mass. Qed.
Print Assumptions C104_same_mass.
(** The program stops exactly for heavy neutrinos on electrons. *)
Theorem C104_stops : forall MP MN ME CL T rho Xi Abar e i,
  (scatterer_number_density MP MN rho Xi Abar e i = None <-> i = TYPE_E /\ e = false) /\
  (scatterer_dimensionless_temp MP MN ME CL T Abar e i = None <-> i = TYPE_E /\ e = false).
Proof. exact stops. Qed.
Print Assumptions C104_stops.
Example C104_nonvacuous : scatterer_number_density 1 2 12 (fun _ => 1 / 4) 5 true TYPE_N = Some (3 / 2) /\ scatterer_dimensionless_temp 1 2 1 1 6 5 true TYPE_N = Some 3.
Proof. split; cbn; f_equal; field. Qed.
