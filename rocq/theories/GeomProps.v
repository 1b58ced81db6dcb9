(** Property theorems C39-C43, C67, C68, C71-C73 (metrics, velocities, frames). *)
From Coq Require Import Reals Lia Lra.
From Verif Require Import RLib FluxModel GeomModel GeomSpec GeomProofs SpaceProofs FrameProofs NullProofs.
Open Scope R_scope.

(** C39.  The inverse computed from a metric with non-zero determinant is a
    two-sided inverse; the square of the returned root is the determinant's
    absolute value. *)
Theorem C39_inverse : forall g, det 4 g <> 0 ->
  inverse g (fst (gcon_func g)) /\ inverse (fst (gcon_func g)) g /\
  0 <= snd (gcon_func g) /\ snd (gcon_func g) * snd (gcon_func g) = Rabs (det 4 g).
Proof.
  exact (fun g H => let I := gcon_inverse g (eq_ind_r (fun d => d <> 0) H (det_spec g)) in
    conj (proj1 I) (conj (proj2 I) (gdet_spec g))).
Qed.
Print Assumptions C39_inverse.
(** Raising undoes lowering and lowering undoes raising. *)
Theorem C39_raise_lower : forall g u, det 4 g <> 0 ->
  same4 (raise (lower u g) (fst (gcon_func g))) u /\ same4 (lower (raise u (fst (gcon_func g))) g) u.
Proof.
  exact (fun g u H => let I := gcon_inverse g (eq_ind_r (fun d => d <> 0) H (det_spec g)) in
    conj (raise_lower g (fst (gcon_func g)) u (proj2 I)) (raise_lower (fst (gcon_func g)) g u (proj1 I))).
Qed.
Print Assumptions C39_raise_lower.
(** The closed-form Boyer-Lindquist metrics: spin [a], off the horizon, the ring
    and the axis (where the code replaces the sine by 1e-20). *)
Theorem C39_boyer_lindquist : forall a r th, r <> 0 -> r * r - 2 * r + a * a <> 0 ->
  r * r + a * a * (cos th * cos th) <> 0 -> / 10 ^ 20 <= Rabs (sin th) ->
  inverse (bl_gcov a r th) (bl_gcon a r th).
Proof. exact bl_inverse. Qed.
Print Assumptions C39_boyer_lindquist.
Theorem C39_boyer_lindquist_det : forall a r th, r <> 0 -> r * r - 2 * r + a * a <> 0 ->
  r * r + a * a * (cos th * cos th) <> 0 -> bl_gdet a r th * bl_gdet a r th = - det 4 (bl_gcov a r th).
Proof. exact (fun a r th A B C => eq_trans (bl_det a r th A B C) (f_equal Ropp (det_spec (bl_gcov a r th)))). Qed.
Print Assumptions C39_boyer_lindquist_det.
Example C39_nonvacuous : det 4 (drift (1/2)) = -1 /\
  (let a := 1/2 in let r := 4 in let th := PI / 2 in r * r - 2 * r + a * a <> 0 /\
   r * r + a * a * (cos th * cos th) <> 0 /\ / 10 ^ 20 <= Rabs (sin th)).
Proof.
  split.
  - rewrite <- det_spec. unfold determinant, MINOR, flat, drift.
    cbn [Nat.mul Nat.add Nat.div Nat.modulo Nat.divmod fst snd Nat.sub]. field.
  - cbv zeta. rewrite cos_PI2, sin_PI2, Rabs_R1. lra.
Qed.

(** C40.  For every metric in 3+1 form and every primitive velocity the call
    succeeds, the four-velocity is normalised and future directed, with the
    inverse and lapse the code derives from the same metric. *)
Theorem C40_velocity : forall G alpha beta U, spacetime G alpha beta ->
  let gcon := fst (gcon_func G) in
  exists u, ucon_calc G gcon (lapse gcon) U = Some u /\ inner G u u = -1 /\ 0 < u 0%nat.
Proof.
  exact (fun G alpha beta U ST => match ucon_ok G alpha beta ST U with
    ex_intro _ u (conj A (conj B (conj C _))) => ex_intro _ u (conj A (conj B C)) end).
Qed.
Print Assumptions C40_velocity.
(** The lapse the code derives is the metric's. *)
Theorem C40_lapse : forall G alpha beta, spacetime G alpha beta -> lapse (fst (gcon_func G)) = alpha.
Proof. exact lapse_alpha. Qed.
Print Assumptions C40_lapse.
(** The magnetic four-vector is orthogonal to the four-velocity, has the right
    length, and its dual-tensor components are the primitives. *)
Theorem C40_field : forall G alpha beta, spacetime G alpha beta -> forall B u, inner G u u = -1 -> u 0%nat <> 0 ->
  let b := bcon B u (lower u G) in
  let Bv := fun i => if Nat.eqb i 0 then 0 else B i in
  inner G b u = 0 /\
  inner G b b = (inner G Bv Bv + inner G Bv u * inner G Bv u) / (u 0%nat * u 0%nat) /\
  (forall m, (1 <= m < 4)%nat -> b m * u 0%nat - b 0%nat * u m = B m).
Proof. exact bcon_ok. Qed.
Print Assumptions C40_field.
Example C40_nonvacuous : spacetime (drift (1/2)) 1 (drift_beta (1/2)) /\ exists u,
  ucon_calc (drift (1/2)) (fst (gcon_func (drift (1/2)))) (lapse (fst (gcon_func (drift (1/2))))) (vec4 0 0 (3/4) 0) = Some u /\
  u 0%nat = 5/4 /\ u 1%nat = - (5/8) /\ u 2%nat = 3/4.
Proof.
  split; [apply drift_st|]. pose proof (drift_st (1/2)) as ST.
  unfold ucon_calc. rewrite (gamma_defined _ _ _ ST), (lapse_alpha _ _ _ ST). eexists. split; [reflexivity|]. cbn [Nat.eqb].
  rewrite !(gcon_0i _ _ _ ST) by lia. rewrite drift_spatial.
  assert (S : sqrt (1 + (vec4 0 0 (3/4) 0 1%nat * vec4 0 0 (3/4) 0 1%nat + vec4 0 0 (3/4) 0 2%nat * vec4 0 0 (3/4) 0 2%nat +
     vec4 0 0 (3/4) 0 3%nat * vec4 0 0 (3/4) 0 3%nat)) = 5/4).
  { unfold vec4. replace (1 + _) with (5/4 * (5/4)) by field. apply sqrt_square. lra. }
  rewrite S. unfold vec4, drift_beta. lra.
Qed.

(** C41.  The assembled connection is symmetric in its lower indices, and the
    central difference of the metric in direction k is the sum of the two
    lowered coefficients; for every field of symmetric metrics. *)
Theorem C41_symmetric : forall sg gcon X i j k, (forall Y, symmetric (sg Y)) -> (i < 4)%nat -> (j < 4)%nat -> (k < 4)%nat ->
  conn_func sg gcon X i j k = conn_func sg gcon X i k j.
Proof. exact conn_sym. Qed.
Print Assumptions C41_symmetric.
Theorem C41_compatible : forall sg gcon X i j k, (forall Y, symmetric (sg Y)) -> inverse (sg X) gcon ->
  (i < 4)%nat -> (j < 4)%nat -> (k < 4)%nat ->
  (sg (bump X k DELTA) i j - sg (bump X k (- DELTA)) i j) / (2 * DELTA) =
  sigma4 (fun l => sg X j l * conn_func sg gcon X l i k) + sigma4 (fun l => sg X i l * conn_func sg gcon X l j k).
Proof. exact conn_compat. Qed.
Print Assumptions C41_compatible.
(** A metric field with one non-constant component. *)
Example C41_nonvacuous : let sg := fun X : vec => drift (X 1%nat) in
  (forall Y, symmetric (sg Y)) /\ conn_func sg (fst (gcon_func (sg (fun _ => 0)))) (fun _ => 0) 1%nat 0%nat 0%nat = 0 /\
  conn_low sg (fun _ => 0) 0%nat 1%nat 1%nat = 1.
Proof.
  cbv zeta. split; [intros Y; apply (drift_st (Y 1%nat))|]. split.
  - pose proof (drift_st 0) as ST. unfold conn_func, sum4, conn_low. rewrite !dgcov_quotient. unfold drift, bump. cbn [Nat.eqb].
    unfold Rdiv. ring.
  - unfold conn_low. rewrite !dgcov_quotient. unfold drift, bump, DELTA. cbn [Nat.eqb]. field.
Qed.

(** C42.  Whenever the construction does not divide by zero the tetrad is
    orthonormal, its time leg is the four-velocity, and the two frame
    transformations invert each other. *)
Theorem C42_orthonormal : forall G alpha beta, spacetime G alpha beta -> forall U trial Econ Ecov, inner G U U < 0 ->
  make_tetrad G U trial = Some (Econ, Ecov) ->
  forall a b, (a < 4)%nat -> (b < 4)%nat -> inner G (Econ a) (Econ b) = eta a b.
Proof. exact tetrad_ortho. Qed.
Print Assumptions C42_orthonormal.
Theorem C42_roundtrip : forall G alpha beta, spacetime G alpha beta -> forall U trial Econ Ecov K, inner G U U < 0 ->
  make_tetrad G U trial = Some (Econ, Ecov) ->
  same4 (coord_to_tetrad Ecov (tetrad_to_coord Econ K)) K /\ same4 (tetrad_to_coord Econ (coord_to_tetrad Ecov K)) K.
Proof. exact tetrad_roundtrip. Qed.
Print Assumptions C42_roundtrip.
Theorem C42_time_leg : forall G U trial Econ Ecov, inner G U U = -1 -> make_tetrad G U trial = Some (Econ, Ecov) ->
  same4 (Econ 0%nat) U.
Proof. exact tetrad_time. Qed.
Print Assumptions C42_time_leg.
(** It does not divide by zero when the four starting vectors are independent... *)
Theorem C42_defined : forall G alpha beta, spacetime G alpha beta -> forall U trial, inner G U U < 0 ->
  (let '(v0, v1, v2, v3) := start_vectors G U trial in independent v0 v1 v2 v3) -> exists E, make_tetrad G U trial = Some E.
Proof. exact tetrad_defined. Qed.
Print Assumptions C42_defined.
(** ...but the choice of the axis to overwrite can make them dependent: a
    positive definite slice with oblique axes, a fluid at rest, a trial vector
    independent of the other legs it could have been given. *)
Theorem C42_defined_refuted : exists G alpha beta U trial, spacetime G alpha beta /\ inner G U U = -1 /\
  make_tetrad G U trial = None /\ independent U (unit_vec 1) (unit_vec 2) trial.
Proof.
  exact (ex_intro _ oblique (ex_intro _ 1 (ex_intro _ no_shift (ex_intro _ (unit_vec 0) (ex_intro _ oblique_trial
    (conj oblique_st oblique_bad)))))).
Qed.
Print Assumptions C42_defined_refuted.
Example C42_nonvacuous : spacetime (drift (1/2)) 1 (drift_beta (1/2)) /\
  inner (drift (1/2)) (vec4 (5/4) (-5/8) (3/4) 0) (vec4 (5/4) (-5/8) (3/4) 0) < 0 /\
  exists E, make_tetrad (drift (1/2)) (vec4 (5/4) (-5/8) (3/4) 0) (vec4 0 0 1 0) = Some E.
Proof.
  pose proof (drift_st (1/2)) as ST.
  assert (T : inner (drift (1/2)) (vec4 (5/4) (-5/8) (3/4) 0) (vec4 (5/4) (-5/8) (3/4) 0) < 0).
  { unfold inner, sigma4, drift, vec4. lra. }
  split; [exact ST|]. split; [exact T|]. apply (tetrad_defined _ _ _ ST _ _ T).
  pose proof (start_independent (drift (1/2)) (vec4 (5/4) (-5/8) (3/4) 0) (vec4 0 0 1 0) (st_sym _ _ _ ST) ltac:(unfold vec4; lra)) as H.
  assert (X1 : xness (drift (1/2)) (vec4 0 0 1 0) 1 = 0).
  { unfold xness, sum4, drift, vec4. rewrite Rabs_R1, sqrt_1. replace (_ + _ + _ + _) with 0 by field. apply Rabs_R0. }
  assert (X2 : xness (drift (1/2)) (vec4 0 0 1 0) 2 = 1).
  { unfold xness, sum4, drift, vec4. rewrite Rabs_R1, sqrt_1. replace (_ + _ + _ + _) with 1 by field. apply Rabs_R1. }
  assert (X3 : xness (drift (1/2)) (vec4 0 0 1 0) 3 = 0).
  { unfold xness, sum4, drift, vec4. rewrite Rabs_R1, sqrt_1. replace (_ + _ + _ + _) with 0 by field. apply Rabs_R0. }
  assert (SV : start_vectors (drift (1/2)) (vec4 (5/4) (-5/8) (3/4) 0) (vec4 0 0 1 0) =
    (vec4 (5/4) (-5/8) (3/4) 0, unit_vec 1, vec4 0 0 1 0, unit_vec 3)).
  { unfold start_vectors. rewrite X1, X2, X3. rewrite Rltb_true; [|unfold dot2, sum4, drift, vec4; lra].
    rewrite (Rltb_false 1 0), Rleb_true, (Rltb_true 0 1) by lra. reflexivity. }
  rewrite SV in *. apply H.
  - intros E. apply (f_equal (fun v => v 1%nat)) in E. unfold unit_vec, vec4 in E. cbn [Nat.eqb] in E. lra.
  - intros _. unfold vec4. lra.
  - intros E. apply (f_equal (fun v => v 2%nat)) in E. unfold unit_vec, vec4 in E. cbn [Nat.eqb] in E. lra.
Qed.

(** C43.  With negative g_tt and a wave vector whose spatial part is not
    imaginary, the result is null, keeps the spatial part, has non-negative
    time component, and is the largest null time component there is. *)
Theorem C43_null : forall G K, symmetric G -> G 0%nat 0%nat < 0 -> 0 <= spatial G K K ->
  exists N, normalize_null G K = Some N /\ inner G N N = 0 /\ same3 N K /\ 0 <= N 0%nat /\
    (forall M, inner G M M = 0 -> same3 M K -> M 0%nat <= N 0%nat).
Proof. exact null_ok. Qed.
Print Assumptions C43_null.
(** The covariant version works for every 3+1 metric, inside ergoregions too,
    and the wave vector is future directed. *)
Theorem C43_null_cov : forall G alpha beta, spacetime G alpha beta -> forall K, let gcon := fst (gcon_func G) in
  exists N, normalize_null_cov gcon K = Some N /\ inner gcon N N = 0 /\ same3 N K /\
    inner G (raise N gcon) (raise N gcon) = 0 /\ 0 <= raise N gcon 0%nat.
Proof. exact null_cov_ok. Qed.
Print Assumptions C43_null_cov.
(** Without g_tt < 0 (inside the ergoregion) the contravariant version returns
    a vector that is not null: none with those spatial components is. *)
Theorem C43_ergoregion_refuted : exists G alpha beta K N, spacetime G alpha beta /\ normalize_null G K = Some N /\
  inner G N N <> 0 /\ forall M, same3 M K -> inner G M M <> 0.
Proof.
  exact (match ergo_bad with ex_intro _ N H => ex_intro _ (drift 2) (ex_intro _ 1 (ex_intro _ (drift_beta 2)
    (ex_intro _ (vec4 0 0 1 0) (ex_intro _ N (conj (drift_st 2) H))))) end).
Qed.
Print Assumptions C43_ergoregion_refuted.
Example C43_nonvacuous : exists N, normalize_null (drift (1/2)) (vec4 7 1 0 0) = Some N /\ N 0%nat = 2 /\ N 1%nat = 1.
Proof.
  unfold normalize_null. destruct (Reqb_spec (drift (1/2) 0%nat 0%nat) 0) as [E|_]; [unfold drift in E; lra|].
  eexists. split; [reflexivity|]. cbn [Nat.eqb]. unfold sum3, drift, vec4. split; [|reflexivity].
  match goal with |- context [sqrt (Rabs ?x)] => replace x with (2 * 2) by field end.
  rewrite Rabs_right, sqrt_square by lra. field.
Qed.

(** C67.  The limiter leaves a Lorentz factor of at most 50 (exactly the
    smaller of the old one and 50) and only shortens the velocity. *)
Theorem C67_cap : forall G alpha beta, spacetime G alpha beta -> forall U V ok, limit_gamma G U = (V, ok) -> ok = true ->
  (exists f, 0 < f <= 1 /\ forall i, V i = f * U i) /\
  (exists g, mhd_gamma_calc G V = Some g /\ g <= GAMMAMAX /\
     forall g0, mhd_gamma_calc G U = Some g0 -> g = Rmin g0 GAMMAMAX).
Proof.
  exact (fun G alpha beta ST U V ok E T => limit_ok G alpha beta ST U V (eq_trans E (f_equal (pair V) T))).
Qed.
Print Assumptions C67_cap.
(** The Lorentz factor is always computable when the slice is positive
    definite, so the zone is never flagged by it. *)
Theorem C67_gamma_defined : forall G alpha beta, spacetime G alpha beta -> forall U,
  mhd_gamma_calc G U = Some (sqrt (1 + spatial G U U)) /\ snd (limit_gamma G U) = true.
Proof. exact (fun G alpha beta ST U => conj (gamma_defined G alpha beta ST U) (limit_flag G alpha beta ST U)). Qed.
Print Assumptions C67_gamma_defined.
Example C67_nonvacuous : exists V, limit_gamma (drift 0) (vec4 0 0 100 0) = (V, true) /\ V 2%nat < 100.
Proof.
  pose proof (drift_st 0) as ST.
  assert (S : GAMMAMAX < sqrt (1 + spatial (drift 0) (vec4 0 0 100 0) (vec4 0 0 100 0))).
  { rewrite drift_spatial. unfold GAMMAMAX, vec4. apply Rlt_le_trans with (sqrt (100 * 100)); [rewrite sqrt_square; lra|].
    apply sqrt_le_1_alt. lra. }
  unfold limit_gamma. rewrite (gamma_defined _ _ _ ST), (Rltb_true _ _ S). eexists. split; [reflexivity|]. 
  rewrite sqrt_sqrt by (rewrite drift_spatial; unfold vec4; lra). rewrite drift_spatial. unfold GAMMAMAX, vec4.
  match goal with |- _ * sqrt ?x < _ => assert (L : sqrt x < sqrt 1) by (apply sqrt_lt_1_alt; split; lra) end.
  rewrite sqrt_1 in L. lra.
Qed.

(** C68.  Partial: when the rescaled speed is between 1e-7 and 1 the check
    leaves no inflow at either boundary; missing: the two clamped cases, for
    which the claim is false (below).  [ucon1 G U x]: the radial component of
    the four-velocity of U is x. *)
Theorem C68_no_inflow_partial : forall G alpha beta, spacetime G alpha beta -> forall U (type : bool),
  / 10 ^ 13 <= vsq_of G alpha beta U < 1 ->
  exists V x, inflow_check G (fst (gcon_func G)) (lapse (fst (gcon_func G))) U type = Some V /\
    ucon1 G V x /\ (if type then 0 <= x else x <= 0).
Proof. exact inflow_ok. Qed.
Print Assumptions C68_no_inflow_partial.
(** At the inner boundary an outward-pointing shift (as in Kerr-Schild) is
    enough, however large the speed. *)
Theorem C68_inner_partial : forall G alpha beta, spacetime G alpha beta -> forall U, 0 <= beta 1%nat ->
  / 10 ^ 13 <= vsq_of G alpha beta U ->
  exists V x, inflow_check G (fst (gcon_func G)) (lapse (fst (gcon_func G))) U false = Some V /\ ucon1 G V x /\ x <= 0.
Proof. exact inflow_inner. Qed.
Print Assumptions C68_inner_partial.
(** Outer boundary, speed clamped at the ceiling: inflow remains. *)
Theorem C68_outer_refuted : exists G alpha beta U V x, spacetime G alpha beta /\
  inflow_check G (fst (gcon_func G)) (lapse (fst (gcon_func G))) U true = Some V /\ ucon1 G V x /\ x < 0.
Proof.
  exact (match drift_outer_bad with ex_intro _ V (ex_intro _ y H) => ex_intro _ (drift (1/2)) (ex_intro _ 1
    (ex_intro _ (drift_beta (1/2)) (ex_intro _ (vec4 0 0 (12/5) 0) (ex_intro _ V (ex_intro _ y (conj (drift_st (1/2)) H)))))) end).
Qed.
Print Assumptions C68_outer_refuted.
(** Inner boundary, speed clamped from below: outflow into the domain remains. *)
Theorem C68_inner_refuted : exists G alpha beta U V x, spacetime G alpha beta /\
  inflow_check G (fst (gcon_func G)) (lapse (fst (gcon_func G))) U false = Some V /\ ucon1 G V x /\ 0 < x.
Proof.
  exact (match drift_inner_bad with ex_intro _ V (ex_intro _ y H) => ex_intro _ (drift (/ 10 ^ 8)) (ex_intro _ 1
    (ex_intro _ (drift_beta (/ 10 ^ 8)) (ex_intro _ (vec4 0 1 0 0) (ex_intro _ V (ex_intro _ y (conj (drift_st (/ 10 ^ 8)) H)))))) end).
Qed.
Print Assumptions C68_inner_refuted.
Example C68_nonvacuous : spacetime (drift (1/2)) 1 (drift_beta (1/2)) /\
  / 10 ^ 13 <= vsq_of (drift (1/2)) 1 (drift_beta (1/2)) (vec4 0 2 0 0) < 1 /\ exists x, ucon1 (drift (1/2)) (vec4 0 2 0 0) x /\ 0 < x.
Proof.
  pose proof (drift_st (1/2)) as ST. split; [exact ST|]. split.
  - unfold vsq_of. cbv zeta. rewrite drift_spatial. cbn [Nat.eqb]. unfold drift_beta, vec4.
    assert (Z : forall z, 0 / z = 0) by (intros; unfold Rdiv; ring). rewrite !Z. lra.
  - eexists. split; [apply (ucon1_val _ _ _ ST)|]. rewrite drift_spatial. unfold vec4, drift_beta.
    assert (sqrt (1 + (2 * 2 + 0 * 0 + 0 * 0)) <= 3).
    { apply Rle_trans with (sqrt (3 * 3)); [apply sqrt_le_1_alt; lra|rewrite sqrt_square; lra]. } lra.
Qed.

(** C71.  The Kerr-Schild metric is a 3+1 metric for every spin, every positive
    radius and every angle off the axis, with this lapse and shift and
    determinant; a change of spatial coordinates keeps that. *)
Theorem C71_kerr_schild : forall a r th, 0 < r -> sin th <> 0 ->
  let x := 2 * r / (r * r + a * a * cos th * cos th) in
  spacetime (ks_gcov a r th) (sqrt (/ (1 + x))) (fun i => match i with 1%nat => x / (1 + x) | _ => 0 end).
Proof. exact ks_st. Qed.
Print Assumptions C71_kerr_schild.
Theorem C71_determinant : forall a r th, 0 < r -> let rho2 := r * r + a * a * cos th * cos th in
  det 4 (ks_gcov a r th) = - (rho2 * rho2 * (sin th * sin th)).
Proof. exact (fun a r th H => eq_trans (eq_sym (det_spec (ks_gcov a r th))) (ks_det a r th H)). Qed.
Print Assumptions C71_determinant.
Theorem C71_code_coordinates : forall G alpha beta M beta', spacetime G alpha beta -> time_preserving M ->
  same3 (spatial_image M beta') beta -> spacetime (to_code G M) alpha beta'.
Proof. exact code_st. Qed.
Print Assumptions C71_code_coordinates.
(** Hence the volume element the code stores is positive and is the root of
    minus the determinant. *)
Theorem C71_volume : forall G alpha beta, spacetime G alpha beta ->
  0 < snd (gcon_func G) /\ snd (gcon_func G) * snd (gcon_func G) = - det 4 G.
Proof. exact st_gdet. Qed.
Print Assumptions C71_volume.
Example C71_nonvacuous : time_preserving (fun i j => if Nat.eqb i j then (if Nat.eqb i 1 then 3 else 1) else 0) /\
  same3 (spatial_image (fun i j => if Nat.eqb i j then (if Nat.eqb i 1 then 3 else 1) else 0) (vec4 0 (1/6) 0 0)) (drift_beta (1/2)).
Proof.
  split; [split; [reflexivity|split]|].
  - intros [|[|[|[|i]]]] H; try lia; cbn [Nat.eqb]; auto.
  - intros p H. assert (H1 := H 1%nat ltac:(lia)). assert (H2 := H 2%nat ltac:(lia)). assert (H3 := H 3%nat ltac:(lia)).
    unfold spatial_image in *. cbn [Nat.eqb] in *. intros [|[|[|[|i]]]] Hi; try lia; lra.
  - intros [|[|[|[|i]]]] H; try lia; unfold spatial_image, vec4, drift_beta; cbn [Nat.eqb]; lra.
Qed.

(** C72.  The three-velocity conversion is meant to return u^t = 1/sqrt(-(g_tt +
    2 g_ti v^i + g_ij v^i v^j)).  The sign is missing: for every slower-than-light
    velocity it returns 1/alpha, the value for a normal observer... *)
Theorem C72_ut_constant : forall G alpha beta, spacetime G alpha beta -> forall v,
  let w := fun i => if Nat.eqb i 0 then 1 else v i in inner G w w < 0 -> ut_calc_3vel G (fst (gcon_func G)) v = / alpha.
Proof. exact ut_timelike. Qed.
Print Assumptions C72_ut_constant.
(** ...so four-velocities built from it are not normalised. *)
Theorem C72_normalised_refuted : exists G alpha beta v, spacetime G alpha beta /\
  let w := fun i => if Nat.eqb i 0 then 1 else v i in inner G w w < 0 /\
  let ut := ut_calc_3vel G (fst (gcon_func G)) v in inner G (fun i => ut * w i) (fun i => ut * w i) <> -1.
Proof.
  exists (drift 0), 1, (drift_beta 0), (vec4 0 (1/2) 0 0). split; [apply drift_st|]. cbv zeta.
  assert (T : inner (drift 0) (fun i => if Nat.eqb i 0 then 1 else vec4 0 (1/2) 0 0 i) (fun i => if Nat.eqb i 0 then 1 else vec4 0 (1/2) 0 0 i) = - (3/4)).
  { unfold inner, sigma4, drift, vec4. cbn [Nat.eqb]. lra. }
  split; [rewrite T; lra|]. rewrite (ut_timelike _ _ _ (drift_st 0)) by (rewrite T; lra).
  unfold inner, sigma4, drift, vec4. cbn [Nat.eqb]. lra.
Qed.
Print Assumptions C72_normalised_refuted.

(** C73.  The velocity representations invert each other: the primitives are
    recovered from the four-velocity they define. *)
Theorem C73_roundtrip : forall G alpha beta, spacetime G alpha beta -> forall U, let gcon := fst (gcon_func G) in
  exists u, ucon_calc G gcon (lapse gcon) U = Some u /\
    same4 (ucon_to_utcon gcon u) (fun i => if Nat.eqb i 0 then 0 else U i).
Proof.
  exact (fun G alpha beta ST U => match ucon_ok G alpha beta ST U with
    ex_intro _ u (conj A (conj _ (conj _ (conj C _)))) => ex_intro _ u (conj A C) end).
Qed.
Print Assumptions C73_roundtrip.
(** And every normalised future-directed four-velocity is recovered from its
    primitives. *)
Theorem C73_roundtrip_four : forall G alpha beta, spacetime G alpha beta -> forall u, let gcon := fst (gcon_func G) in
  inner G u u = -1 -> 0 < u 0%nat ->
  exists u', ucon_calc G gcon (lapse gcon) (ucon_to_utcon gcon u) = Some u' /\ same4 u' u.
Proof. exact utcon_ok. Qed.
Print Assumptions C73_roundtrip_four.
Example C73_nonvacuous : inner (drift (1/2)) (vec4 (5/4) (-5/8) (3/4) 0) (vec4 (5/4) (-5/8) (3/4) 0) = -1.
Proof. unfold inner, sigma4, drift, vec4. lra. Qed.
