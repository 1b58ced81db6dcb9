(** Property theorems C56, C60, C83, C84 and C85 (scattering). *)
From Coq Require Import Reals Bool ZArith List Lia Lra.
From Verif Require Import RLib XLib IntLib ScatModel ScatSpec ScatProofs ScatKN ScatCross HotModel HotProofs.
Import ListNotations.
Open Scope R_scope.

(** C56.  One thread: whatever the cells, their order and the memory before, every entry of
    the finished table is the cross-section at its own energy and temperature. *)
Theorem C56_one_thread_partial : forall axisw axisT total cells m ts m',
  steps axisw axisT total ([program cells], m) (ts, m') -> finished ts ->
  forall i j, In (i, j) cells -> table m' i j = Some (total (axisw i) (axisT j)).
Proof. exact one_thread. Qed.
Print Assumptions C56_one_thread_partial.
(** Two threads with one cell each can finish with a wrong entry, as soon as the cross-section
    depends on the energy. *)
Theorem C56_race_refuted : exists axisw axisT total m ts m',
  steps axisw axisT total ([program [(0, 0)%nat]; program [(1, 0)%nat]], m) (ts, m') /\ finished ts /\
  table m' 0%nat 0%nat <> Some (total (axisw 0%nat) (axisT 0%nat)).
Proof.
  exists INR, INR, (fun w _ => w), {| lw := 0; lT := 0; table := fun _ _ => None |}.
  destruct (race_refuted INR INR (fun w _ => w) {| lw := 0; lT := 0; table := fun _ _ => None |}) as (ts & m' & H); [cbn; lra|].
  exists ts, m'. exact H.
Qed.
Print Assumptions C56_race_refuted.
(** The same for every cross-section that differs between the two energies. *)
Theorem C56_race_any : forall axisw axisT total m, total (axisw 1%nat) (axisT 0%nat) <> total (axisw 0%nat) (axisT 0%nat) ->
  exists ts m', steps axisw axisT total ([program [(0, 0)%nat]; program [(1, 0)%nat]], m) (ts, m') /\ finished ts /\
    table m' 0%nat 0%nat <> Some (total (axisw 0%nat) (axisT 0%nat)).
Proof. exact race_refuted. Qed.
Print Assumptions C56_race_any.
(** A run that finds the file of a run with another frequency range reads wrong entries. *)
Theorem C56_stale : forall (axis1 axis2 axisT : nat -> R) (total : R -> R -> R) i j, total (axis1 i) (axisT j) <> total (axis2 i) (axisT j) ->
  let first := fun a b : nat => Some (total (axis1 a) (axisT b)) in
  let second := fun a b : nat => Some (total (axis2 a) (axisT b)) in
  init_hc_table (Some (init_hc_table None first)) second i j <> second i j.
Proof. exact stale. Qed.
Print Assumptions C56_stale.
Example C56_nonvacuous : exists ts m', steps INR INR Rplus ([program [(2, 3)%nat; (1, 1)%nat]], {| lw := 0; lT := 0; table := fun _ _ => None |}) (ts, m') /\ finished ts /\ table m' 1%nat 1%nat = Some (INR 1 + INR 1).
Proof.
  exists [[]]. eexists. split; [|split; [repeat constructor|]].
  - cbn [program flat_map iteration app fst snd]. do 6 (eapply More; [apply (Step _ _ _ [] _ _ [])|]; cbn [app]). apply Done.
  - cbn. reflexivity.
Qed.

(** C60.  When the largest energy is at most the electron's rest energy the bound used in
    rejection bounds the neutrino cross-section, for every energy, angle and target. *)
Theorem C60_neutrino_partial : forall wmax w mu t A Z, 0 <= wmax <= 1 -> 0 <= w -> -1 <= mu <= 1 ->
  0 <= nu_cross wmax w mu t A Z <= nu_cross_max wmax t A Z.
Proof. exact cross_max_partial. Qed.
Print Assumptions C60_neutrino_partial.
(** For every larger one, and every target, it does not. *)
Theorem C60_neutrino_outside : forall wmax t A Z, 1 < wmax -> 0 < nu_cross_factor 1 t A Z ->
  exists mu, -1 <= mu <= 1 /\ nu_cross_max wmax t A Z < nu_cross wmax wmax mu t A Z.
Proof. exact cross_max_fails. Qed.
Print Assumptions C60_neutrino_outside.
Theorem C60_positive : forall t A Z, (t = TA -> 0 < A /\ 0 <= Z <= A) -> 0 < nu_cross_factor 1 t A Z.
Proof. exact coef_pos_lt. Qed.
Print Assumptions C60_positive.
(** Then angles can be sampled evenly though the cross-section is not even. *)
Theorem C60_flat_refuted : exists wmax w t, 0 < w <= wmax /\ nu_cross_delta t < 0 /\
  (forall r1 r2 A Z, 0 <= r1 < 1 -> 0 <= r2 < 1 -> accept (fun mu => nu_cross wmax w mu t A Z) (nu_cross_max wmax t A Z) r1 r2 = Some (2 * r1 - 1)) /\
  (forall A Z, nu_cross wmax w 1 t A Z < nu_cross wmax w (-1) t A Z).
Proof. exact flat_refuted. Qed.
Print Assumptions C60_flat_refuted.
(** A candidate is accepted exactly when the second random number is below the ratio of the
    cross-section to the bound. *)
Theorem C60_accept : forall f xmax r1 r2, 0 < xmax -> accept f xmax r1 r2 = Some (2 * r1 - 1) <-> r2 < f (2 * r1 - 1) / xmax.
Proof. exact accept_iff. Qed.
Print Assumptions C60_accept.
(** The bounds of the multiple-scattering test, of the Klein-Nishina formula and of the two
    steps that sample the scattering particle hold everywhere. *)
Theorem C60_multiscatt : forall c d mu i, 0 <= c -> -1 <= mu <= 1 -> ms_flat c d mu i <= ms_flat_max c d i.
Proof. exact ms_max. Qed.
Print Assumptions C60_multiscatt.
Theorem C60_klein_nishina : forall k kp, 0 < k -> kn_min k <= kp <= k -> 0 < kp /\ 0 < klein_nishina k kp <= kn_box k /\ -1 <= kn_cth k kp <= 1.
Proof. exact kn_ok. Qed.
Print Assumptions C60_klein_nishina.
Theorem C60_klein_nishina_tight : forall k, 0 < k -> klein_nishina k (kn_min k) = kn_box k.
Proof. exact kn_tight. Qed.
Print Assumptions C60_klein_nishina_tight.
Theorem C60_energy : forall th y, 0 <= th -> 0 <= y -> 1 / 2 < y_prob th y <= 1.
Proof. exact y_ok. Qed.
Print Assumptions C60_energy.
Theorem C60_target_light : forall w, 0 <= w -> 0 < hc_klein_nishina w <= 1.
Proof. exact hc_kn_bounds. Qed.
Print Assumptions C60_target_light.
Theorem C60_target_neutrino : forall wmax k, 0 < wmax -> 0 <= k -> 0 <= nu_normalized wmax k <= 1.
Proof. exact normalized_range. Qed.
Print Assumptions C60_target_neutrino.
(** Off protons and neutrons the strength and the asymmetry of the angle are those of one and
    the same pair of couplings. *)
Theorem C60_couplings : forall sigma A Z,
  nu_cross_factor sigma TP A Z = NUSIGMA0 / 4 * sigma * strength GA2 (proton_cv S2THW) proton_ca /\ asymmetry GA2 (proton_cv S2THW) proton_ca (nu_cross_delta TP) /\
  nu_cross_factor sigma TN A Z = NUSIGMA0 / 4 * sigma * strength GA2 neutron_cv neutron_ca /\ asymmetry GA2 neutron_cv neutron_ca (nu_cross_delta TN).
Proof. exact nucleons. Qed.
Print Assumptions C60_couplings.
(** Off ions the charges of the nucleons add up coherently, but the constant that stands for
    the polarisation of the electrons, set to one, adds a half for each nucleon. *)
Theorem C60_ions : forall sigma A Z, A <> 0 -> let charge := (A - Z) * neutron_cv + Z * proton_cv S2THW in
  nu_cross_factor sigma TA A Z = NUSIGMA0 / 4 * sigma * (A / 2 - charge) ^ 2 /\ nu_cross_factor sigma TALPHA A Z = nu_cross_factor sigma TA 4 2.
Proof. exact ions. Qed.
Print Assumptions C60_ions.
Example C60_nonvacuous : 0 <= 1 / 2 <= 1 /\ 0 <= 3 /\ kn_min 2 <= 1 <= 2 /\ 0 < nu_cross (1 / 2) (1 / 4) 0 TN 1 1.
Proof.
  unfold kn_min. split; [lra|]. split; [lra|]. split; [lra|]. unfold nu_cross. rewrite factor_lin. pose proof (coef_pos_lt TN 1 1 ltac:(discriminate)) as C. pose proof PI_RGT_0.
  unfold hc_quad. destruct (Rleb_spec (1 / 2) (1 / 4)); [lra|]. cbv zeta. rewrite Rmult_0_r, Rplus_0_r, Rmult_1_r. apply Rdiv_lt_0_compat; [|lra].
  apply Rmult_lt_0_compat; [lra|]. apply Rmult_lt_0_compat; lra.
Qed.

(** C83.  The particle a packet scatters off: the time component is the Lorentz factor, the
    space part has the length that goes with it plus the small number of sample_beta, and its
    angle to the packet is the sampled one. *)
Theorem C83_particle : forall k n0 g mu phi p, 1 <= g -> -1 <= mu <= 1 -> gas_particle k n0 g (sample_beta g) mu phi = Some p ->
  fst p = g /\ sq3 (snd p) = (sqrt (g ^ 2 - 1) + g * SMALL) ^ 2 /\ prod3 (snd p) k = sqrt (sq3 (snd p)) * sqrt (sq3 k) * mu.
Proof. exact gas_shell. Qed.
Print Assumptions C83_particle.
(** The boost into the frame of such a particle keeps the square of every four-vector, to
    within a multiple of the small number. *)
Theorem C83_boost : forall v u E, 1 <= fst u -> fst u * SMALL <= 1 ->
  (exists e, 0 <= e <= fst u * SMALL /\ sq3 (snd u) = (bnorm (fst u) + e) ^ 2) ->
  fst v ^ 2 <= E ^ 2 -> sq3 (snd v) <= E ^ 2 -> Rabs (mink (boost v u) - mink v) <= 22 * fst u ^ 3 * SMALL * E ^ 2.
Proof. exact boost_close. Qed.
Print Assumptions C83_boost.
Theorem C83_rest : forall v, boost v (1, (0, 0, 0)) = v.
Proof. exact boost_rest. Qed.
Print Assumptions C83_rest.
(** The scattered packet: in the particle's frame it leaves at the sampled angle with the
    sampled energy; in the fluid frame its energy is positive and it is null, to within a
    multiple of the small number. *)
Theorem C83_scattered : forall k p n0 k0p cth phi kp, 1 <= fst p -> 2 * fst p ^ 2 * SMALL < 1 ->
  sq3 (snd p) = (sqrt (fst p ^ 2 - 1) + fst p * SMALL) ^ 2 -> 0 < k0p -> -1 <= cth <= 1 ->
  scattered_rad k p n0 k0p cth phi = Some kp ->
  (exists d, sq3 d = 1 /\ prod3 d (snd (boost k p)) = sqrt (sq3 (snd (boost k p))) * cth /\ kp = boost (k0p, scale k0p d) (fst p, scale (-1) (snd p))) /\
  0 < fst kp /\ Rabs (mink kp) <= 22 * fst p ^ 3 * SMALL * k0p ^ 2 /\ Rabs (energy kp p - k0p) <= 7 * fst p ^ 3 * SMALL * k0p.
Proof. exact scatter_ok. Qed.
Print Assumptions C83_scattered.
(** The angle to the particle follows the density (1 - beta mu) / 2: the random number is its
    distribution function, and the angle needs no clamping. *)
Theorem C83_angle : forall b x, 0 < b -> 0 <= x <= 1 ->
  -1 <= sample_mu b x <= 1 /\ x = 1 / 2 * (1 + sample_mu b x) + b / 4 * (1 - sample_mu b x ^ 2).
Proof. exact mu_ok. Qed.
Print Assumptions C83_angle.
(** The Lorentz factor sampled is never below one, and the clamp gives the nearest cosine. *)
Theorem C83_gamma : forall y th, 0 <= th -> 1 <= sample_gamma y th /\ (0 < th -> y ^ 2 = (sample_gamma y th - 1) / th).
Proof. exact gamma_ok. Qed.
Print Assumptions C83_gamma.
Theorem C83_clamp : forall mu, -1 <= clamp_mu mu <= 1 /\ (-1 <= mu <= 1 -> clamp_mu mu = mu) /\ forall x, -1 <= x <= 1 -> Rabs (clamp_mu mu - mu) <= Rabs (x - mu).
Proof. exact clamp_ok. Qed.
Print Assumptions C83_clamp.
(** A random direction along the packet gives no frame, only not-a-number. *)
Theorem C83_frame_refuted : exists k n0 : R * R * R, sq3 k = 1 /\ sq3 n0 = 1 /\ frame k n0 = None.
Proof. exists (1, 0, 0), (1, 0, 0). unfold sq3. split; [lra|]. split; [lra|]. exact frame_refuted. Qed.
Print Assumptions C83_frame_refuted.
Example C83_nonvacuous : exists p, gas_particle (1, 0, 0) (0, 1, 0) 2 (sample_beta 2) 0 0 = Some p.
Proof.
  unfold gas_particle, frame, unit, dot, scale, add, cross. rewrite !Rmult_0_l, !Rmult_0_r, !Rmult_1_r, !Rplus_0_r, !sqrt_1.
  destruct (Reqb_spec 1 0); [lra|]. rewrite Rinv_1, !Rmult_1_r, !Rmult_0_r, ?Rmult_0_l, ?Rplus_0_l, ?Rplus_0_r, ?Ropp_0, ?Rmult_0_l, ?Rmult_0_r, ?Rplus_0_l, ?Rplus_0_r, ?Rmult_1_r, sqrt_1.
  destruct (Reqb_spec 1 0); [lra|]. eauto.
Qed.

(** C84.  Inside the table's axes the lookup reads four entries that exist, those around the
    point, and gives a value between their extremes. *)
Theorem C84_lookup : forall MINW MAXW MINT MAXT table w th,
  (forall i j, (0 <= i <= NW)%Z -> (0 <= j <= NT)%Z -> exists v, table i j = Some v) ->
  0 < MINW < w -> w < MAXW -> 0 < MINT < th -> th < MAXT ->
  exists i j a b c d e, (0 <= i < NW)%Z /\ (0 <= j < NT)%Z /\ table i j = Some a /\ table (i + 1)%Z j = Some b /\ table i (j + 1)%Z = Some c /\ table (i + 1)%Z (j + 1)%Z = Some d /\
    lookup MINW MAXW MINT MAXT table w th = Looked e /\ hull4 a b c d e /\
    IZR i <= (log10 w - log10 MINW) / (log10 (MAXW / MINW) / IZR NW) < IZR i + 1 /\ IZR j <= (log10 th - log10 MINT) / (log10 (MAXT / MINT) / IZR NT) < IZR j + 1.
Proof. exact lookup_ok. Qed.
Print Assumptions C84_lookup.
(** A table linear in each of its logarithmic axes is reproduced exactly. *)
Theorem C84_exact : forall MINW MAXW MINT MAXT p q r s w th, 0 < MINW < w -> w < MAXW -> 0 < MINT < th -> th < MAXT ->
  let f x y := p + q * x + r * y + s * (x * y) in
  lookup MINW MAXW MINT MAXT (fun i j => if ((0 <=? i) && (i <=? NW) && (0 <=? j) && (j <=? NT))%Z then Some (f (IZR i) (IZR j)) else None) w th =
  Looked (f (IZR NW * (log10 w - log10 MINW) / (log10 MAXW - log10 MINW)) (IZR NT * (log10 th - log10 MINT) / (log10 MAXT - log10 MINT))).
Proof. exact lookup_exact. Qed.
Print Assumptions C84_exact.
(** Truncation puts every number inside the axes and leaves those inside alone, so that the
    fall-back to the integral is never taken. *)
Theorem C84_truncate : forall lo hi x, 0 < lo -> lo * (1 + 1 / 100) < hi -> lo < hi * (1 - 1 / 100) -> lo < truncate lo hi x < hi.
Proof. exact truncate_in. Qed.
Print Assumptions C84_truncate.
Theorem C84_inside : forall lo hi x, lo < x < hi -> truncate lo hi x = x.
Proof. exact truncate_id. Qed.
Print Assumptions C84_inside.
Example C84_nonvacuous : 0 < 1 / 1000 < 1 /\ 1 / 1000 * (1 + 1 / 100) < 10 /\ 1 / 1000 < 10 * (1 - 1 / 100).
Proof. lra. Qed.

(** C85.  The Klein-Nishina total cross-section is positive and below the Thomson one at every
    energy; the programmed one is too, in both branches; and the check in boostcross that ends
    the program never fires. *)
Theorem C85_total : forall w, 0 < w -> 0 < kn_total w < 1.
Proof. exact kn_total_bounds. Qed.
Print Assumptions C85_total.
(** Against the exact formula: equal above a thousandth of the rest energy, and within 8e-14
    below, where a series is used. *)
Theorem C85_accuracy : forall w, 0 < w -> 0 <= hc_klein_nishina w - kn_total w <= 544 / 7 * w ^ 5 /\ (1 / 1000 <= w -> hc_klein_nishina w = kn_total w) /\
  (w < 1 / 1000 -> hc_klein_nishina w - kn_total w <= 8 / 10 ^ 14).
Proof. exact hc_kn_exact. Qed.
Print Assumptions C85_accuracy.
Theorem C85_abort_unreachable : forall w mue g, 0 <= w -> -1 <= mue <= 1 -> 1 <= g -> exists c, boostcross hc_klein_nishina w mue g = Some c /\ 0 < c <= 2.
Proof. exact boostcross_ok. Qed.
Print Assumptions C85_abort_unreachable.
Example C85_nonvacuous : 0 <= 5 /\ -1 <= 1 / 3 <= 1 /\ 1 <= 7.
Proof. lra. Qed.
