(** Property theorems C61, C62, C63 and C86 (emission and packet numbers). *)
From Coq Require Import Reals Bool ZArith List Lia Lra.
From Verif Require Import RLib XLib IntLib GeomModel GeomSpec EmitModel EmitSpec EmitProofs EmitTune EmitMore.
From Verif Require BinModel BinProofs.
Import ListNotations.
Open Scope R_scope.

(** C61.  Every pair: the momenta add up to 2E along the fluid velocity, both packets are null,
    have energy h nu in the fluid frame and consistent covariant components.  Where the time
    coordinate is timelike both carry half the weight and no net momentum is emitted. *)
Theorem C61_pair : forall r z alpha beta Econ Ecov c ds p q c' rest,
  spacetime (Gcov z) alpha beta -> inner (Gcov z) (Ucon z) (Ucon z) = -1 -> make_tetrad (Gcov z) (Ucon z) (Bcon z) = Some (Econ, Ecov) ->
  unit_draws ds -> 0 < numin (spec r) < numax (spec r) -> sample_photon r z Econ Ecov c ds = Got (p, q, c') rest ->
  exists nu, numin (spec r) <= nu < numax (spec r) /\ let E := nu * HPL / (ME * CL * CL) in
  cancel (Ucon z) (Kcon p) (Kcon q) E /\
  (forall x, x = p \/ x = q -> inner (Gcov z) (Kcon x) (Kcon x) = 0 /\ - inner (Gcov z) (Kcon x) (Ucon z) = E /\
     (forall mu, (mu < 4)%nat -> Kcov x mu = sigma4 (fun k => Gcov z mu k * Kcon x k)) /\
     w x = (if Rltb 0 (Kcov x 0%nat) then 0 else wgt z nu / 2) /\ type x = stype z) /\
  (Gcov z 0%nat 0%nat < 0 -> 0 < Ucon z 0%nat -> w p = wgt z nu / 2 /\ w q = wgt z nu / 2 /\ no_net (Ucon z) (Kcon p) (Kcon q) (w p) (w q)).
Proof. exact pair_all. Qed.
Print Assumptions C61_pair.
Example C61_pair_nonvacuous : exists Econ Ecov p q c', spacetime (moving (1 / 2)) 1 (shift (1 / 2)) /\ inner (moving (1 / 2)) (still (1 / 2)) (still (1 / 2)) = -1 /\
  make_tetrad (moving (1 / 2)) (still (1 / 2)) none = Some (Econ, Ecov) /\ unit_draws (zeros 7) /\
  sample_photon flat_run (moving_site (1 / 2)) Econ Ecov empty_cell (zeros 7) = Got (p, q, c') [] /\ w p = 1 / 2 /\ w q = 1 / 2 /\ moving (1 / 2) 0%nat 0%nat < 0.
Proof.
  destruct (moving_tetrad (1 / 2)) as (Econ & Ecov & MT & E1). destruct (sample_zero (1 / 2) Econ Ecov empty_cell MT E1) as (p & q & c' & S & _ & _ & _ & _ & W1 & W2 & _).
  pose proof energy_pos. rewrite Rltb_false in W1 by nra. rewrite Rltb_false in W2 by nra.
  exists Econ, Ecov, p, q, c'. repeat (split; [first [exact (moving_st _)|exact (still_unit _)|apply zeros_unit|assumption]|]). unfold moving. lra.
Qed.
(** Inside an ergosphere one of the two can get weight zero, and the pair then carries momentum. *)
Theorem C61_ergosphere_refuted : exists r z alpha beta Econ Ecov c ds p q c' rest,
  spacetime (Gcov z) alpha beta /\ inner (Gcov z) (Ucon z) (Ucon z) = -1 /\ 0 < Ucon z 0%nat /\ make_tetrad (Gcov z) (Ucon z) (Bcon z) = Some (Econ, Ecov) /\
  unit_draws ds /\ sample_photon r z Econ Ecov c ds = Got (p, q, c') rest /\ ~ no_net (Ucon z) (Kcon p) (Kcon q) (w p) (w q).
Proof.
  destruct ergosphere as (Econ & Ecov & p & q & c' & MT & S & _ & _ & N).
  exists flat_run, (moving_site 2), 1, (shift 2), Econ, Ecov, empty_cell, (zeros 7), p, q, c', []. cbn [moving_site Gcov Ucon Bcon].
  repeat (split; [first [exact (moving_st _)|exact (still_unit _)|apply zeros_unit|assumption|unfold still; lra]|]). exact N.
Qed.
Print Assumptions C61_ergosphere_refuted.
(** A whole step, any zones, types, numbers and draws: the packets are put in front of the
    list, as many as are counted, and in every zone what the fluid loses in momentum and
    emitted energy is what the packets made there carry.  In lepton number it loses u^t times
    what they carry (C106). *)
Theorem C61_conserved : forall r u gd zs e ds e' rest, dt r * d3x r <> 0 ->
  Forall (fun zd => u (zone_of (fst zd)) = ucon0 (fst zd) /\ gd (zone_of (fst zd)) = gdet (fst zd)) zs ->
  emit_sites false r zs e ds = Got e' rest ->
  exists new, photons e' = new ++ photons e /\ (made e' - made e = Z.of_nat (length new))%Z /\
  forall y, let here := filter (fun p => let '(_, i, j, k) := origin p in zone_eqb (i, j, k) y) new in let c := cells e y in let c' := cells e' y in
  (forall mu, dt r * d3x r * (radG c mu - radG c' mu) = kphys_to_num r * total (fun p => w p * Kcov p mu) here) /\
  (neutrinos r = true -> dt r * d3x r * (radG_ye c - radG_ye c') = u y * (MP r / M_unit r) * total (fun p => w p * lepton_number (type p)) here) /\
  (neutrinos r = true -> dt r * d3x r * (radG_ye_em c - radG_ye_em c') = u y * (MP r / M_unit r) * total (fun p => w p * lepton_number (type p)) here) /\
  (DTd r <> 0 -> gd y <> 0 -> DTd r * d3x r * gd y * (Jrad0 c' - Jrad0 c) = - kphys_to_num r * total (fun p => w p * Kcov p 0%nat) here) /\
  Nem c' - Nem c = total (fun _ => 1) here /\
  (forall ty, Nem_phys c' ty - Nem_phys c ty = total (fun p => if Z.eqb ty (type p) then w p else 0) here).
Proof.
  intros r u gd zs e ds e' rest D Hu H. destruct (emit_sites_facts r u gd D zs Hu e ds e' rest H) as (new & P & M & B).
  exists new. split; [exact P|]. split; [exact M|]. intros y. destruct (B y) as [B1 B2 B3 B4 B5 B6]. cbv zeta.
  rewrite <- (total_ext (fun p => w p * get_lepton_sign (type p))) by (intros a; rewrite sign_lepton; reflexivity). auto 7.
Qed.
Print Assumptions C61_conserved.
Example C61_conserved_nonvacuous : exists e', dt flat_run * d3x flat_run <> 0 /\
  emit_sites false flat_run [(moving_site 0, 1)] {| photons := []; cells := fun _ => empty_cell; made := 0 |} (zeros 8) = Got e' [] /\ made e' = 2%Z /\ length (photons e') = 2%nat /\
  radG (cells e' (3, 3, 3)%Z) 0%nat = 1 * HPL / (ME * CL * CL).
Proof.
  destruct (moving_tetrad 0) as (Econ & Ecov & MT & E1). destruct (sample_zero 0 Econ Ecov empty_cell MT E1) as (p & q & c' & S & _ & _ & K1 & K2 & W1 & W2 & _).
  pose proof energy_pos as EP. set (E := 1 * HPL / (ME * CL * CL)) in *. rewrite Rltb_false in W1 by nra. rewrite Rltb_false in W2 by nra.
  assert (NP : number_of_pairs 1 0 = Some 1%Z).
  { unfold number_of_pairs. rewrite (to_int_unique 1 1) by (lia || lra). rewrite Rltb_false by lra. reflexivity. }
  eexists. split; [unfold d3x, flat_run; cbn [dt grid BinModel.dx]; lra|]. split.
  - cbn [emit_sites zeros repeat bind draw]. rewrite NP. cbn [Z.ltb Z.compare Z.to_nat Pos.to_nat]. cbn [moving_site Gcov Ucon Bcon]. rewrite MT. change (Pos.to_nat 1) with 1%nat. cbn [emit_pairs photons cells].
    change [0; 0; 0; 0; 0; 0; 0] with (zeros 7). change {| zi := 3; zj := 3; zk := 3; stype := 0; Gcov := moving 0; Ucon := still 0; Bcon := none; ucon0 := 1; gdet := 1; dndlnu := [Fin 1; Fin 1]; jnu := fun _ _ : R => 1; wgt := fun nu : R => 1 / nu |} with (moving_site 0).
    rewrite S. cbn [bind]. reflexivity.
  - split; [reflexivity|]. split; [reflexivity|]. cbn [cells zone_of moving_site zi zj zk zone_eqb Z.eqb Pos.eqb andb].
    apply sample_facts in S. destruct S as (nu & n1 & n2 & n3 & _ & _ & -> & _). unfold record_packet. cbn [radG empty_cell]. rewrite W1, W2, K1, K2. unfold flat_run, d3x. cbn [dt grid BinModel.dx kphys_to_num]. field.
Qed.
(** With the packets thrown away at birth (KILL_ALL_PACKETS) the list stays as it is, and the
    fluid and the counters change as if they had been kept. *)
Theorem C61_killed : forall r zs e ds e' rest, emit_sites true r zs e ds = Got e' rest -> photons e' = photons e /\
  exists e2, emit_sites false r zs e ds = Got e2 rest /\ cells e2 = cells e' /\ made e2 = made e'.
Proof. exact kill_all. Qed.
Print Assumptions C61_killed.
Example C61_killed_nonvacuous : exists e', emit_sites true flat_run [(moving_site 0, 1)] {| photons := []; cells := fun _ => empty_cell; made := 0 |} (zeros 8) = Got e' [] /\ made e' = 2%Z.
Proof.
  destruct C61_conserved_nonvacuous as (e' & _ & E & M & _). pose proof (killed flat_run [(moving_site 0, 1)] {| photons := []; cells := fun _ => empty_cell; made := 0 |} (zeros 8)) as K.
  rewrite E in K. eexists. split; [exact (K [])|exact M].
Qed.
(** The number of pairs is the expected number rounded down, plus one exactly when the draw is
    below the fraction. *)
Theorem C61_number : forall dnz x, 0 <= dnz < 2147483647 -> exists f : Z, IZR f <= dnz < IZR f + 1 /\
  number_of_pairs dnz x = Some (if Rltb x (dnz - IZR f) then (f + 1)%Z else f).
Proof. exact pairs_number. Qed.
Print Assumptions C61_number.
Example C61_number_nonvacuous : 0 <= 7 / 2 < 2147483647 /\ number_of_pairs (7 / 2) (1 / 4) = Some 4%Z /\ number_of_pairs (7 / 2) (3 / 4) = Some 3%Z.
Proof.
  split; [lra|]. unfold number_of_pairs. rewrite (to_int_unique (7 / 2) 3) by (lia || lra). rewrite Rltb_true by lra. rewrite Rltb_false by lra. auto.
Qed.

(** C62.  The time in the position is the global one, not the birth time; the position is the
    centre of the zone of emission. *)
Theorem C62_refuted : exists r z alpha beta Econ Ecov c ds p q c' rest, targ r = tglob r /\ 0 < dt r /\
  spacetime (Gcov z) alpha beta /\ make_tetrad (Gcov z) (Ucon z) (Bcon z) = Some (Econ, Ecov) /\ unit_draws ds /\
  sample_photon r z Econ Ecov c ds = Got (p, q, c') rest /\ X2 p 0%nat <> t0 p.
Proof.
  destruct (moving_tetrad 0) as (Econ & Ecov & MT & E1). destruct (sample_zero 0 Econ Ecov empty_cell MT E1) as (p & q & c' & S & _).
  exists flat_run, (moving_site 0), 1, (shift 0), Econ, Ecov, empty_cell, (zeros 7), p, q, c', []. cbn [moving_site Gcov Ucon Bcon flat_run targ tglob dt].
  repeat (split; [first [exact (moving_st _)|apply zeros_unit|assumption|lra]|]).
  destruct (birth _ _ _ _ _ _ _ _ _ _ S p (or_introl eq_refl)) as (-> & -> & _). unfold flat_run. cbn [targ tglob dt]. lra.
Qed.
Print Assumptions C62_refuted.
Theorem C62_lag : forall r z Econ Ecov c ds p q c' rest, sample_photon r z Econ Ecov c ds = Got (p, q, c') rest ->
  forall x, x = p \/ x = q -> X2 x 0%nat = tglob r /\ t0 x = targ r + dt r / 2 /\
  forall mu, (1 <= mu < 4)%nat -> axisym_mks r = false \/ mu <> 3%nat -> X2 x mu = BinModel.coord (grid r) BinModel.CENT (zone_index z) mu.
Proof. exact birth. Qed.
Print Assumptions C62_lag.
(** In axisymmetry the azimuth is spread over the circle by one of the draws; a packet is
    tracked if one of them is below the set fraction. *)
Theorem C62_draws : forall r z Econ Ecov c ds p q c' rest, sample_photon r z Econ Ecov c ds = Got (p, q, c') rest -> forall x, x = p \/ x = q ->
  (axisym_mks r = true -> exists y, In y ds /\ X2 x 3%nat = 2 * PI * y) /\ exists y, In y ds /\ (is_tracked x = true <-> y < track r).
Proof. exact sample_draws. Qed.
Print Assumptions C62_draws.
Example C62_nonvacuous : exists Econ Ecov p q c', sample_photon flat_run (moving_site 0) Econ Ecov empty_cell (zeros 7) = Got (p, q, c') [] /\ t0 p = 1 / 2 /\ X2 p 1%nat = 1 / 2.
Proof.
  destruct (moving_tetrad 0) as (Econ & Ecov & MT & E1). destruct (sample_zero 0 Econ Ecov empty_cell MT E1) as (p & q & c' & S & _).
  exists Econ, Ecov, p, q, c'. split; [exact S|]. destruct (birth _ _ _ _ _ _ _ _ _ _ S p (or_introl eq_refl)) as (_ & -> & H). rewrite (H 1%nat) by (lia || auto).
  unfold flat_run, BinModel.coord, BinModel.coord1. cbn [targ dt grid BinModel.start BinModel.dx BinModel.gs BinModel.centred zone_index moving_site zi]. split; [field|]. change (3 + 0)%Z with 3%Z. unfold BinModel.NG. field.
Qed.

(** C63.  Whatever the counts and the settings (not-a-number and infinite ratios included) each
    factor stays within its limits; inside them it is the ideal over the real number. *)
Theorem C63_emission : forall dt n L a b, within (1 / 2) (4 / 3) (emiss_correction dt n L a b).
Proof. exact emiss_within. Qed.
Print Assumptions C63_emission.
Theorem C63_emission_target : forall dt n L a b, 0 < L -> (b < a)%Z -> let ideal := dt * n / (2 * L) in
  1 / 2 <= ideal / IZR (a - b) <= 4 / 3 -> emiss_correction dt n L a b = Fin (ideal / IZR (a - b)).
Proof. exact emiss_target. Qed.
Print Assumptions C63_emission_target.
Theorem C63_scattering : forall dt n L a, within (1 / 4) (5 / 4) (scatt_correction dt n L a).
Proof. exact scatt_within. Qed.
Print Assumptions C63_scattering.
Theorem C63_scattering_target : forall dt n L a, 0 < L -> (0 < a)%Z -> let ideal := dt * n / L in
  1 / 4 <= ideal / IZR a <= 5 / 4 -> scatt_correction dt n L a = Fin (ideal / IZR a).
Proof. exact scatt_target. Qed.
Print Assumptions C63_scattering_target.
Example C63_target_nonvacuous : 0 < 40 /\ (5 < 105)%Z /\ 1 / 2 <= 100 * 100 / (2 * 40) / IZR (105 - 5) <= 4 / 3 /\ 1 / 4 <= 100 * 100 / 40 / IZR 400 <= 5 / 4.
Proof. change (105 - 5)%Z with 100%Z. repeat split; try lra; lia. Qed.
(** Nothing scattered leaves the scattering factor alone; nothing made multiplies the emission
    factor by 4/3. *)
Theorem C63_idle_scattering : forall dt n L cs, Forall (fun c => (0 <= c)%Z) cs -> (fold_right Z.add 0 cs < Z.of_nat (length cs))%Z ->
  scatt_correction dt n L (reduced cs) = Fin 1.
Proof. intros dt n L cs P S. rewrite (reduced_few cs P S). apply scatt_idle. lia. Qed.
Print Assumptions C63_idle_scattering.
Theorem C63_idle_emission_refuted : exists dt n L, 0 < dt * n /\ 0 < L /\ emiss_correction dt n L 0 0 <> Fin 1.
Proof. exists 100, 100000, 40. split; [lra|]. split; [lra|]. rewrite emiss_idle by lra. intros H. injection H as H. lra. Qed.
Print Assumptions C63_idle_emission_refuted.
Theorem C63_idle_emission : forall dt n L a, 0 <= dt * n -> 0 < L -> emiss_correction dt n L a a = Fin (4 / 3).
Proof. exact emiss_idle. Qed.
Print Assumptions C63_idle_emission.
(** So does more being absorbed than made. *)
Theorem C63_negative : forall dt n L a b, 0 < dt * n -> 0 < L -> (a < b)%Z -> emiss_correction dt n L a b = Fin (4 / 3).
Proof. exact emiss_negative. Qed.
Print Assumptions C63_negative.
Example C63_idle_nonvacuous : Forall (fun c => (0 <= c)%Z) [1; 0; 1]%Z /\ (fold_right Z.add 0 [1; 0; 1]%Z < Z.of_nat (length [1; 0; 1]%Z))%Z.
Proof. cbn. split; [repeat constructor; lia|lia]. Qed.
(** Any history: after some number of adjustments, no more than the steps, each factor has
    changed by at most that power of the limits, and the next time has moved by as many
    intervals. *)
Theorem C63_history : forall p h u cs a b, tune_emiss u = Fin a -> tune_scatt u = Fin b -> let u' := fst (update_history p h (u, cs)) in
  exists dn dm : nat, (dn <= length h)%nat /\ (dm <= length h)%nat /\
  (exists f, tune_emiss u' = Fin (a * f) /\ (1 / 2) ^ dn <= f <= (4 / 3) ^ dn) /\ (exists f, tune_scatt u' = Fin (b * f) /\ (1 / 4) ^ dm <= f <= (5 / 4) ^ dm) /\
  t_tune_emiss u' = t_tune_emiss u + INR dn * dt_tune_emiss p /\ t_tune_scatt u' = t_tune_scatt u + INR dm * dt_tune_scatt p.
Proof.
  intros p h u cs a b A B. assert (SA : scaled_by (1 / 2) (4 / 3) 0 a (tune_emiss u)) by (exists 1; cbn [pow]; split; [rewrite A; f_equal; ring|lra]).
  assert (SB : scaled_by (1 / 4) (5 / 4) 0 b (tune_scatt u)) by (exists 1; cbn [pow]; split; [rewrite B; f_equal; ring|lra]).
  exact (history_bounds p h u cs a b 0 0 SA SB).
Qed.
Print Assumptions C63_history.
(** The emission factor is adjusted exactly at steps that have reached its time. *)
Theorem C63_when : forall p t steps u cs, let u' := fst (update_resolution p t steps (u, cs)) in
  (t_tune_emiss u <= t -> t_tune_emiss u' = t_tune_emiss u + dt_tune_emiss p) /\
  (t < t_tune_emiss u -> t_tune_emiss u' = t_tune_emiss u /\ tune_emiss u' = tune_emiss u).
Proof.
  intros p t steps u cs. unfold update_resolution. cbv zeta. destruct (Rleb_spec (t_tune_emiss u) t) as [A|A]; destruct (_ || _); cbn [fst t_tune_emiss tune_emiss]; split; intros H; try lra; auto.
Qed.
Print Assumptions C63_when.
Theorem C63_when_scattering : forall p t steps u cs, let u' := fst (update_resolution p t steps (u, cs)) in
  (t_tune_scatt u <= t -> t_tune_scatt u' = t_tune_scatt u + dt_tune_scatt p) /\
  (t < t_tune_scatt u -> mks p = false -> t_tune_scatt u' = t_tune_scatt u /\ tune_scatt u' = tune_scatt u).
Proof. exact when_scatt. Qed.
Print Assumptions C63_when_scattering.
(** A process's counters are cleared when their factor is adjusted, and otherwise keep the sum. *)
Theorem C63_counters : forall p t steps u cs, dt_tune_emiss p <> 0 -> dt_tune_scatt p <> 0 -> let s' := update_resolution p t steps (u, cs) in
  forall i c s, nth_error cs i = Some c -> nth_error steps i = Some s -> exists c', nth_error (snd s') i = Some c' /\
  (t_tune_emiss (fst s') = t_tune_emiss u -> made_tune c' = (made_tune c + made_tune s)%Z /\ abs_tune c' = (abs_tune c + abs_tune s)%Z) /\
  (t_tune_emiss (fst s') <> t_tune_emiss u -> made_tune c' = 0%Z /\ abs_tune c' = 0%Z) /\
  (t_tune_scatt (fst s') = t_tune_scatt u -> scatt_tune c' = (scatt_tune c + scatt_tune s)%Z) /\ (t_tune_scatt (fst s') <> t_tune_scatt u -> scatt_tune c' = 0%Z).
Proof. exact counters_ok. Qed.
Print Assumptions C63_counters.
Example C63_counters_nonvacuous : dt_tune_emiss drift_settings <> 0 /\ dt_tune_scatt drift_settings <> 0 /\ nth_error [calm] 0 = Some calm /\ nth_error [busy] 0 = Some busy.
Proof. cbn [drift_settings dt_tune_emiss dt_tune_scatt]. repeat split; lra. Qed.
(** With METRIC == MKS the next scattering adjustment can be put off without limit: every early
    adjustment adds an interval. *)
Theorem C63_drift_refuted : exists p steps cs, 0 < dt_tune_scatt p /\ forall k, exists u',
  fst (update_history p (repeat (0, steps) k) (start_tuning, cs)) = u' /\ t_tune_scatt u' = t_tune_scatt start_tuning + INR k * dt_tune_scatt p.
Proof.
  exists drift_settings, [busy], [calm]. split; [cbn [drift_settings dt_tune_scatt]; lra|]. intros k. destruct (drift k (Fin 1) 1 ltac:(lra)) as (a & E).
  eexists. split; [reflexivity|]. unfold start_tuning. rewrite E. cbn [fst t_tune_scatt drift_settings dt_tune_scatt]. ring.
Qed.
Print Assumptions C63_drift_refuted.

(** C86.  Frequencies: the tabulated relative probabilities are the numbers per logarithmic
    frequency over their largest, between 0 and 1; each draw reads two neighbouring entries,
    and is accepted exactly when the second draw is not above a value between them. *)
Theorem C86_sampling : forall s Jv wg, 0 < numin s < numax s -> (0 < bins s)%nat -> (Z.of_nat (bins s) < 2147483648)%Z ->
  (forall n, (n <= bins s)%nat -> 0 <= Jv (nusamp s n)) -> (forall n, (n <= bins s)%nat -> 0 < wg (nusamp s n)) ->
  (exists n, (n <= bins s)%nat /\ 0 < Jv (nusamp s n)) ->
  let h n := Jv (nusamp s n) / (wg (nusamp s n) * HPL + TINY) in
  exists m, (exists n, (n <= bins s)%nat /\ m = h n) /\ (forall n, (n <= bins s)%nat -> 0 <= h n <= m) /\ 0 < m /\
  forall r1 r2 ds, 0 <= r1 < 1 -> exists k p, (k < bins s)%nat /\ between (h k / m) (h (S k) / m) p /\ 0 <= p <= 1 /\
  (r2 <= p -> freq_loop s (get_dndlnu s Jv wg) (r1 :: r2 :: ds) = Got (exp (r1 * (lnu_max s - lnu_min s) + lnu_min s)) ds) /\
  (p < r2 -> freq_loop s (get_dndlnu s Jv wg) (r1 :: r2 :: ds) = freq_loop s (get_dndlnu s Jv wg) ds).
Proof. exact sampling. Qed.
Print Assumptions C86_sampling.
(** At a tabulated frequency the value is the tabulated one. *)
Theorem C86_node : forall s, 0 < numin s -> numin s < numax s -> (0 < bins s)%nat -> (Z.of_nat (bins s) < 2147483648)%Z ->
  forall l k, length l = S (bins s) -> (k < bins s)%nat -> forall v, nth_error l k = Some v ->
  linear_interp_log (nusamp s k) (map Fin l) (lnu_min s) (dlnu s) = Some (Fin v).
Proof. exact node. Qed.
Print Assumptions C86_node.
(** No draw reads outside the table, and an accepted frequency is in the range. *)
Theorem C86_inside : forall s, 0 < numin s -> numin s < numax s -> (0 < bins s)%nat -> (Z.of_nat (bins s) < 2147483648)%Z ->
  forall l ds, length l = S (bins s) -> unit_draws ds -> freq_loop s (map Fin l) ds <> Undef /\
  forall nu rest, freq_loop s (map Fin l) ds = Got nu rest -> numin s <= nu < numax s.
Proof.
  intros s Lo Hi B0 B1 l ds L U. split; [exact (freq_defined s Lo Hi B0 B1 l ds L U)|]. intros nu rest H. apply (freq_range s Lo Hi _ _ _ _ U H).
Qed.
Print Assumptions C86_inside.
Example C86_nonvacuous : let s := spec flat_run in 0 < numin s < numax s /\ (0 < bins s)%nat /\ freq_loop s [Fin 1; Fin 1] [0; 0; 5] = Got 1 [5].
Proof. cbv zeta. split; [cbn [spec flat_run numin numax]; lra|]. split; [cbn [spec flat_run bins]; lia|]. apply freq_zero. Qed.
(** Angles: a candidate is accepted exactly when the second draw is not above its emissivity
    relative to the one at right angles. *)
Theorem C86_angle : forall j r1 r2 th ds, 0 < j (PI / 2) -> 0 <= th <= PI -> cos th = 2 * r1 - 1 ->
  (r2 * j (PI / 2) <= j th -> angle_loop j (r1 :: r2 :: ds) = Got (cos th) ds) /\ (j th < r2 * j (PI / 2) -> angle_loop j (r1 :: r2 :: ds) = angle_loop j ds).
Proof. exact angle_step. Qed.
Print Assumptions C86_angle.
Example C86_angle_nonvacuous : 0 < sin (PI / 2) ^ 2 /\ 0 <= PI / 2 <= PI /\ cos (PI / 2) = 2 * (1 / 2) - 1 /\ 1 / 3 * sin (PI / 2) ^ 2 <= sin (PI / 2) ^ 2.
Proof. rewrite sin_PI2, cos_PI2. pose proof PI_RGT_0. lra. Qed.
(** Weights: what is left of a packet after the depth the weight was made for carries the same
    energy at every frequency; the factor is limited to exp(100). *)
Theorem C86_weight : forall ex alpha L dt C nu, 0 < C -> 0 < nu -> 0 <= L * dt -> 0 <= alpha nu ->
  let tau := alpha nu * L * dt / nu in let d := get_dtau ex alpha L dt nu in let w := get_wgt ex C nu d in
  0 <= d <= 100 /\ exp (- d) * w * nu = C /\ C / nu <= w <= C / nu * exp 100 /\ (ex = true -> tau <= 100 -> d = tau) /\ (ex = false -> w = C / nu).
Proof. exact weight_ok. Qed.
Print Assumptions C86_weight.
Example C86_weight_nonvacuous : 0 < 2 /\ 0 < 3 /\ 0 <= 1 * 5 /\ 0 <= (fun nu : R => nu) 3 /\ (fun nu : R => nu) 3 * 1 * 5 / 3 <= 100.
Proof. lra. Qed.
(** When no tabulated frequency is emitted at all, the table is not-a-number throughout and
    the first draw is accepted, although nothing is emitted there. *)
Theorem C86_dark_refuted : exists s wg r1 r2 nu, 0 < numin s < numax s /\ (0 < bins s)%nat /\ 0 <= r1 < 1 /\ 0 <= r2 < 1 /\
  freq_loop s (get_dndlnu s (fun _ => 0) wg) [r1; r2] = Got nu [].
Proof.
  exists (spec flat_run), (fun _ => 1), (1 / 2), (1 / 2). eexists. split; [cbn [spec flat_run numin numax]; lra|]. split; [cbn [spec flat_run bins]; lia|]. split; [lra|]. split; [lra|].
  apply dark; [cbn [spec flat_run numin numax]; lra|cbn [spec flat_run bins]; lia|cbn [spec flat_run bins]; lia|lra].
Qed.
Print Assumptions C86_dark_refuted.
