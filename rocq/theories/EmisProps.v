(** C100-C102: emissivities, absorption, and their sums. *)
From Coq Require Import Reals Bool ZArith List Lia Lra.
From Coquelicot Require Import Coquelicot.
From Verif Require Import RLib XLib IntLib EmisModel EmisSpec EmisBrem EmisSynch EmisTab.
Open Scope R_scope.

(** C100.  Bnu_inv is Planck's law to thirteen digits, on both sides of the switch to a series. *)
Theorem C100_planck : forall CL ME HPL, 0 < CL -> 0 < ME -> 0 < HPL -> forall nu Thetae, 0 < nu -> 0 < Thetae ->
  let B := planck_inv HPL CL (ME * CL * CL * Thetae) nu in
  0 < B /\ B <= Bnu_inv CL ME HPL nu Thetae <= (1 + / 10 ^ 13) * B.
Proof. exact planck. Qed.
Print Assumptions C100_planck.
(** Kirchhoff: in a Planck spectrum as much is absorbed as is emitted, whatever the emissivity. *)
Theorem C100_kirchhoff : forall CL ME HPL, 0 < CL -> 0 < ME -> 0 < HPL -> forall j nu Thetae, 0 < nu -> 0 < Thetae -> 0 <= j ->
  let B := planck_inv HPL CL (ME * CL * CL * Thetae) nu in
  let absorbed := alpha_inv_abs CL ME HPL j nu Thetae * B in
  absorbed <= j / nu ^ 2 /\ (1 - / 10 ^ 13 - / 10 ^ 100 / B) * (j / nu ^ 2) <= absorbed.
Proof. exact kirchhoff. Qed.
Print Assumptions C100_kirchhoff.
(** Gray matter absorbs all frequencies alike, by its opacity. *)
Theorem C100_gray : forall CL ME MP HPL, 0 < CL -> 0 < ME -> 0 < HPL -> forall kappa Ne nu Thetae, 0 < nu -> 0 < Thetae -> 0 <= MP * Ne * kappa ->
  let a := alpha_inv_abs CL ME HPL (jnu_gray CL ME MP HPL kappa nu Ne Thetae) nu Thetae / nu in
  a <= MP * Ne * kappa /\ (1 - / 10 ^ 100 / Bnu_inv CL ME HPL nu Thetae) * (MP * Ne * kappa) <= a.
Proof. exact gray. Qed.
Print Assumptions C100_gray.
(** Its total emissivity is zero in the code although every frequency is emitted. *)
Theorem C100_gray_refuted : exists CL ME MP HPL kappa Ne Thetae, 0 < CL /\ 0 < ME /\ 0 < HPL /\ 0 < Thetae /\
  (forall nu, 0 < nu -> 0 < jnu_gray CL ME MP HPL kappa nu Ne Thetae) /\ J_gray Ne Thetae = 0.
Proof.
  exists 1, 1, 1, 1, 1, 1, 1. split; [lra|]. split; [lra|]. split; [lra|]. split; [lra|]. split; [|reflexivity]. intros nu N.
  destruct (gray_total 1 1 1 1 ltac:(lra) ltac:(lra) ltac:(lra) 1 1 nu 1 N ltac:(lra) ltac:(lra)) as (H & _). pose proof PI_RGT_0.
  apply (Rmult_lt_reg_l (4 * PI)); lra.
Qed.
Print Assumptions C100_gray_refuted.
(** J_brem is the integral of Jnu_brem over all frequencies: below N lies all but the share exp(-h N / kT). *)
Theorem C100_brem : forall EE CL ME HPL KBOL, 0 < CL -> 0 < ME -> 0 < HPL -> 0 < KBOL -> forall Ne Thetae N, 0 < Thetae -> 0 <= N ->
  exists I, is_RInt (fun nu => Jnu_brem EE CL ME HPL KBOL nu Ne Thetae) 0 N I /\
  let J := J_brem EE CL ME HPL KBOL Ne Thetae in
  Rabs (I - J * (1 - exp (- (HPL * N / (ME * CL * CL * Thetae))))) <= J / 10 ^ 20.
Proof. exact (fun EE CL ME HPL KBOL a b c d Ne Thetae N t n => brem_total EE CL ME HPL KBOL a b c d Ne Thetae N t n (brem_pos EE CL ME HPL KBOL a b c d Ne Thetae t)). Qed.
Print Assumptions C100_brem.
(** The emissivity falls as exp(-h nu / kT), to 1e-17. *)
Theorem C100_brem_spectrum : forall EE CL ME HPL KBOL, 0 < CL -> 0 < ME -> 0 < HPL -> 0 < KBOL -> forall Ne Thetae nu, 0 < Thetae -> 0 <= nu ->
  let x := HPL * nu / (ME * CL * CL * Thetae) in let j0 := jnu_brem EE CL ME HPL KBOL 0 Ne Thetae in
  0 <= j0 /\ Rabs (jnu_brem EE CL ME HPL KBOL nu Ne Thetae - j0 * exp (- x)) <= j0 / 10 ^ 17.
Proof. exact brem_spectrum. Qed.
Print Assumptions C100_brem_spectrum.
Example C100_nonvacuous : 0 < J_brem 1 1 1 1 1 1 1 /\ 0 < planck_inv 1 1 (1 * 1 * 1 * 1) 1 /\ (forall x, 0 <= x -> 0 < efac x).
Proof.
  pose proof PI_RGT_0. split; [|split].
  - unfold J_brem. cbv zeta. assert (0 < sqrt (2 * PI * 1 * (1 * 1 * 1 * 1 / 1) / (3 * 1))) by (apply sqrt_lt_R0; lra).
    apply Rmult_lt_0_compat; [|lra]. apply Rmult_lt_0_compat; [assumption|]. lra.
  - pose proof (planck 1 1 1 ltac:(lra) ltac:(lra) ltac:(lra) 1 1 ltac:(lra) ltac:(lra)) as Q. cbv zeta in Q. apply Q.
  - intros x X. pose proof (efac_near x X). pose proof (exp_pos (- x)). lra.
Qed.

(** C101.  J_synch against the synchrotron emissivity summed over frequencies and directions: it is too large by the factor Thetae. *)
Theorem C101_power : forall EE CL ME, 0 < EE -> 0 < CL -> 0 < ME -> forall k2 Ne Thetae B, 0 < Thetae -> 0 < B -> 0 < k2 -> 0 < Ne ->
  exists S, total_power (fun theta nu => jnu_synch_of EE CL ME k2 nu Ne Thetae B theta) S /\ 0 < S /\
  Rabs (J_synch_of EE CL ME k2 Ne Thetae B - Thetae * S) <= / 10 ^ 9 * (Thetae * S).
Proof. exact power_ratio. Qed.
Print Assumptions C101_power.
(** So J_synch is not the total. *)
Theorem C101_total_refuted : exists EE CL ME k2 Ne Thetae B S, THETAE_MIN <= Thetae <= TMAX /\
  total_power (fun theta nu => jnu_synch_of EE CL ME k2 nu Ne Thetae B theta) S /\ 0 < S /\ 9 * S < J_synch_of EE CL ME k2 Ne Thetae B.
Proof.
  destruct (power_ratio 1 1 1 ltac:(lra) ltac:(lra) ltac:(lra) 1 1 10 1 ltac:(lra) ltac:(lra) ltac:(lra) ltac:(lra)) as (S & P & S0 & R).
  exists 1, 1, 1, 1, 1, 10, 1, S. split; [unfold THETAE_MIN, TMAX; lra|]. split; [exact P|]. split; [exact S0|]. apply Rabs_le_between in R. lra.
Qed.
Print Assumptions C101_total_refuted.
(** The integrand tabulated for the angle average, times its prefactor, is the emissivity times the sine. *)
Theorem C101_sphere : forall EE CL ME, 0 < EE -> 0 < CL -> 0 < ME -> forall k2 nu Ne Thetae B theta,
  0 < Thetae -> 0 < B -> 0 < nu -> 0 < k2 -> 0 <= Ne -> 0 < theta < PI ->
  let K := KFAC EE CL ME * nu / (B * Thetae * Thetae) in
  let unit := Jnu_synch_of EE CL ME k2 1 Ne Thetae B in
  Rabs (sin theta * jnu_synch_of EE CL ME k2 nu Ne Thetae B theta - Jnu_synch_of EE CL ME k2 (jnu_integrand_synch K theta) Ne Thetae B) <= / 10 ^ 40 * unit.
Proof. exact sphere. Qed.
Print Assumptions C101_sphere.
(** The lookup of the Bessel function stays in its table and between its neighbours, except exactly at the end of the table. *)
Theorem C101_bessel : forall n K2 Thetae, (0 < n)%Z -> Z.of_nat (length K2) = (n + 1)%Z -> THETAE_MIN <= Thetae -> Thetae <> TMAX ->
  exists k, K2_eval_synch n K2 Thetae = Some k /\ 0 < k /\ (TMAX < Thetae -> k = 2 * Thetae ^ 2) /\
  (Thetae < TMAX -> exists i a b, (0 <= i < n)%Z /\ rd K2 i = Some a /\ rd K2 (i + 1) = Some b /\ Rmin (exp a) (exp b) <= k <= Rmax (exp a) (exp b)).
Proof. exact K2_in. Qed.
Print Assumptions C101_bessel.
(** At the temperatures of the table the tabulated value is returned. *)
Theorem C101_bessel_node : forall n K2 i a, (0 < n)%Z -> Z.of_nat (length K2) = (n + 1)%Z -> (0 <= i < n)%Z -> rd K2 i = Some a ->
  K2_eval_synch n K2 (exp (IZR i * (ln (TMAX / TMIN) / IZR n) + ln TMIN)) = Some (exp a).
Proof. exact K2_node. Qed.
Print Assumptions C101_bessel_node.
(** The same for the angle average. *)
Theorem C101_average : forall n F K, (0 < n)%Z -> Z.of_nat (length F) = (n + 1)%Z -> K <> KMAX ->
  exists f, linear_interp_F_synch n F K = Some f /\ (K < KMIN \/ KMAX < K -> f = 0) /\
  (KMIN <= K < KMAX -> exists i a b, (0 <= i < n)%Z /\ rd F i = Some a /\ rd F (i + 1) = Some b /\ Rmin (exp a) (exp b) <= f <= Rmax (exp a) (exp b)).
Proof. exact F_in. Qed.
Print Assumptions C101_average.
(** At their upper ends both lookups read one entry behind the array. *)
Theorem C101_end_refuted : exists n K2 F, (0 < n)%Z /\ Z.of_nat (length K2) = (n + 1)%Z /\ Z.of_nat (length F) = (n + 1)%Z /\
  K2_eval_synch n K2 TMAX = None /\ linear_interp_F_synch n F KMAX = None.
Proof.
  exists 2%Z, (1 :: 2 :: 3 :: nil), (1 :: 2 :: 3 :: nil). split; [lia|]. split; [reflexivity|]. split; [reflexivity|].
  split; [apply K2_end|apply F_end]; try lia; reflexivity.
Qed.
Print Assumptions C101_end_refuted.
Example C101_nonvacuous : exists S, total_power (fun theta nu => jnu_synch_of 1 1 1 1 nu 1 1 1 theta) S /\ 0 < S /\
  Rabs (J_synch_of 1 1 1 1 1 1 1 - 1 * S) <= / 10 ^ 9 * (1 * S).
Proof. apply power_ratio; lra. Qed.
Example C101_tables_nonvacuous : exists k, K2_eval_synch 2 (1 :: 2 :: 3 :: nil) 1 = Some k /\ 0 < k.
Proof.
  destruct (K2_in 2 (1 :: 2 :: 3 :: nil) 1 ltac:(lia) eq_refl ltac:(unfold THETAE_MIN; lra) ltac:(unfold TMAX; lra)) as (k & A & B & _). exists k. auto.
Qed.

(** C102.  The flat neutrino source: the total is the integral of the spectrum between its two frequencies. *)
Theorem C102_total : forall U T c lo hi em type Ye, lo < hi ->
  is_RInt (fun nu => Jnu_flat U T c lo hi em nu type Ye) lo hi (J_flat U T c lo hi em type Ye).
Proof. exact flat_total. Qed.
Print Assumptions C102_total.
(** Only the chosen kind of neutrino is emitted, in proportion to 2 Ye or 1 - 2 Ye; the band does not matter. *)
Theorem C102_kinds : forall U T c lo hi Ye, lo < hi -> 0 < T ->
  J_flat U T c lo hi NU_ELECTRON NU_ELECTRON Ye = 4 * PI * c * (2 * Ye) * U / T /\
  J_flat U T c lo hi ANTINU_ELECTRON ANTINU_ELECTRON Ye = 4 * PI * c * (1 - 2 * Ye) * U / T /\
  (forall em t, em <> t -> J_flat U T c lo hi em t Ye = 0) /\ J_flat U T c lo hi NU_HEAVY NU_HEAVY Ye = 0.
Proof. exact flat_sum. Qed.
Print Assumptions C102_kinds.
(** Outside the band nothing is emitted. *)
Theorem C102_band : forall U T c lo hi em nu type Ye, nu < lo \/ hi < nu -> Jnu_flat U T c lo hi em nu type Ye = 0.
Proof. exact flat_band. Qed.
Print Assumptions C102_band.
Example C102_nonvacuous : J_flat 1 1 1 1 3 NU_ELECTRON NU_ELECTRON (1 / 4) = 2 * PI /\ Jnu_flat 1 1 1 1 3 NU_ELECTRON 2 NU_ELECTRON (1 / 4) = PI.
Proof. unfold J_flat, Jnu_flat, jnu_flat. rewrite !Rleb_true by lra. cbn [andb nutype_eqb]. split; field. Qed.
