(** Lemmas for the ideal gas. *)
From Coq Require Import Reals Lra.
From Coquelicot Require Import Coquelicot.
From Verif Require Import RLib EosGModel EosGSpec.
Open Scope R_scope.

Section G.
Variable gam : R.
Lemma press_w rho u : gam <> 0 -> pressure_rho0_w gam rho (enthalpy_rho0_u gam rho u) = pressure_rho0_u gam rho u.
Proof. intros. unfold pressure_rho0_w, enthalpy_rho0_u, pressure_rho0_u. field. assumption. Qed.
Lemma u_of_press rho u : gam <> 1 -> u_press gam (pressure_rho0_u gam rho u) = u.
Proof. intros. unfold u_press, pressure_rho0_u. field. lra. Qed.
Lemma press_of_u rho p : gam <> 1 -> pressure_rho0_u gam rho (u_press gam p) = p.
Proof. intros. unfold u_press, pressure_rho0_u. field. lra. Qed.
Lemma press_temp rho u : rho <> 0 -> pressure_rho0_u gam rho u = rho * temp gam rho u.
Proof. intros. unfold temp, pressure_rho0_u. field. assumption. Qed.
Lemma enthalpy_is rho u : enthalpy_rho0_u gam rho u = rho + u + pressure_rho0_u gam rho u.
Proof. unfold enthalpy_rho0_u, pressure_rho0_u. ring. Qed.

Hypothesis g1 : 1 < gam.
Lemma sound_sq rho u : 0 < rho -> 0 <= u -> sound_speed_rho0_u gam rho u ^ 2 = gam * pressure_rho0_u gam rho u / (rho + u + pressure_rho0_u gam rho u).
Proof.
  intros P U. unfold sound_speed_rho0_u. rewrite enthalpy_is, pow2_sqrt; [reflexivity|].
  unfold pressure_rho0_u. assert (0 <= (gam - 1) * u) by (apply Rmult_le_pos; lra).
  apply Rmult_le_pos; [apply Rmult_le_pos; lra|]. apply Rlt_le, Rinv_0_lt_compat. lra.
Qed.
Lemma sound_sub rho u : gam <= 2 -> 0 < rho -> 0 <= u -> 0 <= sound_speed_rho0_u gam rho u < 1.
Proof.
  intros G P U. split; [apply sqrt_pos|]. unfold sound_speed_rho0_u. rewrite <- sqrt_1 at 1.
  unfold pressure_rho0_u, enthalpy_rho0_u.
  assert (E0 : 0 <= u * gam) by (apply Rmult_le_pos; lra).
  apply sqrt_lt_1; [|lra|].
  - apply Rmult_le_pos; [apply Rmult_le_pos; [lra|apply Rmult_le_pos; lra]|]. apply Rlt_le, Rinv_0_lt_compat. lra.
  - apply (Rmult_lt_reg_r (rho + u * gam)); [lra|]. replace (gam * ((gam - 1) * u) / (rho + u * gam) * (rho + u * gam)) with ((gam - 1) * (u * gam)) by (field; lra).
    assert ((gam - 1) * (u * gam) <= 1 * (u * gam)) by (apply Rmult_le_compat_r; lra). lra.
Qed.
(** on an adiabat *)
Lemma adiabat_const lo hi u : 0 <= lo -> adiabat (pressure_rho0_u gam) lo hi u -> constant_on lo hi (fun rho => entropy_rho0_u gam rho (u rho)).
Proof.
  intros L A. assert (D : forall r, lo < r < hi -> derivable_pt_lim (fun r => entropy_rho0_u gam r (u r)) r 0).
  { intros r I. specialize (A r I). apply is_derive_Reals. apply is_derive_Reals in A. unfold entropy_rho0_u, adiabatic_constant.
    assert (E : ex_derive u r) by (eexists; exact A). pose proof (is_derive_unique _ _ _ A) as DU.
    unfold Rpower. auto_derive; [repeat split; auto; lra|]. replace (Derive (fun x : R => u x) r) with ((u r + pressure_rho0_u gam r (u r)) / r) by (symmetry; exact DU).
    unfold pressure_rho0_u. set (e := exp _). field. lra. }
  intros a b Ia Ib.
  assert (Q : forall a b, a < b -> lo < a < hi -> lo < b < hi -> entropy_rho0_u gam a (u a) = entropy_rho0_u gam b (u b)).
  { clear a b Ia Ib. intros a b AB Ia Ib. destruct (MVT_cor2 (fun r => entropy_rho0_u gam r (u r)) (fun _ => 0) a b AB) as (c & E & _); [intros; apply D; lra|lra]. }
  destruct (Rtotal_order a b) as [H|[->|H]]; [now apply Q|reflexivity|symmetry; now apply Q].
Qed.
(** the sound speed is the derivative of pressure with energy density on it *)
Lemma sound_is lo hi u rho : 0 <= lo -> adiabat (pressure_rho0_u gam) lo hi u -> lo < rho < hi -> 0 <= u rho ->
  exists dp de, derivable_pt_lim (fun r => pressure_rho0_u gam r (u r)) rho dp /\ derivable_pt_lim (fun r => r + u r) rho de /\ 0 < de /\
    dp = sound_speed_rho0_u gam rho (u rho) ^ 2 * de.
Proof.
  intros L A I U. specialize (A rho I). set (du := (u rho + pressure_rho0_u gam rho (u rho)) / rho) in *.
  exists ((gam - 1) * du), (1 + du). split; [exact (derivable_pt_lim_scal u (gam - 1) rho du A)|].
  split; [apply (derivable_pt_lim_plus id u); [apply derivable_pt_lim_id|exact A]|].
  assert (P : 0 <= (gam - 1) * u rho) by (apply Rmult_le_pos; lra).
  assert (DU : 0 <= du). { unfold du, pressure_rho0_u. apply Rmult_le_pos; [lra|]. apply Rlt_le, Rinv_0_lt_compat. lra. }
  split; [lra|]. rewrite sound_sq by lra. unfold du, pressure_rho0_u. field. split; lra.
Qed.
(** ** Floors *)
Lemma maxs a b : a <= MY_MAX a b /\ b <= MY_MAX a b.
Proof. unfold MY_MAX. rcases; lra. Qed.
Lemma max_le a b c : a <= c -> b <= c -> MY_MAX a b <= c.
Proof. unfold MY_MAX. rcases; lra. Qed.
Lemma floors_pos scale u bsq : 0 < fst (set_floors gam scale u bsq) /\ 0 < snd (set_floors gam scale u bsq).
Proof.
  unfold set_floors, rho_floor, u_floor. cbn [fst snd]. unfold RHOMINLIMIT, UUMINLIMIT, RHOMINLIMIT.
  split.
  - pose proof (maxs (MY_MAX (MY_MAX (RHOMIN * scale) (/ 10 ^ 17)) (bsq / BSQORHOMAX)) (u / UORHOMAX)).
    pose proof (maxs (MY_MAX (RHOMIN * scale) (/ 10 ^ 17)) (bsq / BSQORHOMAX)). pose proof (maxs (RHOMIN * scale) (/ 10 ^ 17)). lra.
  - pose proof (maxs (MY_MAX (UUMIN * Rpower scale gam) (/ 10 ^ 3 * / 10 ^ 17)) (bsq / BSQOUMAX)). pose proof (maxs (UUMIN * Rpower scale gam) (/ 10 ^ 3 * / 10 ^ 17)). lra.
Qed.
Lemma floors_ratios scale u bsq rho' u' : 0 < scale <= 1 -> 0 <= bsq ->
  fst (set_floors gam scale u bsq) <= rho' -> snd (set_floors gam scale u bsq) <= u' -> u' = MY_MAX u (snd (set_floors gam scale u bsq)) ->
  bsq <= 50 * rho' /\ bsq <= 2500 * u' /\ u' <= 50 * rho'.
Proof using g1.
  intros S B. unfold set_floors. cbn [fst snd]. intros R U E.
  pose proof (maxs (rho_floor scale bsq) (u / UORHOMAX)) as M1. unfold rho_floor in M1 at 1.
  pose proof (maxs (MY_MAX (RHOMIN * scale) RHOMINLIMIT) (bsq / BSQORHOMAX)) as M2. pose proof (maxs (RHOMIN * scale) RHOMINLIMIT) as M3.
  pose proof (maxs (MY_MAX (UUMIN * Rpower scale gam) UUMINLIMIT) (bsq / BSQOUMAX)) as M4. unfold u_floor in U.
  unfold rho_floor in M1, R. unfold BSQORHOMAX, BSQOUMAX, UORHOMAX, RHOMINLIMIT, UUMINLIMIT in *.
  split; [lra|]. split; [lra|]. rewrite E. apply max_le; [lra|]. unfold u_floor, UUMINLIMIT, BSQOUMAX, RHOMINLIMIT.
  assert (P : Rpower scale gam <= scale).
  { rewrite <- (Rpower_1 scale) at 2 by lra. unfold Rpower. assert (LN : ln scale <= 0).
    { rewrite <- ln_1. destruct (Req_dec scale 1) as [->|N]; [lra|]. apply Rlt_le, ln_increasing; lra. }
    assert (Q : gam * ln scale <= 1 * ln scale) by (assert (0 <= (gam - 1) * (- ln scale)) by (apply Rmult_le_pos; lra); lra).
    destruct Q as [Q|Q]; [apply Rlt_le, exp_increasing, Q|rewrite Q; lra]. }
  assert (P0 : 0 < Rpower scale gam) by (apply exp_pos).
  apply max_le; [apply max_le|]; unfold UUMIN, RHOMIN in *; lra.
Qed.
End G.
(** ** Examples *)
Lemma adiabat_example : adiabat (pressure_rho0_u 2) 0 10 (fun rho => rho ^ 2) /\ sound_speed_rho0_u 2 1 1 ^ 2 = 2 / 3.
Proof.
  split.
  - intros rho H. apply is_derive_Reals. auto_derive; [exact I|]. unfold pressure_rho0_u. field. lra.
  - rewrite sound_sq by lra. unfold pressure_rho0_u. field.
Qed.
(** ** The polytrope *)
(** with the internal energy that belongs to it *)
Lemma poly_too_fast : exists rho u K Gam, 0 < rho /\ 0 < K /\ 1 < Gam <= 2 /\ u = K * Rpower rho Gam / (Gam - 1) /\
  Gam * (K * Rpower rho Gam) / (rho + u + K * Rpower rho Gam) < 1 /\ 1 < poly_sound_speed rho u K Gam.
Proof.
  assert (P : Rpower (/ 10) 2 = / 100) by (replace 2 with (INR 2) by (cbn; lra); rewrite Rpower_pow by lra; cbn; lra).
  exists (/ 10), 1, 100, 2. rewrite !P. repeat split; try lra.
  unfold poly_sound_speed, MY_MAX. rewrite Rltb_false by lra. rewrite Rltb_false by lra.
  cbv zeta. replace (2 - 1) with 1 by ring. rewrite Rpower_1 by lra. rewrite <- sqrt_1 at 1. apply sqrt_lt_1; lra.
Qed.
