(** The Klein-Nishina cross-section lies between zero and the Thomson one. *)
From Coq Require Import Reals Lra Psatz.
From Coquelicot Require Import Coquelicot.
From Verif Require Import RLib ScatModel ScatSpec.
Open Scope R_scope.

Lemma from_deriv (f g : R -> R) : (forall t, 1 <= t -> is_derive f t (g t)) -> f 1 = 0 -> (forall t, 1 < t -> 0 < g t) -> forall t, 1 < t -> 0 < f t.
Proof.
  intros D Z P t T. destruct (MVT_cor2 f g 1 t T) as (c & E & C).
  - intros c Hc. apply is_derive_Reals, D, Hc.
  - rewrite Z, Rminus_0_r in E. rewrite E. apply Rmult_lt_0_compat; [apply P, C|lra].
Qed.
(** 8 G, for t = 1 + 2 w, where G is 8/3 w^3 times the cross-section *)
Definition K0 t := t ^ 2 + 14 * t - 16 + 2 / t - 1 / t ^ 2 - (6 + 12 * t - 2 * t ^ 2) * ln t.
Definition K1 t := 4 * t + 2 - 6 / t - 2 / t ^ 2 + 2 / t ^ 3 - (12 - 4 * t) * ln t.
Definition K2 t := 8 - 12 / t + 6 / t ^ 2 + 4 / t ^ 3 - 6 / t ^ 4 + 4 * ln t.
Definition K3 t := 4 / t + 12 / t ^ 2 - 12 / t ^ 3 - 12 / t ^ 4 + 24 / t ^ 5.
Lemma dK0 t : 1 <= t -> is_derive K0 t (K1 t).
Proof. intros T. unfold K0, K1. auto_derive; [repeat split; try lra; intros E; nra|]. field. lra. Qed.
Lemma dK1 t : 1 <= t -> is_derive K1 t (K2 t).
Proof. intros T. unfold K1, K2. assert (t <> 0) by lra. auto_derive; [repeat split; try lra; repeat apply Rmult_integral_contrapositive_currified; lra|]. field. lra. Qed.
Lemma dK2 t : 1 <= t -> is_derive K2 t (K3 t).
Proof. intros T. unfold K2, K3. assert (t <> 0) by lra. auto_derive; [repeat split; try lra; repeat apply Rmult_integral_contrapositive_currified; lra|]. field. lra. Qed.
Lemma pow_mono t n m : 1 <= t -> (n <= m)%nat -> t ^ n <= t ^ m.
Proof. intros T N. apply Rle_pow; auto. Qed.
Lemma K3_pos t : 1 < t -> 0 < K3 t.
Proof.
  intros T. replace (K3 t) with (4 / t ^ 5 * (t ^ 4 + 3 * t ^ 3 - 3 * t ^ 2 - 3 * t + 6)) by (unfold K3; field; lra).
  apply Rmult_lt_0_compat; [apply Rdiv_lt_0_compat; [lra|apply pow_lt; lra]|].
  pose proof (pow_mono t 2 3 ltac:(lra) ltac:(auto)). assert (t ^ 2 * t ^ 2 = t ^ 4) by ring.
  assert (0 <= (t - 1) ^ 2 * (t + 1) ^ 2) by (apply Rmult_le_pos; apply pow2_ge_0). nra.
Qed.
Lemma K0_pos t : 1 < t -> 0 < K0 t.
Proof.
  revert t. apply (from_deriv K0 K1); [exact dK0|unfold K0; rewrite ln_1; field|]. 
  apply (from_deriv K1 K2); [exact dK1|unfold K1; rewrite ln_1; field|].
  apply (from_deriv K2 K3); [exact dK2|unfold K2; rewrite ln_1; field|exact K3_pos].
Qed.
(** the distance to the Thomson cross-section *)
Definition J0 t := 8 / 3 * (t - 1) ^ 3 - K0 t.
Definition J1 t := 8 * (t - 1) ^ 2 - K1 t.
Definition J2 t := 16 * (t - 1) - K2 t.
Definition J3 t := 16 - K3 t.
Lemma dJ0 t : 1 <= t -> is_derive J0 t (J1 t).
Proof. intros T. unfold J0, J1. apply (is_derive_minus (fun t => 8 / 3 * (t - 1) ^ 3) K0); [|apply dK0, T]. auto_derive; [auto|]. field. Qed.
Lemma dJ1 t : 1 <= t -> is_derive J1 t (J2 t).
Proof. intros T. unfold J1, J2. apply (is_derive_minus (fun t => 8 * (t - 1) ^ 2) K1); [|apply dK1, T]. auto_derive; [auto|]. ring. Qed.
Lemma dJ2 t : 1 <= t -> is_derive J2 t (J3 t).
Proof. intros T. unfold J2, J3. apply (is_derive_minus (fun t => 16 * (t - 1)) K2); [|apply dK2, T]. auto_derive; [auto|]. ring. Qed.
Lemma J3_pos t : 1 < t -> 0 < J3 t.
Proof.
  intros T. replace (J3 t) with (4 / t ^ 5 * (4 * t ^ 5 - t ^ 4 - 3 * t ^ 3 + 3 * t ^ 2 + 3 * t - 6)) by (unfold J3, K3; field; lra).
  apply Rmult_lt_0_compat; [apply Rdiv_lt_0_compat; [lra|apply pow_lt; lra]|].
  pose proof (pow_mono t 4 5 ltac:(lra) ltac:(auto)). pose proof (pow_mono t 3 5 ltac:(lra) ltac:(auto)). nra.
Qed.
Lemma J0_pos t : 1 < t -> 0 < J0 t.
Proof.
  revert t. apply (from_deriv J0 J1); [exact dJ0|unfold J0, K0; rewrite ln_1; field|]. 
  apply (from_deriv J1 J2); [exact dJ1|unfold J1, K1; rewrite ln_1; field|].
  apply (from_deriv J2 J3); [exact dJ2|unfold J2, K2; rewrite ln_1; field|exact J3_pos].
Qed.
Lemma kn_total_K0 w : 0 < w -> kn_total w = K0 (1 + 2 * w) / (64 / 3 * w ^ 3).
Proof. intros W. unfold kn_total, K0. field. lra. Qed.
Lemma kn_total_bounds w : 0 < w -> 0 < kn_total w < 1.
Proof.
  intros W. rewrite kn_total_K0 by auto. assert (P : 0 < 64 / 3 * w ^ 3) by (apply Rmult_lt_0_compat; [lra|apply pow_lt; auto]).
  pose proof (K0_pos (1 + 2 * w) ltac:(lra)) as A. pose proof (J0_pos (1 + 2 * w) ltac:(lra)) as B. unfold J0 in B.
  split; [apply Rdiv_lt_0_compat; auto|]. apply (Rmult_lt_reg_r (64 / 3 * w ^ 3)); [auto|]. unfold Rdiv. rewrite Rmult_assoc, Rinv_l by lra.
  replace (8 / 3 * (1 + 2 * w - 1) ^ 3) with (64 / 3 * w ^ 3) in B by field. lra.
Qed.
Lemma hc_kn_bounds w : 0 <= w -> 0 < hc_klein_nishina w <= 1.
Proof.
  intros W. unfold hc_klein_nishina. destruct (Rltb_spec w (1 / 1000)) as [C|C].
  - assert (0 <= w * w <= 1 / 1000 * w) by nra. assert (0 <= w * w * w <= 1 / 1000 * (w * w)) by nra. assert (0 <= w * w * w * w <= 1 / 1000 * (w * w * w)) by nra.
    lra.
  - pose proof (kn_total_bounds w ltac:(lra)) as B. unfold kn_total in B. lra.
Qed.
Lemma boostcross_ok w mue g : 0 <= w -> -1 <= mue <= 1 -> 1 <= g -> exists c, boostcross hc_klein_nishina w mue g = Some c /\ 0 < c <= 2.
Proof.
  intros W M G. unfold boostcross. cbv zeta. set (v := sqrt (g * g - 1) / g).
  assert (V : 0 <= v < 1).
  { unfold v. pose proof (sqrt_pos (g * g - 1)) as P. split; [apply Rmult_le_pos; [auto|left; apply Rinv_0_lt_compat; lra]|].
    apply (Rmult_lt_reg_r g); [lra|]. replace (sqrt (g * g - 1) / g * g) with (sqrt (g * g - 1)) by (field; lra). rewrite Rmult_1_l.
    apply Rsqr_incrst_0; [rewrite Rsqr_sqrt by nra; unfold Rsqr; lra|auto|lra]. }
  assert (Q : 0 < 1 - mue * v < 2) by nra.
  assert (E : 0 <= w * g * (1 - mue * v)) by (apply Rmult_le_pos; [apply Rmult_le_pos; lra|lra]).
  pose proof (hc_kn_bounds _ E) as B. set (f := hc_klein_nishina _) in *. clearbody f.
  assert (R : 0 < f * (1 - mue * v) <= 2). { split; [apply Rmult_lt_0_compat; lra|]. assert (f * (1 - mue * v) <= 1 * (1 - mue * v)) by (apply Rmult_le_compat_r; lra). lra. }
  rewrite Rltb_false by lra. eauto.
Qed.

(** ** The series at low energy *)
(** polynomials of the series up to the fifth power, with e times the next term *)
Definition P3 e t := let x := t - 1 in 16 - 64 * x + 208 * x ^ 2 - 532 * x ^ 3 + 1144 * x ^ 4 - e * x ^ 5.
Definition P2 e t := let x := t - 1 in 16 * x - 32 * x ^ 2 + 208 / 3 * x ^ 3 - 133 * x ^ 4 + 1144 / 5 * x ^ 5 - e / 6 * x ^ 6.
Definition P1 e t := let x := t - 1 in 8 * x ^ 2 - 32 / 3 * x ^ 3 + 52 / 3 * x ^ 4 - 133 / 5 * x ^ 5 + 1144 / 30 * x ^ 6 - e / 42 * x ^ 7.
Definition P0 e t := let x := t - 1 in 8 / 3 * x ^ 3 - 8 / 3 * x ^ 4 + 52 / 15 * x ^ 5 - 133 / 30 * x ^ 6 + 1144 / 210 * x ^ 7 - e / 336 * x ^ 8.
Lemma dP0 e t : is_derive (P0 e) t (P1 e t).
Proof. unfold P0, P1. cbv zeta. auto_derive; [auto|]. field. Qed.
Lemma dP1 e t : is_derive (P1 e) t (P2 e t).
Proof. unfold P1, P2. cbv zeta. auto_derive; [auto|]. field. Qed.
Lemma dP2 e t : is_derive (P2 e) t (P3 e t).
Proof. unfold P2, P3. cbv zeta. auto_derive; [auto|]. field. Qed.
Lemma P3_up t : 1 < t -> 0 < P3 0 t - K3 t.
Proof.
  intros T. set (x := t - 1). assert (X : 0 < x) by (unfold x; lra). assert (ET : t = 1 + x) by (unfold x; ring).
  replace (P3 0 t - K3 t) with (x ^ 5 * (2176 + 7096 * x + 8988 * x ^ 2 + 5188 * x ^ 3 + 1144 * x ^ 4) * / t ^ 5) by (unfold P3, K3; cbv zeta; fold x; rewrite ET; field; lra).
  pose proof (pow_lt x 2 X). pose proof (pow_lt x 3 X). pose proof (pow_lt x 4 X). pose proof (pow_lt x 5 X). apply Rmult_lt_0_compat; [apply Rmult_lt_0_compat; lra|]. apply Rinv_0_lt_compat, pow_lt. lra.
Qed.
Lemma P3_low t : 1 < t -> 0 < K3 t - P3 2176 t.
Proof.
  intros T. set (x := t - 1). assert (X : 0 < x) by (unfold x; lra). assert (ET : t = 1 + x) by (unfold x; ring).
  replace (K3 t - P3 2176 t) with (x ^ 6 * (3784 + 12772 * x + 16572 * x ^ 2 + 9736 * x ^ 3 + 2176 * x ^ 4) * / t ^ 5) by (unfold P3, K3; cbv zeta; fold x; rewrite ET; field; lra).
  pose proof (pow_lt x 2 X). pose proof (pow_lt x 3 X). pose proof (pow_lt x 4 X). pose proof (pow_lt x 6 X). apply Rmult_lt_0_compat; [apply Rmult_lt_0_compat; lra|]. apply Rinv_0_lt_compat, pow_lt. lra.
Qed.
Lemma P0_up t : 1 < t -> 0 < P0 0 t - K0 t.
Proof.
  revert t. apply (from_deriv (fun t => P0 0 t - K0 t) (fun t => P1 0 t - K1 t)).
  - intros t T. apply (is_derive_minus (P0 0) K0); [apply dP0|apply dK0, T].
  - unfold P0, K0. cbv zeta. rewrite ln_1. field.
  - apply (from_deriv (fun t => P1 0 t - K1 t) (fun t => P2 0 t - K2 t)).
    + intros t T. apply (is_derive_minus (P1 0) K1); [apply dP1|apply dK1, T].
    + unfold P1, K1. cbv zeta. rewrite ln_1. field.
    + apply (from_deriv (fun t => P2 0 t - K2 t) (fun t => P3 0 t - K3 t)); [|unfold P2, K2; cbv zeta; rewrite ln_1; field|exact P3_up].
      intros t T. apply (is_derive_minus (P2 0) K2); [apply dP2|apply dK2, T].
Qed.
Lemma P0_low t : 1 < t -> 0 < K0 t - P0 2176 t.
Proof.
  revert t. apply (from_deriv (fun t => K0 t - P0 2176 t) (fun t => K1 t - P1 2176 t)).
  - intros t T. apply (is_derive_minus K0 (P0 2176)); [apply dK0, T|apply dP0].
  - unfold P0, K0. cbv zeta. rewrite ln_1. field.
  - apply (from_deriv (fun t => K1 t - P1 2176 t) (fun t => K2 t - P2 2176 t)).
    + intros t T. apply (is_derive_minus K1 (P1 2176)); [apply dK1, T|apply dP1].
    + unfold P1, K1. cbv zeta. rewrite ln_1. field.
    + apply (from_deriv (fun t => K2 t - P2 2176 t) (fun t => K3 t - P3 2176 t)); [|unfold P2, K2; cbv zeta; rewrite ln_1; field|exact P3_low].
      intros t T. apply (is_derive_minus K2 (P2 2176)); [apply dK2, T|apply dP2].
Qed.
Lemma hc_kn_exact w : 0 < w -> 0 <= hc_klein_nishina w - kn_total w <= 544 / 7 * w ^ 5 /\ (1 / 1000 <= w -> hc_klein_nishina w = kn_total w) /\
  (w < 1 / 1000 -> hc_klein_nishina w - kn_total w <= 8 / 10 ^ 14).
Proof.
  intros W. unfold hc_klein_nishina. assert (W5 : 0 < w ^ 5) by (apply pow_lt, W). destruct (Rltb_spec w (1 / 1000)) as [C|C].
  - rewrite kn_total_K0 by auto. assert (P : 0 < 64 / 3 * w ^ 3) by (apply Rmult_lt_0_compat; [lra|apply pow_lt; auto]).
    pose proof (P0_up (1 + 2 * w) ltac:(lra)) as U. pose proof (P0_low (1 + 2 * w) ltac:(lra)) as L.
    assert (E0 : P0 0 (1 + 2 * w) = (1 - 2 * w + 5.2 * w * w - 13.3 * w * w * w + 1144 * w * w * w * w / 35) * (64 / 3 * w ^ 3)) by (replace 5.2 with (26 / 5) by lra; replace 13.3 with (133 / 10) by lra; unfold P0; cbv zeta; field).
    assert (E1 : P0 2176 (1 + 2 * w) = P0 0 (1 + 2 * w) - 544 / 7 * w ^ 5 * (64 / 3 * w ^ 3)) by (unfold P0; cbv zeta; field).
    set (ser := 1 - 2 * w + 5.2 * w * w - 13.3 * w * w * w + 1144 * w * w * w * w / 35) in *. set (D := 64 / 3 * w ^ 3) in *.
    set (k := K0 (1 + 2 * w)) in *. clearbody ser D k. assert (EK : k = k / D * D) by (field; lra). rewrite E1 in L. rewrite E0 in *.
    assert (B : 0 <= ser - k / D <= 544 / 7 * w ^ 5).
    { split; apply (Rmult_le_reg_r D); auto; rewrite Rmult_minus_distr_r, <- EK; lra. }
    split; [exact B|]. split; [lra|]. intros _.
    assert (W6 : w ^ 5 <= (1 / 1000) ^ 5) by (apply pow_incr; lra). lra.
  - fold (kn_total w). split; [lra|]. split; [reflexivity|lra].
Qed.
