(** Averages of the Klein-Nishina and of the quadratic cross-section; the lookup. *)
From Coq Require Import Reals Bool ZArith Lia Lra Psatz.
From Coquelicot Require Import Coquelicot.
From Verif Require Import RLib XLib IntLib ScatModel ScatSpec ScatKN ScatCross ThermModel ThermSpec ThermProofs.
Open Scope R_scope.

(** ** Klein-Nishina falls at most linearly from one *)
Definition L0 t := let x := t - 1 in 8 / 3 * x ^ 3 - 8 / 3 * x ^ 4.
Definition L1 t := let x := t - 1 in 8 * x ^ 2 - 32 / 3 * x ^ 3.
Definition L2 t := let x := t - 1 in 16 * x - 32 * x ^ 2.
Definition L3 t := let x := t - 1 in 16 - 64 * x.
Lemma dL0 t : is_derive L0 t (L1 t).
Proof. unfold L0, L1. cbv zeta. auto_derive; [auto|]. field. Qed.
Lemma dL1 t : is_derive L1 t (L2 t).
Proof. unfold L1, L2. cbv zeta. auto_derive; [auto|]. field. Qed.
Lemma dL2 t : is_derive L2 t (L3 t).
Proof. unfold L2, L3. cbv zeta. auto_derive; [auto|]. field. Qed.
Lemma L3_low t : 1 < t -> 0 < K3 t - L3 t.
Proof.
  intros T. set (x := t - 1). assert (X : 0 < x) by (unfold x; lra). assert (ET : t = 1 + x) by (unfold x; ring).
  replace (K3 t - L3 t) with (x ^ 2 * (208 + 508 * x + 564 * x ^ 2 + 304 * x ^ 3 + 64 * x ^ 4) * / t ^ 5) by (unfold L3, K3; cbv zeta; fold x; rewrite ET; field; lra).
  pose proof (pow_lt x 2 X). pose proof (pow_lt x 3 X). pose proof (pow_lt x 4 X). apply Rmult_lt_0_compat; [apply Rmult_lt_0_compat; lra|]. apply Rinv_0_lt_compat, pow_lt. lra.
Qed.
Lemma L0_low t : 1 < t -> 0 < K0 t - L0 t.
Proof.
  revert t. apply (from_deriv (fun t => K0 t - L0 t) (fun t => K1 t - L1 t)).
  - intros t T. apply (is_derive_minus K0 L0); [apply dK0, T|apply dL0].
  - unfold L0, K0. cbv zeta. rewrite ln_1. field.
  - apply (from_deriv (fun t => K1 t - L1 t) (fun t => K2 t - L2 t)).
    + intros t T. apply (is_derive_minus K1 L1); [apply dK1, T|apply dL1].
    + unfold L1, K1. cbv zeta. rewrite ln_1. field.
    + apply (from_deriv (fun t => K2 t - L2 t) (fun t => K3 t - L3 t)); [|unfold L2, K2; cbv zeta; rewrite ln_1; field|exact L3_low].
      intros t T. apply (is_derive_minus K2 L2); [apply dK2, T|apply dL2].
Qed.
Lemma hc_kn_low w : 0 <= w -> 1 - 2 * w <= hc_klein_nishina w.
Proof.
  intros [W|<-].
  - destruct (hc_kn_exact w W) as ((A & _) & _). assert (B : 1 - 2 * w <= kn_total w); [|lra].
    rewrite kn_total_K0 by auto. pose proof (L0_low (1 + 2 * w) ltac:(lra)) as L. unfold L0 in L. cbv zeta in L.
    assert (P : 0 < 64 / 3 * w ^ 3) by (apply Rmult_lt_0_compat; [lra|apply pow_lt; auto]).
    apply (Rmult_le_reg_r (64 / 3 * w ^ 3)); [auto|]. unfold Rdiv at 2. rewrite Rmult_assoc, Rinv_l by lra. rewrite Rmult_1_r. ring_simplify in L. ring_simplify. lra.
  - unfold hc_klein_nishina. rewrite Rltb_true by lra. lra.
Qed.
Lemma vel_range g : 1 < g -> 0 <= velocity g < 1.
Proof.
  intros G. unfold velocity. replace (g ^ 2) with (g * g) by ring. pose proof (sqrt_pos (g * g - 1)) as P. split; [apply Rmult_le_pos; [auto|left; apply Rinv_0_lt_compat; lra]|].
  apply (Rmult_lt_reg_r g); [lra|]. replace (sqrt (g * g - 1) / g * g) with (sqrt (g * g - 1)) by (field; lra). rewrite Rmult_1_l.
  apply Rsqr_incrst_0; [rewrite Rsqr_sqrt by nra; unfold Rsqr; lra|auto|lra].
Qed.
Lemma doppler g mu : 1 < g -> -1 < mu < 1 -> 0 < 1 - mu * velocity g < 2.
Proof. intros G M. pose proof (vel_range g G). nra. Qed.
Lemma cosine_in l : (l < 40)%nat -> -1 < cosine l < 1.
Proof. intros L. assert (INR l <= 39) by (replace 39 with (INR 39) by (cbn; lra); apply le_INR; lia). pose proof (pos_INR l). unfold cosine. lra. Qed.
Definition bk w mu g := hc_klein_nishina (w * g * (1 - mu * velocity g)) * (1 - mu * velocity g).
Section Light.
Variable K2 : R -> R.
Hypothesis KP : forall x, 0 < x -> 0 < K2 x.
Variables w th : R.
Hypotheses (W : 0 <= w) (T : MINT <= th).
Lemma th_pos : 0 < th.
Proof using T. unfold MINT in T. assert (0 < / 10 ^ 3) by (apply Rinv_0_lt_compat, pow_lt; lra). lra. Qed.
Lemma light_is fuel : (240 < fuel)%nat -> total_cross_num_light K2 fuel w th = Some (over_energy K2 th (fun g => over_angle (fun mu => bk w mu g))).
Proof using KP W T.
  intros F. unfold total_cross_num_light. rewrite Rltb_false by lra. cbn [andb]. pose proof th_pos as T0. apply (average_is K2 KP fuel _ (bk w)); [assumption|assumption|].
  intros l k L K. pose proof (lorentz_gt th k T0) as G. pose proof (cosine_in l L) as M. destruct (boostcross_ok w (cosine l) (lorentz th k) W ltac:(lra) ltac:(lra)) as (c & E & _).
  revert E. unfold boostcross, bk, velocity. cbv zeta. replace (lorentz th k ^ 2) with (lorentz th k * lorentz th k) by ring. destruct (Rltb 2 _); [discriminate|reflexivity].
Qed.
Lemma bk_range g mu : 1 < g -> -1 < mu < 1 -> 0 < bk w mu g <= 1 - mu * velocity g /\ (1 - 4 * w * g) * (1 - mu * velocity g) <= bk w mu g.
Proof using W.
  intros G M. pose proof (doppler g mu G M) as D. assert (E : 0 <= w * g * (1 - mu * velocity g)) by (apply Rmult_le_pos; [apply Rmult_le_pos; lra|lra]).
  pose proof (hc_kn_bounds _ E) as B. pose proof (hc_kn_low _ E) as L. unfold bk. set (d := 1 - mu * velocity g) in *. clearbody d. set (f := hc_klein_nishina _) in *. clearbody f.
  split; [split; [apply Rmult_lt_0_compat; lra|]|].
  - assert (f * d <= 1 * d) by (apply Rmult_le_compat_r; lra). lra.
  - apply Rmult_le_compat_r; [lra|]. assert (0 <= w * g) by (apply Rmult_le_pos; lra). assert (w * g * d <= w * g * 2) by (apply Rmult_le_compat_l; lra). lra.
Qed.
Lemma light_avg fuel : (240 < fuel)%nat -> exists c, total_cross_num_light K2 fuel w th = Some c /\
  0 < c <= over_energy K2 th (fun _ => 1) /\ (1 - 4 * w * (1 + 12 * th)) * over_energy K2 th (fun _ => 1) <= c.
Proof using KP W T.
  intros F. pose proof th_pos as T0. eexists. split; [apply light_is, F|]. split; [split|].
  - apply over_energy_pos; [exact KP|exact T0|]. intros g G. apply over_angle_pos. intros mu M. apply bk_range; lra.
  - apply over_energy_le; [exact KP|exact T0|]. intros g G. apply (Rle_trans _ (over_angle (fun mu => 1 - mu * velocity g))); [|rewrite angle_1; lra]. apply over_angle_le. intros mu M. apply bk_range; lra.
  - rewrite <- over_energy_scal. apply over_energy_le; [exact KP|exact T0|]. intros g G. rewrite Rmult_1_r.
    apply (Rle_trans _ (over_angle (fun mu => (1 - 4 * w * g) * (1 - mu * velocity g)))).
    + rewrite angle_sum, angle_1, Rmult_1_r. assert (w * g <= w * (1 + 12 * th)) by (apply Rmult_le_compat_l; lra). lra.
    + apply over_angle_le. intros mu M. apply bk_range; lra.
Qed.
Lemma light_full fuel : (240 < fuel)%nat -> exists c, total_cross_num_light K2 fuel w th = Some c /\
  c = over_energy K2 th (fun g => over_angle (fun mu => hc_klein_nishina (w * g * (1 - mu * velocity g)) * (1 - mu * velocity g))) /\
  0 < c <= over_energy K2 th (fun _ => 1) /\ (1 - 4 * w * (1 + 12 * th)) * over_energy K2 th (fun _ => 1) <= c.
Proof using KP W T.
  intros F. destruct (light_avg fuel F) as (c & E & H). exists c. split; [exact E|]. split; [|exact H]. rewrite (light_is fuel F) in E. injection E as <-. reflexivity.
Qed.
(** the Thomson limit of the lookup *)
Lemma thomson_limit fuel : (240 < fuel)%nat -> w * th < / 10 ^ 6 -> exists c, total_cross_num_light K2 fuel w th = Some c /\
  (1 - 5 / 1000) * over_energy K2 th (fun _ => 1) <= c <= over_energy K2 th (fun _ => 1).
Proof using KP W T.
  intros F L. destruct (light_avg fuel F) as (c & E & (_ & U) & B). exists c. split; [exact E|]. split; [|exact U].
  pose proof th_pos as T0. eapply Rle_trans; [|exact B]. apply Rmult_le_compat_r.
  - apply Rlt_le, over_energy_pos; [exact KP|exact T0|]. intros. lra.
  - assert (Q : w <= / 10 ^ 3). { apply (Rmult_le_reg_r th); [exact T0|]. assert (/ 10 ^ 3 * / 10 ^ 3 = / 10 ^ 6) by field. unfold MINT in T.
      assert (0 < / 10 ^ 3) by (apply Rinv_0_lt_compat, pow_lt; lra). assert (/ 10 ^ 3 * / 10 ^ 3 <= / 10 ^ 3 * th) by (apply Rmult_le_compat_l; lra). lra. }
    lra.
Qed.
End Light.
(** ** Quadratic *)
Lemma nu_avg K2 : (forall x, 0 < x -> 0 < K2 x) -> forall fuel wmax w th, (240 < fuel)%nat -> 0 <= w -> 0 < th -> 2 * w * (1 + 12 * th) <= wmax ->
  total_cross_num_nu K2 fuel wmax w th = Some (w ^ 2 * over_energy K2 th (fun g => g ^ 2 + 1599 / 1600 * (g ^ 2 - 1))).
Proof.
  intros KP fuel wmax w th F W T M. unfold total_cross_num_nu.
  rewrite (average_is K2 KP fuel _ (fun mu g => (w * g) ^ 2 * (1 - mu * velocity g) ^ 3) th F T).
  - f_equal. rewrite <- over_energy_scal. apply over_energy_ext; [exact T|]. intros g G. rewrite angle_sum, angle_3. unfold velocity.
    assert (S : sqrt (g ^ 2 - 1) ^ 2 = g ^ 2 - 1) by (apply pow2_sqrt; assert (1 * 1 <= g * g) by (apply Rmult_le_compat; lra); lra).
    replace ((sqrt (g ^ 2 - 1) / g) ^ 2) with (sqrt (g ^ 2 - 1) ^ 2 / g ^ 2) by (field; lra). rewrite S. field. lra.
  - intros l k L K. pose proof (lorentz_gt th k T) as G. pose proof (lorentz_lt th k T K) as GL. pose proof (cosine_in l L) as C. pose proof (doppler _ _ G C) as D.
    unfold boostcross_nu. cbv zeta. f_equal. replace (sqrt (lorentz th k * lorentz th k - 1) / lorentz th k) with (velocity (lorentz th k)) by (unfold velocity; do 2 f_equal; ring).
    set (g := lorentz th k) in *. set (d := 1 - cosine l * velocity g) in *. unfold hc_quad. destruct (Rleb_spec wmax (w * g * d)) as [H|H]; [|ring].
    assert (E : w * g * d = wmax); [|rewrite <- E; ring].
    assert (0 <= w * g) by (apply Rmult_le_pos; lra). assert (w * g * d <= w * g * 2) by (apply Rmult_le_compat_l; lra).
    assert (w * g <= w * (1 + 12 * th)) by (apply Rmult_le_compat_l; lra). lra.
Qed.
(** ** The lookup *)
Lemma rp10 e a b : a <= e <= b -> Rpower 10 a <= Rpower 10 e <= Rpower 10 b.
Proof. intros H. split; apply Rle_Rpower; lra. Qed.
Lemma ax_w M : 2 / 10 ^ 16 < M -> 0 < MINW /\ MINW * (1 + 1 / 100) < M /\ MINW < M * (1 - 1 / 100).
Proof.
  intros H. unfold MINW. unfold Rdiv in H. assert (0 < / 10 ^ 16) by (apply Rinv_0_lt_compat, pow_lt; lra). set (m := / 10 ^ 16) in *. clearbody m. lra.
Qed.
Lemma ax_t : 0 < MINT /\ MINT * (1 + 1 / 100) < MAXT /\ MINT < MAXT * (1 - 1 / 100).
Proof. unfold MINT, MAXT. assert (10 < 10 ^ 11) by (rewrite <- (pow_1 10) at 1; apply Rlt_pow; [lra|lia]). assert (0 < / 10 ^ 3 < 1 / 100) by (split; [apply Rinv_0_lt_compat, pow_lt; lra|lra]). lra. Qed.
Lemma table_range MAXW table a b w th : 2 / 10 ^ 16 < MAXW ->
  (forall i j, (0 <= i <= NW)%Z -> (0 <= j <= NT)%Z -> exists v, table i j = Some v /\ a <= v <= b) ->
  exists e, interpolate_hc_table MINW MAXW MINT MAXT table w th = Looked e /\ a <= e <= b.
Proof.
  intros M H. destruct (ax_w MAXW M) as (w0 & w1 & w2). destruct ax_t as (t0 & t1 & t2).
  pose proof (truncate_in MINW MAXW w w0 w1 w2) as RW. pose proof (truncate_in MINT MAXT th t0 t1 t2) as RT.
  destruct (lookup_ok MINW MAXW MINT MAXT table (truncate MINW MAXW w) (truncate MINT MAXT th)) as (i & j & p & q & r & s & e & I & J & E1 & E2 & E3 & E4 & L & Hu & _).
  - intros i j I J. destruct (H i j I J) as (v & E & _). eauto.
  - lra. - lra. - lra. - lra.
  - exists e. split; [exact L|]. destruct (H i j ltac:(lia) ltac:(lia)) as (? & F1 & B1). destruct (H (i + 1)%Z j ltac:(lia) ltac:(lia)) as (? & F2 & B2).
    destruct (H i (j + 1)%Z ltac:(lia) ltac:(lia)) as (? & F3 & B3). destruct (H (i + 1)%Z (j + 1)%Z ltac:(lia) ltac:(lia)) as (? & F4 & B4).
    assert (x = p) by congruence. assert (x0 = q) by congruence. assert (x1 = r) by congruence. assert (x2 = s) by congruence. subst.
    unfold hull4 in Hu. revert Hu. unfold Rmin, Rmax. repeat destruct Rle_dec; lra.
Qed.
Lemma lkup_light K2 fuel MAXW THOMSON table a b w th : 2 / 10 ^ 16 < MAXW -> 0 < THOMSON -> 0 <= w ->
  (forall i j, (0 <= i <= NW)%Z -> (0 <= j <= NT)%Z -> exists v, table i j = Some v /\ a <= v <= b) ->
  exists c, total_cross_lkup_light K2 fuel MAXW THOMSON table w th = Some c /\ 0 < c /\
    (w * th < / 10 ^ 6 -> c = THOMSON) /\
    (/ 10 ^ 6 <= w * th -> th < / 10 ^ 3 -> c = kn_total w * THOMSON) /\
    (/ 10 ^ 6 <= w * th -> / 10 ^ 3 <= th -> THOMSON * Rpower 10 a <= c <= THOMSON * Rpower 10 b).
Proof.
  intros M TH W H. unfold total_cross_lkup_light. fold MINT. destruct (Rltb_spec (w * th) (/ 10 ^ 6)) as [A|A].
  { exists THOMSON. repeat split; auto; intros; lra. }
  destruct (Rltb_spec th MINT) as [B|B].
  - pose proof (hc_kn_bounds w W) as K. eexists. split; [reflexivity|]. split; [apply Rmult_lt_0_compat; lra|]. split; [lra|]. split; [|lra].
    intros _ _. f_equal. unfold MINT in B. assert (P : 0 < / 10 ^ 3) by (apply Rinv_0_lt_compat, pow_lt; lra). assert (Q : / 10 ^ 3 * / 10 ^ 3 = / 10 ^ 6) by field.
    assert (w * th <= w * / 10 ^ 3) by (apply Rmult_le_compat_l; lra). assert (R : / 10 ^ 3 <= w) by (apply (Rmult_le_reg_r (/ 10 ^ 3)); lra).
    apply hc_kn_exact; [lra|]. replace (1 / 1000) with (/ 10 ^ 3) by field. exact R.
  - destruct (table_range MAXW table a b w th M H) as (e & -> & E). eexists. split; [reflexivity|]. pose proof (rp10 e a b E) as P.
    assert (0 < Rpower 10 e) by apply exp_pos. split; [apply Rmult_lt_0_compat; assumption|]. split; [lra|]. split; [lra|]. intros _ _. split; apply Rmult_le_compat_l; lra.
Qed.
Lemma lkup_nu K2 fuel MAXW wmax table a b w th t A Z : 2 / 10 ^ 16 < MAXW -> 0 <= w -> 0 <= wmax ->
  (forall i j, (0 <= i <= NW)%Z -> (0 <= j <= NT)%Z -> exists v, table i j = Some v /\ a <= v <= b) ->
  exists c s, total_cross_lkup_nu K2 fuel MAXW wmax table w th t A Z = Some c /\ c = nu_cross_factor s t A Z /\ 0 <= c /\
    (th < / 10 ^ 3 -> s = Rmin w wmax ^ 2) /\ (/ 10 ^ 3 <= th -> Rpower 10 a <= s <= Rpower 10 b).
Proof.
  intros M W WM H. unfold total_cross_lkup_nu. fold MINT. destruct (Rltb_spec th MINT) as [C|C].
  - exists (nu_total wmax w t A Z), (hc_quad wmax w). split; [reflexivity|]. split; [reflexivity|]. split; [|split; [|lra]]; [|intros _; unfold hc_quad, Rmin; destruct (Rleb_spec wmax w), (Rle_dec w wmax); try ring; replace w with wmax by lra; ring].
    unfold nu_total. rewrite factor_lin. apply Rmult_le_pos; [apply quad_range; assumption|apply coef_pos].
  - destruct (table_range MAXW table a b w th M H) as (e & -> & E). exists (nu_cross_factor (Rpower 10 e) t A Z), (Rpower 10 e).
    split; [reflexivity|]. split; [reflexivity|]. split; [rewrite factor_lin; apply Rmult_le_pos; [apply Rlt_le, exp_pos|apply coef_pos]|]. split; [lra|intros _; apply rp10, E].
Qed.
(** cold electrons, energetic light *)
Lemma cold_refuted : exists w th, 0 < th < / 10 ^ 3 /\
  (forall K2 fuel MAXW THOMSON table, total_cross_lkup_light K2 fuel MAXW THOMSON table w th = Some THOMSON) /\ kn_total w < / 20.
Proof.
  exists 100, (/ 10 ^ 9). assert (P : forall n, 0 < / 10 ^ n) by (intros; apply Rinv_0_lt_compat, pow_lt; lra). split; [|split].
  - split; [apply P|]. apply Rinv_lt_contravar; [apply Rmult_lt_0_compat; apply pow_lt; lra|]. apply Rlt_pow; [lra|lia].
  - intros. unfold total_cross_lkup_light. rewrite Rltb_true; [reflexivity|]. replace (100 * / 10 ^ 9) with (/ 10 ^ 7) by field.
    apply Rinv_lt_contravar; [apply Rmult_lt_0_compat; apply pow_lt; lra|]. apply Rlt_pow; [lra|lia].
  - assert (L2 : ln 2 < 1). { rewrite <- (ln_exp 1). apply ln_increasing; [lra|]. pose proof (exp_ineq1 1 ltac:(lra)). lra. }
    assert (L : ln (1 + 2 * 100) < 8). { apply (Rlt_trans _ (ln (2 ^ 8))); [apply ln_increasing; lra|]. rewrite ln_pow by lra. replace (INR 8) with 8 by (cbn; lra). lra. }
    unfold kn_total. set (l := ln (1 + 2 * 100)) in *. clearbody l. lra.
Qed.
