(** Synchrotron radiation: sums over frequency and direction, tables. *)
From Coq Require Import Reals Bool ZArith List Lia Lra.
From Coquelicot Require Import Coquelicot.
From Verif Require Import RLib XLib IntLib EmisModel EmisSpec EmisBrem.
Open Scope R_scope.

(** ** The shape of the spectrum in the variable y, the cube root of x *)
Lemma cbrt_pos x : 0 < Rpower x (1 / 3).
Proof. apply exp_pos. Qed.
Lemma cbrt_cube x : 0 < x -> Rpower x (1 / 3) ^ 3 = x.
Proof. intros X. rewrite <- Rpower_pow by apply cbrt_pos. rewrite Rpower_mult. replace (1 / 3 * INR 3) with 1 by (cbn [INR]; field). apply Rpower_1, X. Qed.
Lemma cube_le a b : 0 <= a -> 0 <= b -> a ^ 3 <= b ^ 3 -> a <= b.
Proof. intros A B H. apply Rnot_lt_le. intros L. apply (Rle_not_lt _ _ H). replace (b ^ 3) with (b * (b * b)) by ring. replace (a ^ 3) with (a * (a * a)) by ring.
  assert (b * b <= a * a) by (apply Rmult_le_compat; lra). assert (0 < a * a) by (apply Rmult_lt_0_compat; lra).
  apply (Rle_lt_trans _ (b * (a * a))); [apply Rmult_le_compat_l; lra|apply Rmult_lt_compat_r; lra]. Qed.
Lemma shape c x : 0 < x -> let y := Rpower x (1 / 3) in (sqrt x + c * sqrt y) * (sqrt x + c * sqrt y) = y * (y + c) ^ 2.
Proof.
  intros X y. assert (Y : 0 < y) by apply cbrt_pos. assert (E : sqrt x = y * sqrt y).
  { rewrite <- (cbrt_cube x X). fold y. replace (y ^ 3) with (y * y * y) by ring. rewrite sqrt_mult by (try apply Rmult_le_pos; lra). rewrite sqrt_square by lra. reflexivity. }
  rewrite E. replace ((y * sqrt y + c * sqrt y) * (y * sqrt y + c * sqrt y)) with ((y + c) ^ 2 * (sqrt y * sqrt y)) by ring. rewrite sqrt_sqrt by lra. ring.
Qed.
Definition Q3 y : R := 6 + 6 * y + 3 * y ^ 2 + y ^ 3.
Definition Q4 y : R := 24 + 24 * y + 12 * y ^ 2 + 4 * y ^ 3 + y ^ 4.
Definition Q5 y : R := 120 + 120 * y + 60 * y ^ 2 + 20 * y ^ 3 + 5 * y ^ 4 + y ^ 5.
(** the integral of 3 y^2 times the spectrum from y to infinity *)
Definition tail c y : R := 3 * exp (- y) * (Q5 y + 2 * c * Q4 y + c ^ 2 * Q3 y).
Lemma tail_derive c y : is_derive (tail c) y (- (3 * y ^ 2 * (y * (y + c) ^ 2 * exp (- y)))).
Proof. unfold tail, Q3, Q4, Q5. auto_derive; [auto|]. ring. Qed.
Lemma tail_pos c y : 0 <= c -> 0 <= y -> 0 < tail c y.
Proof.
  intros C Y. unfold tail, Q3, Q4, Q5. pose proof (exp_pos (- y)). pose proof (pow_le y 2 Y). pose proof (pow_le y 3 Y). pose proof (pow_le y 4 Y). pose proof (pow_le y 5 Y). pose proof (pow_le c 2 C).
  apply Rmult_lt_0_compat; [lra|]. assert (0 <= 2 * c * (24 + 24 * y + 12 * y ^ 2 + 4 * y ^ 3 + y ^ 4)) by (apply Rmult_le_pos; lra). assert (0 <= c ^ 2 * (6 + 6 * y + 3 * y ^ 2 + y ^ 3)) by (apply Rmult_le_pos; lra). lra.
Qed.
Lemma tail_0 c : tail c 0 = 36 * (10 + 4 * c + c ^ 2 / 2).
Proof. unfold tail, Q3, Q4, Q5. rewrite Ropp_0, exp_0. field. Qed.
Lemma tail_continuous c y : continuity_pt (tail c) y.
Proof. apply continuity_pt_filterlim. apply (ex_derive_continuous (V := R_NormedModule)). eexists. apply tail_derive. Qed.
(** the spectrum of one angle and its primitive *)
Definition spec c s nu : R := let y := Rpower (nu / s) (1 / 3) in y * (y + c) ^ 2 * exp (- y).
Lemma spec_int c s d N : 0 < s -> 0 < d -> d <= N ->
  is_RInt (spec c s) d N (s * (tail c (Rpower (d / s) (1 / 3)) - tail c (Rpower (N / s) (1 / 3)))).
Proof.
  intros S D DN. replace (s * (tail c (Rpower (d / s) (1 / 3)) - tail c (Rpower (N / s) (1 / 3)))) with (- s * tail c (Rpower (N / s) (1 / 3)) - - s * tail c (Rpower (d / s) (1 / 3))) by ring.
  apply (is_RInt_derive (fun nu => - s * tail c (Rpower (nu / s) (1 / 3)))).
  - intros x. rewrite Rmin_left, Rmax_right by lra. intros X. assert (P : 0 < x / s) by (apply Rdiv_lt_0_compat; lra).
    assert (DY : is_derive (fun nu => Rpower (nu / s) (1 / 3)) x (Rpower (x / s) (1 / 3) / (3 * x))).
    { unfold Rpower. auto_derive; [exact P|]. change (x * / s) with (x / s). set (L := exp _). field. lra. }
    pose proof (is_derive_comp (tail c) (fun nu => Rpower (nu / s) (1 / 3)) x _ _ (tail_derive c _) DY) as DC.
    pose proof (is_derive_scal (fun nu => tail c (Rpower (nu / s) (1 / 3))) x (- s) _ DC) as DS. cbn in DS.
    evar_last; [exact DS|]. unfold scal. cbn. unfold mult. cbn. unfold spec. cbv zeta. pose proof (cbrt_cube (x / s) P) as C. set (y := Rpower (x / s) (1 / 3)) in *.
    assert (E : x = s * y ^ 3) by (rewrite C; field; lra). assert (Y : 0 < y) by apply cbrt_pos. clearbody y. rewrite E. field. split; lra.
  - intros x. rewrite Rmin_left, Rmax_right by lra. intros X. assert (P : 0 < x / s) by (apply Rdiv_lt_0_compat; lra).
    apply (ex_derive_continuous (V := R_NormedModule)). unfold spec, Rpower. auto_derive. repeat split; exact P.
Qed.
Lemma CST_pos : 0 < CST.
Proof. unfold CST. lra. Qed.

Section Synch.
Variables EE CL ME : R.
Hypotheses (PE : 0 < EE) (PC : 0 < CL) (PM : 0 < ME).
Notation nu_s := (nu_s EE CL ME).
Notation jnu := (jnu_synch_of EE CL ME).
Lemma nus_pos th B theta : 0 < th -> 0 < B -> 0 < theta < PI -> 0 < nu_s th B theta.
Proof using PE PC PM.
  intros T B0 A. unfold EmisModel.nu_s. cbv zeta. pose proof PI_RGT_0. assert (0 < sin theta) by (apply sin_gt_0; lra).
  assert (0 < EE * B / (2 * PI * ME * CL)) by (apply Rdiv_lt_0_compat; repeat first [assumption | lra | apply Rmult_lt_0_compat]).
  repeat first [assumption | lra | apply Rmult_lt_0_compat].
Qed.
Definition pre k2 Ne s : R := sqrt 2 * PI * EE * EE * Ne * s / (3 * CL * k2).
Lemma jnu_below k2 nu Ne th B theta : 0 < th -> 0 < B -> 0 < theta < PI -> 0 < nu <= 10 ^ 12 * nu_s th B theta ->
  jnu k2 nu Ne th B theta = pre k2 Ne (nu_s th B theta) * spec CST (nu_s th B theta) nu.
Proof using PE PC PM.
  intros T B0 A N. pose proof (nus_pos th B theta T B0 A) as S. unfold jnu_synch_of. cbv zeta. set (s := nu_s th B theta) in *. rewrite Rltb_false by lra.
  assert (X : 0 < nu / s) by (apply Rdiv_lt_0_compat; lra). unfold cpow. rewrite Rltb_true by exact X. rewrite (shape CST (nu / s) X). unfold pre, spec. cbv zeta. ring.
Qed.
Lemma jnu_above k2 nu Ne th B theta : 10 ^ 12 * nu_s th B theta < nu -> jnu k2 nu Ne th B theta = 0.
Proof. intros N. unfold jnu_synch_of. cbv zeta. rewrite Rltb_true by exact N. reflexivity. Qed.
Lemma cut_cbrt s : 0 < s -> Rpower (10 ^ 12 * s / s) (1 / 3) = 10 ^ 4.
Proof. intros S. replace (10 ^ 12 * s / s) with ((10 ^ 4) ^ 3) by (field; lra). rewrite <- (Rpower_pow 3) by lra. rewrite Rpower_mult. replace (INR 3 * (1 / 3)) with 1 by (cbn [INR]; field). apply Rpower_1. lra. Qed.
(** ** All frequencies *)
Definition tot k2 Ne s : R := pre k2 Ne s * (s * (tail CST 0 - tail CST (10 ^ 4))).
Lemma frequencies k2 Ne th B theta : 0 < th -> 0 < B -> 0 < theta < PI ->
  spectral_total (fun nu => jnu k2 nu Ne th B theta) (tot k2 Ne (nu_s th B theta)).
Proof using PE PC PM.
  intros T B0 A eps Heps. pose proof (nus_pos th B theta T B0 A) as S. set (s := nu_s th B theta) in *. set (C := pre k2 Ne s).
  set (e := eps / (1 + Rabs (C * s))). assert (CS : 0 <= Rabs (C * s)) by apply Rabs_pos. assert (E : 0 < e) by (apply Rdiv_lt_0_compat; lra).
  destruct (tail_continuous CST 0 e E) as (al & AL & CT). set (d0 := Rmin s (s * (al / 2) ^ 3)).
  assert (D0 : 0 < d0) by (apply Rmin_pos; [exact S|apply Rmult_lt_0_compat; [exact S|apply pow_lt; lra]]).
  exists d0, (10 ^ 12 * s). split. { split; [exact D0|]. apply (Rle_lt_trans _ s); [apply Rmin_l|]. lra. }
  intros d N D HN. assert (DS : d <= s) by (apply (Rle_trans _ d0); [lra|apply Rmin_l]). assert (DA : d <= s * (al / 2) ^ 3) by (apply (Rle_trans _ d0); [lra|apply Rmin_r]).
  exists (C * (s * (tail CST (Rpower (d / s) (1 / 3)) - tail CST (10 ^ 4)))). split.
  - rewrite <- (Rplus_0_r (C * _)). apply (is_RInt_Chasles (V := R_NormedModule) _ d (10 ^ 12 * s) N).
    + apply (is_RInt_ext (fun nu => scal C (spec CST s nu))).
      * intros x. rewrite Rmin_left, Rmax_right by lra. intros X. symmetry. rewrite jnu_below by (try assumption; fold s; lra). reflexivity.
      * apply (is_RInt_scal (V := R_NormedModule)). rewrite <- (cut_cbrt s S). apply spec_int; lra.
    + apply (is_RInt_ext (fun _ => 0)).
      * intros x. rewrite Rmin_left, Rmax_right by lra. intros X. symmetry. apply jnu_above. fold s. lra.
      * evar_last; [apply (is_RInt_const (V := R_NormedModule))|]. unfold scal. cbn. unfold mult. cbn. ring.
  - unfold tot. fold C. replace (C * (s * (tail CST (Rpower (d / s) (1 / 3)) - tail CST (10 ^ 4))) - C * (s * (tail CST 0 - tail CST (10 ^ 4)))) with (C * s * (tail CST (Rpower (d / s) (1 / 3)) - tail CST 0)) by ring.
    rewrite Rabs_mult. set (y := Rpower (d / s) (1 / 3)). assert (Y : 0 < y) by apply cbrt_pos. assert (P : 0 < d / s) by (apply Rdiv_lt_0_compat; lra).
    assert (YA : y <= al / 2) by (apply cube_le; [lra|lra|]; unfold y; rewrite cbrt_cube by exact P; apply (Rmult_le_reg_l s); [exact S|]; replace (s * (d / s)) with d by (field; lra); exact DA).
    assert (CY : Rabs (tail CST y - tail CST 0) < e).
    { apply CT. split; [split; [exact I|lra]|]. cbn. unfold R_dist. rewrite Rminus_0_r, Rabs_pos_eq; lra. }
    apply (Rle_lt_trans _ (Rabs (C * s) * e)); [apply Rmult_le_compat_l; lra|]. unfold e. apply (Rmult_lt_reg_r (1 + Rabs (C * s))); [lra|].
    replace (Rabs (C * s) * (eps / (1 + Rabs (C * s))) * (1 + Rabs (C * s))) with (Rabs (C * s) * eps) by (field; lra). rewrite (Rmult_comm eps). apply Rmult_lt_compat_r; lra.
Qed.
(** ** All directions *)
Lemma sin_cubed : is_RInt (fun t => sin t ^ 3) 0 PI (4 / 3).
Proof.
  replace (4 / 3) with ((cos PI ^ 3 / 3 - cos PI) - (cos 0 ^ 3 / 3 - cos 0)) by (rewrite cos_PI, cos_0; field).
  apply (is_RInt_derive (fun t => cos t ^ 3 / 3 - cos t)).
  - intros x _. auto_derive; [auto|]. pose proof (sin2_cos2 x) as Q. unfold Rsqr in Q. replace (sin x ^ 3) with (sin x * (sin x * sin x)) by ring. replace (sin x * sin x) with (1 - cos x * cos x) by lra. field.
  - intros x _. apply (ex_derive_continuous (V := R_NormedModule)). auto_derive. auto.
Qed.
Lemma power k2 Ne th B : 0 < th -> 0 < B ->
  total_power (fun theta nu => jnu k2 nu Ne th B theta) (8 / 3 * PI * tot k2 Ne (nu_s th B (PI / 2))).
Proof using PE PC PM.
  intros T B0. exists (fun theta => tot k2 Ne (nu_s th B theta)). split; [intros theta A; apply frequencies; assumption|].
  set (K := 2 * PI * tot k2 Ne (nu_s th B (PI / 2))). replace (8 / 3 * PI * tot k2 Ne (nu_s th B (PI / 2))) with (scal K (4 / 3)) by (unfold scal, K; cbn; unfold mult; cbn; field).
  apply (is_RInt_ext (fun t => scal K (sin t ^ 3))); [|apply (is_RInt_scal (V := R_NormedModule)), sin_cubed].
  intros x _. change (K * sin x ^ 3 = 2 * PI * sin x * tot k2 Ne (nu_s th B x)). unfold K, tot, pre, EmisModel.nu_s. cbv zeta. rewrite sin_PI2. unfold Rdiv. ring.
Qed.
(** ** Comparison with J_synch *)
Lemma CST_near : Rabs (CST - Rpower 2 (11 / 12)) <= / 10 ^ 11.
Proof.
  set (r := Rpower 2 (11 / 12)). assert (R0 : 0 < r) by apply exp_pos. assert (R12 : r ^ 12 = 2 ^ 11).
  { unfold r. rewrite <- Rpower_pow by apply exp_pos. rewrite Rpower_mult, <- (Rpower_pow 11) by lra. f_equal. rewrite !INR_IZR_INZ. cbn. field. }
  assert (B : 188774862535 / 10 ^ 11 <= r <= 188774862537 / 10 ^ 11); [|unfold CST; apply Rabs_le; lra].
  split; apply Rnot_lt_le; intros L.
  - assert (H : r ^ 12 <= (188774862535 / 10 ^ 11) ^ 12) by (apply pow_incr; lra). rewrite R12 in H. apply (Rle_not_lt _ _ H). lra.
  - assert (H : (188774862537 / 10 ^ 11) ^ 12 <= r ^ 12) by (apply pow_incr; lra). rewrite R12 in H. apply (Rle_not_lt _ _ H). lra.
Qed.
Lemma exp_big : 2 ^ 200 <= exp (10 ^ 4).
Proof.
  apply (Rle_trans _ (exp 1 ^ 200)); [apply pow_incr; split; [lra|]; pose proof (exp_ineq1 1 ltac:(lra)); lra|].
  rewrite <- Rpower_pow by apply exp_pos. unfold Rpower. rewrite ln_exp, Rmult_1_r. apply Rlt_le, exp_increasing. rewrite INR_IZR_INZ. cbn. lra.
Qed.
Lemma tail_end : 0 < tail CST (10 ^ 4) <= / 10 ^ 20.
Proof.
  split; [apply tail_pos; [left; apply CST_pos|lra]|]. unfold tail. rewrite exp_Ropp. pose proof exp_big as E. pose proof (exp_pos (10 ^ 4)).
  assert (/ exp (10 ^ 4) <= / 2 ^ 200) by (apply Rinv_le_contravar; [lra|exact E]).
  assert (Q5 (10 ^ 4) + 2 * CST * Q4 (10 ^ 4) + CST ^ 2 * Q3 (10 ^ 4) <= 10 ^ 21) by (unfold Q3, Q4, Q5, CST; lra).
  assert (0 <= Q5 (10 ^ 4) + 2 * CST * Q4 (10 ^ 4) + CST ^ 2 * Q3 (10 ^ 4)) by (unfold Q3, Q4, Q5, CST; lra).
  assert (0 < / exp (10 ^ 4)) by (apply Rinv_0_lt_compat; assumption).
  apply (Rle_trans _ (3 * / 2 ^ 200 * 10 ^ 21)); [apply Rmult_le_compat; lra|]. lra.
Qed.
Definition amp : R := 36 * (10 + Rpower 2 (5 / 6) + 4 * Rpower 2 (11 / 12)).
Lemma amp_near : let A := tail CST 0 - tail CST (10 ^ 4) in 0 < A /\ Rabs (amp - A) <= / 10 ^ 9 * A.
Proof.
  cbv zeta. rewrite tail_0. pose proof tail_end as E. pose proof CST_near as C. unfold amp. set (r := Rpower 2 (11 / 12)) in *. assert (R0 : 0 < r) by apply exp_pos.
  replace (Rpower 2 (5 / 6)) with (r ^ 2 / 2).
  - set (t := tail CST (10 ^ 4)) in *. clearbody t. apply Rabs_le_between in C. pose proof CST_pos as P. assert (C2 : CST <= 2) by (unfold CST; lra). assert (C1 : 1 <= CST) by (unfold CST; lra).
    set (c := CST) in *. clearbody c r. assert (CC : 0 <= c ^ 2) by apply pow2_ge_0. split; [lra|]. apply Rabs_le.
    replace (36 * (10 + r ^ 2 / 2 + 4 * r) - (36 * (10 + 4 * c + c ^ 2 / 2) - t)) with ((r - c) * (144 + 18 * (r + c)) + t) by field.
    assert (U : Rabs ((r - c) * (144 + 18 * (r + c))) <= / 10 ^ 11 * 300).
    { rewrite Rabs_mult. apply Rmult_le_compat; try apply Rabs_pos; [apply Rabs_le; lra|]. rewrite Rabs_pos_eq; lra. }
    apply Rabs_le_between in U. split; lra.
  - unfold r. rewrite <- Rpower_pow by apply exp_pos. rewrite Rpower_mult. replace (11 / 12 * INR 2) with (5 / 6 + 1) by (cbn [INR]; field). rewrite Rpower_plus, Rpower_1 by lra. field.
Qed.
Lemma J_amp k2 Ne th B : 0 < k2 -> J_synch_of EE CL ME k2 Ne th B = th * (8 / 3 * PI * (pre k2 Ne (nu_s th B (PI / 2)) * (nu_s th B (PI / 2) * amp))).
Proof using PC PM.
  intros K. pose proof PI_RGT_0 as P. unfold J_synch_of, pre, amp, EmisModel.nu_s. cbv zeta. rewrite sin_PI2. field. repeat split; lra.
Qed.
Lemma power_ratio k2 Ne th B : 0 < th -> 0 < B -> 0 < k2 -> 0 < Ne -> exists S,
  total_power (fun theta nu => jnu k2 nu Ne th B theta) S /\ 0 < S /\ Rabs (J_synch_of EE CL ME k2 Ne th B - th * S) <= / 10 ^ 9 * (th * S).
Proof using PE PC PM.
  intros T B0 K N. eexists. split; [apply power; assumption|]. pose proof PI_RGT_0 as P. pose proof (nus_pos th B (PI / 2) T B0 ltac:(lra)) as S. rewrite J_amp by assumption. set (s := nu_s th B (PI / 2)) in *.
  assert (PP : 0 < pre k2 Ne s) by (unfold pre, Rdiv; assert (0 < sqrt 2) by (apply sqrt_lt_R0; lra); apply Rmult_lt_0_compat; [repeat first [assumption | lra | apply Rmult_lt_0_compat]|apply Rinv_0_lt_compat; repeat first [assumption | lra | apply Rmult_lt_0_compat]]).
  unfold tot. destruct amp_near as (A0 & A1). set (A := tail CST 0 - tail CST (10 ^ 4)) in *. set (q := pre k2 Ne s) in *. clearbody A q s.
  assert (F : 0 < 8 / 3 * PI * (q * s)) by (apply Rmult_lt_0_compat; [lra|apply Rmult_lt_0_compat; assumption]).
  replace (8 / 3 * PI * (q * (s * A))) with (8 / 3 * PI * (q * s) * A) by ring. replace (8 / 3 * PI * (q * (s * amp))) with (8 / 3 * PI * (q * s) * amp) by ring. set (f := 8 / 3 * PI * (q * s)) in *. clearbody f.
  split; [apply Rmult_lt_0_compat; assumption|]. replace (th * (f * amp) - th * (f * A)) with (th * f * (amp - A)) by ring. rewrite Rabs_mult, Rabs_pos_eq by (apply Rlt_le, Rmult_lt_0_compat; assumption).
  replace (/ 10 ^ 9 * (th * (f * A))) with (th * f * (/ 10 ^ 9 * A)) by ring. apply Rmult_le_compat_l; [apply Rlt_le, Rmult_lt_0_compat; assumption|exact A1].
Qed.
End Synch.
