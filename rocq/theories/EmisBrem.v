(** Planck function, bremsstrahlung, flat emissivity. *)
From Coq Require Import Reals Bool ZArith List Lia Lra.
From Coquelicot Require Import Coquelicot.
From Verif Require Import RLib EmisModel.
Open Scope R_scope.

(** ** Series of the exponential *)
Lemma from0 b (f g : R -> R) : (forall t, 0 <= t <= b -> is_derive f t (g t)) -> f 0 = 0 -> (forall t, 0 <= t <= b -> 0 <= g t) -> forall t, 0 <= t <= b -> 0 <= f t.
Proof.
  intros D Z P t [T B]. destruct T as [T|<-]; [|lra]. destruct (MVT_cor2 f g 0 t T) as (c & E & C).
  - intros c Hc. apply is_derive_Reals, D. lra.
  - rewrite Z, Rminus_0_r in E. rewrite E. apply Rmult_le_pos; [apply P; lra|lra].
Qed.
Lemma exp_le1 x : 0 <= x -> exp (- x) <= 1.
Proof. intros [X|<-]; [|rewrite Ropp_0, exp_0; lra]. left. rewrite <- exp_0. apply exp_increasing. lra. Qed.
Ltac chain f g := apply (from0 _ f g); [intros t Ht; auto_derive; [auto|field]|rewrite ?Ropp_0, ?exp_0; field|].
Lemma q0 b x : 0 <= x <= b -> 0 <= 1 - exp (- x).
Proof. intros H. pose proof (exp_le1 x ltac:(lra)). lra. Qed.
Lemma q1 b : forall x, 0 <= x <= b -> 0 <= exp (- x) - (1 - x).
Proof. chain (fun x => exp (- x) - (1 - x)) (fun x => 1 - exp (- x)). apply q0. Qed.
Lemma q2 b : forall x, 0 <= x <= b -> 0 <= (1 - x + x ^ 2 / 2) - exp (- x).
Proof. chain (fun x => (1 - x + x ^ 2 / 2) - exp (- x)) (fun x => exp (- x) - (1 - x)). apply q1. Qed.
Lemma q3 b : forall x, 0 <= x <= b -> 0 <= exp (- x) - (1 - x + x ^ 2 / 2 - x ^ 3 / 6).
Proof. chain (fun x => exp (- x) - (1 - x + x ^ 2 / 2 - x ^ 3 / 6)) (fun x => (1 - x + x ^ 2 / 2) - exp (- x)). apply q2. Qed.
Lemma q4 b : forall x, 0 <= x <= b -> 0 <= (1 - x + x ^ 2 / 2 - x ^ 3 / 6 + x ^ 4 / 24) - exp (- x).
Proof. chain (fun x => (1 - x + x ^ 2 / 2 - x ^ 3 / 6 + x ^ 4 / 24) - exp (- x)) (fun x => exp (- x) - (1 - x + x ^ 2 / 2 - x ^ 3 / 6)). apply q3. Qed.
Lemma q5 b : forall x, 0 <= x <= b -> 0 <= exp (- x) - (1 - x + x ^ 2 / 2 - x ^ 3 / 6 + x ^ 4 / 24 - x ^ 5 / 120).
Proof. chain (fun x => exp (- x) - (1 - x + x ^ 2 / 2 - x ^ 3 / 6 + x ^ 4 / 24 - x ^ 5 / 120)) (fun x => (1 - x + x ^ 2 / 2 - x ^ 3 / 6 + x ^ 4 / 24) - exp (- x)). apply q4. Qed.
Lemma q6 b : forall x, 0 <= x <= b -> 0 <= (1 - x + x ^ 2 / 2 - x ^ 3 / 6 + x ^ 4 / 24 - x ^ 5 / 120 + x ^ 6 / 720) - exp (- x).
Proof. chain (fun x => (1 - x + x ^ 2 / 2 - x ^ 3 / 6 + x ^ 4 / 24 - x ^ 5 / 120 + x ^ 6 / 720) - exp (- x)) (fun x => exp (- x) - (1 - x + x ^ 2 / 2 - x ^ 3 / 6 + x ^ 4 / 24 - x ^ 5 / 120)). apply q5. Qed.
Lemma e0 x : 0 <= x <= 1 / 2 -> 0 <= exp x - 1.
Proof. intros [[X|<-] _]; [|rewrite exp_0; lra]. pose proof (exp_ineq1 x ltac:(lra)). lra. Qed.
Lemma e1 : forall x, 0 <= x <= 1 / 2 -> 0 <= exp x - (1 + x).
Proof. chain (fun x => exp x - (1 + x)) (fun x => exp x - 1). apply e0. Qed.
Lemma e2 : forall x, 0 <= x <= 1 / 2 -> 0 <= exp x - (1 + x + x ^ 2 / 2).
Proof. chain (fun x => exp x - (1 + x + x ^ 2 / 2)) (fun x => exp x - (1 + x)). apply e1. Qed.
Lemma e3 : forall x, 0 <= x <= 1 / 2 -> 0 <= exp x - (1 + x + x ^ 2 / 2 + x ^ 3 / 6).
Proof. chain (fun x => exp x - (1 + x + x ^ 2 / 2 + x ^ 3 / 6)) (fun x => exp x - (1 + x + x ^ 2 / 2)). apply e2. Qed.
Lemma e4 : forall x, 0 <= x <= 1 / 2 -> 0 <= exp x - (1 + x + x ^ 2 / 2 + x ^ 3 / 6 + x ^ 4 / 24).
Proof. chain (fun x => exp x - (1 + x + x ^ 2 / 2 + x ^ 3 / 6 + x ^ 4 / 24)) (fun x => exp x - (1 + x + x ^ 2 / 2 + x ^ 3 / 6)). apply e3. Qed.
Lemma u0 x : 0 <= x <= 1 / 2 -> 0 <= 2 - exp x.
Proof.
  intros H. assert (E : exp x <= 2); [|lra]. pose proof (q1 1 x ltac:(lra)) as Q. pose proof (exp_pos x). pose proof (exp_pos (- x)).
  assert (M : exp x * exp (- x) = 1) by (rewrite <- exp_plus, Rplus_opp_r; apply exp_0). assert (exp x * (1 / 2) <= exp x * exp (- x)) by (apply Rmult_le_compat_l; lra). lra.
Qed.
Lemma u1 : forall x, 0 <= x <= 1 / 2 -> 0 <= 1 + 2 * x - exp x.
Proof. chain (fun x => 1 + 2 * x - exp x) (fun x => 2 - exp x). apply u0. Qed.
Lemma u2 : forall x, 0 <= x <= 1 / 2 -> 0 <= 1 + x + x ^ 2 - exp x.
Proof. chain (fun x => 1 + x + x ^ 2 - exp x) (fun x => 1 + 2 * x - exp x). apply u1. Qed.
Lemma u3 : forall x, 0 <= x <= 1 / 2 -> 0 <= 1 + x + x ^ 2 / 2 + x ^ 3 / 3 - exp x.
Proof. chain (fun x => 1 + x + x ^ 2 / 2 + x ^ 3 / 3 - exp x) (fun x => 1 + x + x ^ 2 - exp x). apply u2. Qed.
Lemma u4 : forall x, 0 <= x <= 1 / 2 -> 0 <= 1 + x + x ^ 2 / 2 + x ^ 3 / 6 + x ^ 4 / 12 - exp x.
Proof. chain (fun x => 1 + x + x ^ 2 / 2 + x ^ 3 / 6 + x ^ 4 / 12 - exp x) (fun x => 1 + x + x ^ 2 / 2 + x ^ 3 / 3 - exp x). apply u3. Qed.
Lemma u5 : forall x, 0 <= x <= 1 / 2 -> 0 <= 1 + x + x ^ 2 / 2 + x ^ 3 / 6 + x ^ 4 / 24 + x ^ 5 / 60 - exp x.
Proof. chain (fun x => 1 + x + x ^ 2 / 2 + x ^ 3 / 6 + x ^ 4 / 24 + x ^ 5 / 60 - exp x) (fun x => 1 + x + x ^ 2 / 2 + x ^ 3 / 6 + x ^ 4 / 12 - exp x). apply u4. Qed.

Lemma ten n : 0 < / 10 ^ n.
Proof. apply Rinv_0_lt_compat, pow_lt. lra. Qed.
Section Light.
Variables EE CL ME MP HPL KBOL : R.
Hypotheses (PC : 0 < CL) (PM : 0 < ME) (PH : 0 < HPL) (PK : 0 < KBOL).
(** ** Planck *)
Lemma planck nu th : 0 < nu -> 0 < th -> let x := HPL * nu / (ME * CL * CL * th) in
  let B := 2 * HPL / CL ^ 2 / (exp x - 1) in 0 < B /\ B <= Bnu_inv CL ME HPL nu th <= (1 + / 10 ^ 13) * B.
Proof using PC PM PH.
  intros N T. cbv zeta. unfold Bnu_inv. set (x := HPL * nu / (ME * CL * CL * th)). set (c := 2 * HPL / (CL * CL)).
  assert (X : 0 < x) by (unfold x, Rdiv; apply Rmult_lt_0_compat; [apply Rmult_lt_0_compat; assumption|apply Rinv_0_lt_compat; repeat first [assumption | apply Rmult_lt_0_compat]]).
  assert (C : 0 < c) by (unfold c, Rdiv; apply Rmult_lt_0_compat; [lra|apply Rinv_0_lt_compat, Rmult_lt_0_compat; assumption]).
  replace (2 * HPL / CL ^ 2) with c by (unfold c; f_equal; ring).
  assert (E : 0 < exp x - 1) by (pose proof (exp_ineq1 x ltac:(lra)); lra). pose proof (ten 13) as T13.
  assert (B : 0 < c / (exp x - 1)) by (apply Rdiv_lt_0_compat; assumption). split; [exact B|].
  destruct (Rltb_spec x (/ 10 ^ 3)) as [L|L].
  - pose proof (e4 x ltac:(lra)) as L4. pose proof (u5 x ltac:(lra)) as U5. set (d := x + x ^ 2 / 2 + x ^ 3 / 6 + x ^ 4 / 24).
    replace (x / 24 * (24 + x * (12 + x * (4 + x)))) with d by (unfold d; field).
    assert (Dx : x <= d) by (unfold d; pose proof (pow_lt x 2 X); pose proof (pow_lt x 3 X); pose proof (pow_lt x 4 X); lra).
    assert (D1 : d <= exp x - 1) by (unfold d; lra).
    assert (X4 : x ^ 4 <= (/ 10 ^ 3) ^ 4) by (apply pow_incr; lra).
    assert (D2 : exp x - 1 <= (1 + / 10 ^ 13) * d).
    { assert (x ^ 5 / 60 <= / 10 ^ 13 * d); [|unfold d in *; lra]. replace (x ^ 5 / 60) with (x ^ 4 / 60 * x) by field.
      pose proof (pow_lt x 4 X). apply Rmult_le_compat; lra. }
    unfold Rdiv. split.
    + apply Rmult_le_compat_l; [lra|]. apply Rinv_le_contravar; lra.
    + replace ((1 + / 10 ^ 13) * (c * / (exp x - 1))) with (c * ((1 + / 10 ^ 13) * / (exp x - 1))) by ring. apply Rmult_le_compat_l; [lra|].
      apply (Rmult_le_reg_r (d * (exp x - 1))); [apply Rmult_lt_0_compat; lra|].
      replace (/ d * (d * (exp x - 1))) with (exp x - 1) by (field; lra). replace ((1 + / 10 ^ 13) * / (exp x - 1) * (d * (exp x - 1))) with ((1 + / 10 ^ 13) * d) by (field; lra). exact D2.
  - split; [lra|]. assert (0 <= / 10 ^ 13 * (c / (exp x - 1))) by (apply Rmult_le_pos; lra). lra.
Qed.
Lemma planck_pos nu th : 0 < nu -> 0 < th -> 0 < Bnu_inv CL ME HPL nu th.
Proof using PC PM PH. intros N T. pose proof (planck nu th N T) as H. cbv zeta in H. lra. Qed.
(** in a Planck spectrum as much is absorbed as is emitted *)
Lemma kirchhoff j nu th : 0 < nu -> 0 < th -> 0 <= j -> let x := HPL * nu / (ME * CL * CL * th) in
  let B := 2 * HPL / CL ^ 2 / (exp x - 1) in
  let absorbed := alpha_inv_abs CL ME HPL j nu th * B in
  absorbed <= j / nu ^ 2 /\ (1 - / 10 ^ 13 - / 10 ^ 100 / B) * (j / nu ^ 2) <= absorbed.
Proof using PC PM PH.
  intros N T J. pose proof (planck nu th N T) as P. cbv zeta in P |- *. unfold alpha_inv_abs, jnu_inv. set (B := 2 * HPL / CL ^ 2 / _) in *. set (b := Bnu_inv _ _ _ _ _) in *. clearbody B b.
  replace (nu * nu) with (nu ^ 2) by ring. set (q := j / nu ^ 2).
  assert (Q : 0 <= q) by (apply Rmult_le_pos; [assumption|left; apply Rinv_0_lt_compat, pow_lt, N]). clearbody q.
  pose proof (ten 13) as T13. pose proof (ten 100) as T100. set (s := / 10 ^ 13) in *. set (t := / 10 ^ 100) in *. assert (S1 : s < 1) by (unfold s; lra). clearbody s t.
  destruct P as (B0 & B1 & B2). assert (D : 0 < b + t) by lra.
  replace (q / (b + t) * B) with (q * (B / (b + t))) by (field; lra).
  assert (R1 : B / (b + t) <= 1) by (apply (Rmult_le_reg_r (b + t)); [lra|]; replace (B / (b + t) * (b + t)) with B by (field; lra); lra).
  assert (R2 : 1 - s - t / B <= B / (b + t)).
  { apply (Rmult_le_reg_r (b + t)); [lra|]. replace (B / (b + t) * (b + t)) with B by (field; lra).
    assert (TB : 0 < t / B) by (apply Rdiv_lt_0_compat; assumption). set (r := t / B) in *. assert (E : t = r * B) by (unfold r; field; lra). clearbody r. subst t.
    destruct (Rle_dec (1 - s - r) 0) as [Z|Z].
    - assert ((1 - s - r) * (b + r * B) <= 0); [|lra]. replace 0 with (0 * (b + r * B)) by ring. apply Rmult_le_compat_r; lra.
    - apply (Rle_trans _ ((1 - s - r) * ((1 + s) * B + r * B))); [apply Rmult_le_compat_l; lra|].
      replace ((1 - s - r) * ((1 + s) * B + r * B)) with (B * ((1 - s - r) * (1 + s + r))) by ring. rewrite <- (Rmult_1_r B) at 2. apply Rmult_le_compat_l; [lra|].
      replace ((1 - s - r) * (1 + s + r)) with (1 - (s + r) ^ 2) by ring. pose proof (pow2_ge_0 (s + r)). lra. }
  split; [rewrite <- (Rmult_1_r q) at 2; apply Rmult_le_compat_l; assumption|]. rewrite (Rmult_comm _ q). apply Rmult_le_compat_l; assumption.
Qed.
(** gray absorption does not depend on the frequency *)
Lemma gray kappa Ne nu th : 0 < nu -> 0 < th -> 0 <= MP * Ne * kappa ->
  let a := alpha_inv_abs CL ME HPL (jnu_gray CL ME MP HPL kappa nu Ne th) nu th / nu in
  a <= MP * Ne * kappa /\ (1 - / 10 ^ 100 / Bnu_inv CL ME HPL nu th) * (MP * Ne * kappa) <= a.
Proof using PC PM PH.
  intros N T J. pose proof (planck_pos nu th N T) as P. cbv zeta. unfold alpha_inv_abs, jnu_inv, jnu_gray. set (b := Bnu_inv _ _ _ _ _) in *. clearbody b. set (k := MP * Ne * kappa) in *. clearbody k.
  pose proof (ten 100) as T100. set (t := / 10 ^ 100) in *. clearbody t. replace (k * b * nu * nu * nu / (nu * nu) / (b + t) / nu) with (k * (b / (b + t))) by (field; lra).
  assert (R : b / (b + t) = 1 - t / (b + t)) by (field; lra). assert (TB : 0 < t / (b + t)) by (apply Rdiv_lt_0_compat; lra).
  split; [rewrite <- (Rmult_1_r k) at 2; apply Rmult_le_compat_l; lra|]. rewrite (Rmult_comm _ k). apply Rmult_le_compat_l; [assumption|]. rewrite R.
  assert (t / (b + t) <= t / b); [|lra]. unfold Rdiv. apply Rmult_le_compat_l; [lra|]. apply Rinv_le_contravar; lra.
Qed.
Lemma gray_total : forall kappa Ne nu th, 0 < nu -> 0 < th -> 0 < MP * Ne * kappa -> 0 < 4 * PI * jnu_gray CL ME MP HPL kappa nu Ne th /\ J_gray Ne th = 0.
Proof using PC PM PH.
  intros kappa Ne nu th N T J. split; [|reflexivity]. pose proof (planck_pos nu th N T) as P. pose proof PI_RGT_0. unfold jnu_gray.
  repeat first [assumption | apply Rmult_lt_0_compat]; lra.
Qed.
(** ** Bremsstrahlung *)
Lemma efac_near x : 0 <= x -> 0 <= efac x - exp (- x) <= / 10 ^ 17.
Proof.
  intros X. unfold efac. pose proof (ten 17). destruct (Rltb_spec x (/ 10 ^ 3)) as [L|L]; [|lra].
  pose proof (q4 x x ltac:(lra)). pose proof (q5 x x ltac:(lra)). assert (x ^ 5 <= (/ 10 ^ 3) ^ 5) by (apply pow_incr; lra). replace ((/ 10 ^ 3) ^ 5) with (/ 10 ^ 15) in H2 by field.
  replace ((24 - 24 * x + 12 * x * x - 4 * x * x * x + x * x * x * x) / 24) with (1 - x + x ^ 2 / 2 - x ^ 3 / 6 + x ^ 4 / 24) by field.
  assert (/ 10 ^ 15 / 120 <= / 10 ^ 17) by lra. lra.
Qed.
Definition ser (x : R) : R := x - x ^ 2 / 2 + x ^ 3 / 6 - x ^ 4 / 24 + x ^ 5 / 120.
Lemma ser_near x : 0 <= x <= / 10 ^ 3 -> 0 <= ser x - (1 - exp (- x)) <= / 10 ^ 20.
Proof.
  intros X. pose proof (q5 x x ltac:(lra)). pose proof (q6 x x ltac:(lra)). assert (x ^ 6 <= (/ 10 ^ 3) ^ 6) by (apply pow_incr; lra). replace ((/ 10 ^ 3) ^ 6) with (/ 10 ^ 18) in H1 by field.
  unfold ser. assert (/ 10 ^ 18 / 720 <= / 10 ^ 20) by lra. lra.
Qed.
(** integral of the factor from 0 to N, for x = a nu *)
Lemma int_ser a N : 0 < a -> is_RInt (fun nu => (24 - 24 * (a * nu) + 12 * (a * nu) * (a * nu) - 4 * (a * nu) * (a * nu) * (a * nu) + (a * nu) * (a * nu) * (a * nu) * (a * nu)) / 24) 0 N (ser (a * N) / a).
Proof.
  intros A. replace (ser (a * N) / a) with (ser (a * N) / a - ser (a * 0) / a) by (unfold ser; field; lra).
  apply (is_RInt_derive (fun nu => ser (a * nu) / a)).
  - intros x _. unfold ser. auto_derive; [auto|]. field. lra.
  - intros x _. apply (ex_derive_continuous (V := R_NormedModule)). auto_derive. auto.
Qed.
Lemma int_exp a M N : 0 < a -> is_RInt (fun nu => exp (- (a * nu))) M N ((exp (- (a * M)) - exp (- (a * N))) / a).
Proof.
  intros A. replace ((exp (- (a * M)) - exp (- (a * N))) / a) with (- exp (- (a * N)) / a - - exp (- (a * M)) / a) by (field; lra).
  apply (is_RInt_derive (fun nu => - exp (- (a * nu)) / a)).
  - intros x _. auto_derive; [auto|]. field. lra.
  - intros x _. apply (ex_derive_continuous (V := R_NormedModule)). auto_derive. auto.
Qed.
Lemma int_efac a N : 0 < a -> 0 <= N -> exists I, is_RInt (fun nu => efac (a * nu)) 0 N I /\ 0 <= I - (1 - exp (- (a * N))) / a <= / 10 ^ 20 / a.
Proof.
  intros A N0. assert (IA : 0 < / a) by (apply Rinv_0_lt_compat, A). destruct (Rle_dec (a * N) (/ 10 ^ 3)) as [L|L].
  - exists (ser (a * N) / a). split.
    + apply is_RInt_ext with (2 := int_ser a N A). intros x. rewrite Rmin_left, Rmax_right by lra. intros X. unfold efac. rewrite Rltb_true; [reflexivity|].
      apply Rlt_le_trans with (2 := L). apply Rmult_lt_compat_l; lra.
    + pose proof (ser_near (a * N) ltac:(split; [apply Rmult_le_pos; lra|exact L])) as S. replace (ser (a * N) / a - (1 - exp (- (a * N))) / a) with ((ser (a * N) - (1 - exp (- (a * N)))) * / a) by (field; lra).
      split; [apply Rmult_le_pos; lra|]. apply Rmult_le_compat_r; lra.
  - set (M := / 10 ^ 3 / a). assert (AM : a * M = / 10 ^ 3) by (unfold M; field; lra). assert (M0 : 0 < M) by (unfold M; apply Rmult_lt_0_compat; [apply ten|exact IA]).
    assert (MN : M < N) by (apply (Rmult_lt_reg_l a); [exact A|]; rewrite AM; lra).
    exists (ser (a * M) / a + (exp (- (a * M)) - exp (- (a * N))) / a). split.
    + apply (is_RInt_Chasles (V := R_NormedModule) _ 0 M N).
      * apply is_RInt_ext with (2 := int_ser a M A). intros x. rewrite Rmin_left, Rmax_right by lra. intros X. unfold efac. rewrite Rltb_true; [reflexivity|].
        rewrite <- AM. apply Rmult_lt_compat_l; lra.
      * apply is_RInt_ext with (2 := int_exp a M N A). intros x. rewrite Rmin_left, Rmax_right by lra. intros X. unfold efac. rewrite Rltb_false; [reflexivity|].
        rewrite <- AM. apply Rlt_le, Rmult_lt_compat_l; lra.
    + pose proof (ser_near (a * M) ltac:(rewrite AM; pose proof (ten 3); lra)) as S.
      replace (ser (a * M) / a + (exp (- (a * M)) - exp (- (a * N))) / a - (1 - exp (- (a * N))) / a) with ((ser (a * M) - (1 - exp (- (a * M)))) * / a) by (field; lra).
      split; [apply Rmult_le_pos; lra|]. apply Rmult_le_compat_r; lra.
Qed.
Lemma brem_scale nu Ne th : 0 < th -> Jnu_brem EE CL ME HPL KBOL nu Ne th = J_brem EE CL ME HPL KBOL Ne th * (HPL / (ME * CL * CL * th)) * efac (HPL / (ME * CL * CL * th) * nu).
Proof using PC PM PH PK.
  intros T. unfold Jnu_brem, jnu_brem, J_brem. cbv zeta. set (Te := th * ME * CL * CL / KBOL).
  assert (TE : 0 < Te) by (unfold Te, Rdiv; repeat first [assumption | apply Rinv_0_lt_compat | apply Rmult_lt_0_compat]). pose proof PI_RGT_0 as P.
  replace (HPL * nu / (KBOL * Te)) with (HPL / (ME * CL * CL * th) * nu) by (unfold Te; field; lra).
  replace (HPL / (ME * CL * CL * th)) with (HPL / (KBOL * Te)) by (unfold Te; field; lra). set (e := efac _). clearbody e.
  set (A := 2 * PI / (3 * KBOL * ME)). assert (A0 : 0 < A) by (unfold A, Rdiv; apply Rmult_lt_0_compat; [lra|apply Rinv_0_lt_compat, Rmult_lt_0_compat; [apply Rmult_lt_0_compat; lra|assumption]]).
  replace (Rpower A (1 / 2)) with (sqrt A) by (rewrite <- Rpower_sqrt by assumption; f_equal; field).
  replace (Rpower Te (- 1 / 2)) with (/ sqrt Te) by (rewrite <- Rpower_sqrt by assumption; rewrite <- Rpower_Ropp; f_equal; field).
  replace (2 * PI * KBOL * Te / (3 * ME)) with (A * Te * (KBOL * KBOL)) by (unfold A; field; lra).
  assert (AT : 0 <= A * Te) by (apply Rlt_le, Rmult_lt_0_compat; assumption).
  rewrite (sqrt_mult (A * Te)) by (try assumption; apply Rlt_le, Rmult_lt_0_compat; assumption). rewrite (sqrt_mult A) by lra. rewrite (sqrt_square KBOL) by lra.
  set (s := sqrt A). assert (ST : 0 < sqrt Te) by (apply sqrt_lt_R0, TE). assert (E : Te = sqrt Te * sqrt Te) by (symmetry; apply sqrt_sqrt; lra).
  clearbody Te. rewrite E. set (q := sqrt Te) in *. rewrite sqrt_square by lra. field. repeat split; lra.
Qed.
Lemma brem_total Ne th N : 0 < th -> 0 <= N -> 0 <= J_brem EE CL ME HPL KBOL Ne th -> exists I, is_RInt (fun nu => Jnu_brem EE CL ME HPL KBOL nu Ne th) 0 N I /\
  let J := J_brem EE CL ME HPL KBOL Ne th in Rabs (I - J * (1 - exp (- (HPL * N / (ME * CL * CL * th))))) <= J / 10 ^ 20.
Proof using PC PM PH PK.
  intros T N0 J0. set (a := HPL / (ME * CL * CL * th)). assert (A : 0 < a) by (unfold a, Rdiv; repeat first [assumption | apply Rinv_0_lt_compat | apply Rmult_lt_0_compat]).
  destruct (int_efac a N A N0) as (I & HI & B). set (J := J_brem _ _ _ _ _ _ _) in *. exists (J * a * I). split.
  - apply (is_RInt_ext (fun nu => scal (J * a) (efac (a * nu)))).
    + intros x _. rewrite brem_scale by assumption. reflexivity.
    + apply (is_RInt_scal (V := R_NormedModule)). exact HI.
  - cbv zeta. replace (HPL * N / (ME * CL * CL * th)) with (a * N) by (unfold a, Rdiv; ring).
    replace (J * a * I - J * (1 - exp (- (a * N)))) with (J * a * (I - (1 - exp (- (a * N))) / a)) by (field; lra).
    assert (JA : 0 <= J * a) by (apply Rmult_le_pos; lra). rewrite Rabs_pos_eq by (apply Rmult_le_pos; lra).
    replace (J / 10 ^ 20) with (J * a * (/ 10 ^ 20 / a)) by (field; lra). apply Rmult_le_compat_l; lra.
Qed.
Lemma brem_pos Ne th : 0 < th -> 0 <= J_brem EE CL ME HPL KBOL Ne th.
Proof using PC PM PH PK.
  intros T. unfold J_brem. cbv zeta. pose proof PI_RGT_0. assert (TE : 0 <= th * ME * CL * CL / KBOL) by (unfold Rdiv; apply Rlt_le; repeat first [assumption | apply Rinv_0_lt_compat | apply Rmult_lt_0_compat]).
  set (Te := th * ME * CL * CL / KBOL) in *. apply Rmult_le_pos; [apply Rmult_le_pos; [apply sqrt_pos|]|].
  - replace (EE ^ 6) with ((EE ^ 3) ^ 2) by ring. pose proof (pow2_ge_0 (EE ^ 3)). apply Rmult_le_pos; [apply Rmult_le_pos; [lra|assumption]|].
    apply Rlt_le, Rinv_0_lt_compat. pose proof (pow_lt CL 3 PC). repeat first [assumption | lra | apply Rmult_lt_0_compat].
  - replace (Ne * Ne) with (Ne ^ 2) by ring. pose proof (pow2_ge_0 Ne). apply Rmult_le_pos; [lra|]. assert (0 <= 44 / 10 ^ 11 * Te) by (apply Rmult_le_pos; lra). lra.
Qed.
Lemma brem_spectrum Ne th nu : 0 < th -> 0 <= nu -> let x := HPL * nu / (ME * CL * CL * th) in let j0 := jnu_brem EE CL ME HPL KBOL 0 Ne th in
  0 <= j0 /\ Rabs (jnu_brem EE CL ME HPL KBOL nu Ne th - j0 * exp (- x)) <= j0 / 10 ^ 17.
Proof using PC PM PH PK.
  intros T N. cbv zeta. pose proof PI_RGT_0 as P. pose proof (brem_scale nu Ne th T) as E. pose proof (brem_scale 0 Ne th T) as E0. unfold Jnu_brem in E, E0. rewrite Rmult_0_r in E0.
  assert (F0 : efac 0 = 1) by (unfold efac; rewrite Rltb_true by (apply ten); field). rewrite F0, Rmult_1_r in E0. rewrite <- E0 in E.
  pose proof (brem_pos Ne th T) as J. set (a := HPL / (ME * CL * CL * th)) in *. assert (A : 0 < a) by (unfold a, Rdiv; repeat first [assumption | apply Rinv_0_lt_compat | apply Rmult_lt_0_compat]).
  replace (HPL * nu / (ME * CL * CL * th)) with (a * nu) by (unfold a, Rdiv; ring).
  set (j0 := jnu_brem EE CL ME HPL KBOL 0 Ne th) in *. set (j := jnu_brem EE CL ME HPL KBOL nu Ne th) in *. clearbody j j0.
  assert (J0 : 0 <= j0). { apply (Rmult_le_reg_l (4 * PI)); [lra|]. rewrite E0, Rmult_0_r. apply Rmult_le_pos; lra. }
  assert (JE : j = j0 * efac (a * nu)) by (apply (Rmult_eq_reg_l (4 * PI)); lra). split; [exact J0|]. rewrite JE, <- Rmult_minus_distr_l, Rabs_mult, (Rabs_pos_eq j0) by exact J0.
  pose proof (efac_near (a * nu) ltac:(apply Rmult_le_pos; lra)) as F. apply Rmult_le_compat_l; [exact J0|]. rewrite Rabs_pos_eq; lra.
Qed.
End Light.
(** ** Flat *)
Lemma flat_total U T c lo hi em type ye : lo < hi -> is_RInt (fun nu => Jnu_flat U T c lo hi em nu type ye) lo hi (J_flat U T c lo hi em type ye).
Proof.
  intros H. unfold J_flat. set (j := jnu_flat U T c lo hi em (5 / 10 * (hi + lo)) type ye). replace (4 * PI * (hi - lo) * j) with (scal (hi - lo) (4 * PI * j)) by (unfold scal; cbn; unfold mult; cbn; ring).
  apply (is_RInt_ext (fun _ => 4 * PI * j)); [|apply (is_RInt_const (V := R_NormedModule))].
  intros x. rewrite Rmin_left, Rmax_right by lra. intros X. unfold Jnu_flat. f_equal. unfold j, jnu_flat. cbv zeta. rewrite !Rleb_true by lra. reflexivity.
Qed.
Lemma flat_sum U T c lo hi ye : lo < hi -> 0 < T ->
  J_flat U T c lo hi NU_ELECTRON NU_ELECTRON ye = 4 * PI * c * (2 * ye) * U / T /\ J_flat U T c lo hi ANTINU_ELECTRON ANTINU_ELECTRON ye = 4 * PI * c * (1 - 2 * ye) * U / T /\
  (forall em t, em <> t -> J_flat U T c lo hi em t ye = 0) /\ J_flat U T c lo hi NU_HEAVY NU_HEAVY ye = 0.
Proof.
  intros H T0. unfold J_flat, jnu_flat. cbv zeta. rewrite !Rleb_true by lra. cbn [andb nutype_eqb]. split; [field; lra|]. split; [field; lra|]. split; [|ring].
  intros em t D. destruct em, t; try congruence; cbn [nutype_eqb]; ring.
Qed.
Lemma flat_band U T c lo hi em nu type ye : nu < lo \/ hi < nu -> Jnu_flat U T c lo hi em nu type ye = 0.
Proof.
  intros H. unfold Jnu_flat, jnu_flat. cbv zeta. assert (Rleb lo nu && Rleb nu hi = false)%bool as ->; [|ring].
  destruct H; [rewrite Rleb_false by lra; reflexivity|rewrite (Rleb_false nu hi) by lra; apply andb_false_r].
Qed.
