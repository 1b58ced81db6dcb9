(** The Coulomb heating rate is one formula in all four branches. *)
From Coq Require Import Reals Bool Lra.
From Verif Require Import RLib ElecModel ElecSpec ElecProofs.
Open Scope R_scope.

Lemma kn_bessel K n x : Kn K n x = bessel K n x.
Proof. unfold Kn, bessel. destruct (Rltb_spec 100 x), (Rlt_dec 100 x); try reflexivity; lra. Qed.
Lemma bessel_big K n x : 100 < x -> bessel K n x = exp (- x) * sqrt (PI / (2 * x)).
Proof. intros H. unfold bessel. destruct (Rlt_dec 100 x); [reflexivity|lra]. Qed.
Lemma bessel_pos K : (forall n x, 0 < x -> 0 < K n x) -> forall n x, 0 < x -> 0 < bessel K n x.
Proof. intros H n x X. rewrite <- kn_bessel. apply kn_pos; assumption. Qed.
Lemma big t : 0 < t -> t < / 100 -> 100 < 1 / t.
Proof. intros P H. unfold Rdiv. rewrite Rmult_1_l, <- (Rinv_inv 100). apply Rinv_lt_contravar; [|assumption]. apply Rmult_lt_0_compat; [assumption|lra]. Qed.
(** asymptotic form in terms of the temperature *)
Lemma bessel_cold K n t : 0 < t -> t < / 100 -> bessel K n (1 / t) = exp (- (1 / t)) * sqrt (PI / 2 * t).
Proof. intros P H. rewrite bessel_big by now apply big. do 2 f_equal. field. lra. Qed.
Lemma exp_split te ti : 0 < te -> 0 < ti -> exp (- ((te + ti) / (te * ti))) = exp (- (1 / te)) * exp (- (1 / ti)).
Proof. intros A B. rewrite <- exp_plus. f_equal. field. lra. Qed.
Lemma tm_inv te ti : 0 < te -> 0 < ti -> 1 / (1 / te + 1 / ti) = te * ti / (te + ti).
Proof. intros A B. field. lra. Qed.
Lemma mean_big te ti : 0 < te -> 0 < ti -> te < / 100 \/ ti < / 100 -> 100 < (te + ti) / (te * ti).
Proof.
  intros A B H. replace ((te + ti) / (te * ti)) with (1 / te + 1 / ti) by (field; lra).
  pose proof (div_pos 1 te ltac:(lra) A). pose proof (div_pos 1 ti ltac:(lra) B).
  destruct H as [H|H]; [pose proof (big te A H)|pose proof (big ti B H)]; lra.
Qed.
Lemma neg1 x : -1 / x = - (1 / x).
Proof. unfold Rdiv. ring. Qed.
Section S.
Variable K : nat -> R -> R.
Variables te ti : R.
Hypotheses (A : 0 < te) (B : 0 < ti).
Let tm := te * ti / (te + ti).
Let x := (te + ti) / (te * ti).
Lemma tm0 : 0 < tm.
Proof using A B. apply div_pos; [apply Rmult_lt_0_compat; assumption|lra]. Qed.
Lemma mean n : te < / 100 \/ ti < / 100 -> bessel K n x = exp (- (1 / te)) * exp (- (1 / ti)) * sqrt (PI / 2 * tm).
Proof using A B. intros H. unfold x. rewrite bessel_big by now apply mean_big. rewrite exp_split by assumption. do 2 f_equal. unfold tm. field. lra. Qed.
Lemma sq_ratio a b : 0 < a -> 0 < b -> sqrt (PI / 2 * a) / sqrt (PI / 2 * b) = sqrt (a / b).
Proof using.
  intros P Q. pose proof PI_RGT_0. rewrite <- sqrt_div_alt by (apply Rmult_lt_0_compat; lra). f_equal. field. split; lra.
Qed.
Lemma cold_cold n : te < / 100 -> ti < / 100 -> sqrt (tm / (PI * te * ti / 2)) = bessel K n x / (bessel K 2 (1 / te) * bessel K 2 (1 / ti)).
Proof using A B.
  intros H1 H2. rewrite mean by tauto. rewrite !bessel_cold by assumption. pose proof PI_RGT_0. pose proof tm0.
  assert (0 < sqrt (PI / 2 * te)) by (apply sqrt_lt_R0, Rmult_lt_0_compat; lra). assert (0 < sqrt (PI / 2 * ti)) by (apply sqrt_lt_R0, Rmult_lt_0_compat; lra).
  pose proof (exp_pos (- (1 / te))). pose proof (exp_pos (- (1 / ti))).
  transitivity (sqrt (PI / 2 * tm) / sqrt (PI / 2 * te) / sqrt (PI / 2 * ti)).
  - rewrite sq_ratio by (try assumption; apply tm0). rewrite <- sqrt_div_alt by (apply Rmult_lt_0_compat; lra). f_equal. unfold tm. field. lra.
  - field. lra.
Qed.
Lemma cold_hot n : 0 < bessel K 2 (1 / ti) -> te < / 100 -> exp (-1 / ti) / bessel K 2 (1 / ti) * sqrt (tm / te) = bessel K n x / (bessel K 2 (1 / te) * bessel K 2 (1 / ti)).
Proof using A B.
  intros P H1. rewrite mean by tauto. rewrite (bessel_cold K 2 te) by assumption. rewrite neg1. rewrite <- sq_ratio by (try assumption; apply tm0).
  assert (0 < sqrt (PI / 2 * te)) by (pose proof PI_RGT_0; apply sqrt_lt_R0, Rmult_lt_0_compat; lra).
  pose proof (exp_pos (- (1 / te))). field. lra.
Qed.
Lemma hot_cold n : 0 < bessel K 2 (1 / te) -> ti < / 100 -> exp (-1 / te) / bessel K 2 (1 / te) * sqrt (tm / ti) = bessel K n x / (bessel K 2 (1 / te) * bessel K 2 (1 / ti)).
Proof using A B.
  intros P H1. rewrite mean by tauto. rewrite (bessel_cold K 2 ti) by assumption. rewrite neg1. rewrite <- sq_ratio by (try assumption; apply tm0).
  assert (0 < sqrt (PI / 2 * ti)) by (pose proof PI_RGT_0; apply sqrt_lt_R0, Rmult_lt_0_compat; lra).
  pose proof (exp_pos (- (1 / ti))). field. lra.
Qed.
End S.
Lemma coul_rate game gamp MP ME KBOL CL THOMSON Ne_unit U_unit T_unit LOG K :
  0 < MP -> 0 < ME -> 0 < KBOL -> 0 < CL -> (forall n x, 0 < x -> 0 < K n x) ->
  forall rho u k,
  let TE := Te game MP ME KBOL CL rho k in
  let TI := Ti game gamp KBOL Ne_unit U_unit rho u k in
  0 < TE -> 0 < TI ->
  Qc game gamp MP ME KBOL CL THOMSON Ne_unit U_unit T_unit LOG K rho u k =
    3 / 2 * (ME / MP) * (rho * Ne_unit) ^ 2 * LOG * CL * KBOL * THOMSON * (TI - TE) *
    exchange_factor (bessel K) (KBOL * TE / (ME * CL ^ 2)) (KBOL * TI / (MP * CL ^ 2)) * (T_unit / U_unit).
Proof.
  intros M E KB C KN rho u k TE TI HE HI. unfold Qc. cbv zeta. fold TE TI.
  replace (KBOL * TI / (MP * CL ^ 2)) with (KBOL * TI / (MP * CL * CL)) by (field; lra).
  assert (Q : thetae game MP ME rho k = KBOL * TE / (ME * CL ^ 2)) by (unfold TE, Te; field; lra).
  rewrite <- Q. assert (te0 : 0 < thetae game MP ME rho k).
  { rewrite Q. apply div_pos; [apply Rmult_lt_0_compat; assumption|]. apply Rmult_lt_0_compat; [assumption|]. apply pow_lt. assumption. }
  assert (ti0 : 0 < KBOL * TI / (MP * CL * CL)) by (apply div_pos; repeat first [assumption | apply Rmult_lt_0_compat]).
  set (te := thetae game MP ME rho k) in *. set (ti := KBOL * TI / (MP * CL * CL)) in *. clearbody te ti TE TI.
  rewrite !kn_bessel. rewrite tm_inv by assumption.
  replace (1 / (te * ti / (te + ti))) with ((te + ti) / (te * ti)) by (field; lra).
  pose proof (div_pos 1 te ltac:(lra) te0) as ie. pose proof (div_pos 1 ti ltac:(lra) ti0) as ii.
  pose proof (bessel_pos K KN 2 (1 / te) ie) as b1. pose proof (bessel_pos K KN 2 (1 / ti) ii) as b2.
  match goal with |- context [let '(_, _) := ?y in _] => replace y with
    (bessel K 1 ((te + ti) / (te * ti)) / (bessel K 2 (1 / te) * bessel K 2 (1 / ti)), bessel K 0 ((te + ti) / (te * ti)) / (bessel K 2 (1 / te) * bessel K 2 (1 / ti))) end.
  2:{ destruct (Rltb_spec te (/ 100)), (Rltb_spec ti (/ 100)); cbn [andb]; [| | |reflexivity]; f_equal; symmetry.
      all: first [apply cold_cold; lra | apply cold_hot; lra | apply hot_cold; lra]. }
  unfold exchange_factor. unfold Rdiv. ring.
Qed.
