(** Cartesian to spherical coordinates; witnesses. *)
From Coq Require Import Reals Bool List Lia Lra Psatz.
From Coquelicot Require Import Coquelicot.
From Verif Require Import RLib GeomModel CrdModel CrdSpec CrdProofs CrdPoles CrdRadii.
Open Scope R_scope.

Lemma tan_shift p : cos p <> 0 -> tan (p - PI) = tan p.
Proof.
  intros H. unfold tan. assert (S : sin (p - PI) = - sin p) by (rewrite sin_minus, cos_PI, sin_PI; ring). assert (C : cos (p - PI) = - cos p) by (rewrite cos_minus, cos_PI, sin_PI; ring).
  rewrite S, C. field. auto.
Qed.
Lemma cos_lt0 p : PI / 2 < p < 3 * (PI / 2) -> cos p < 0. Proof. intros. apply cos_lt_0; lra. Qed.
Lemma atan2_polar q p : 0 < q -> 0 <= p < 2 * PI ->
  exists v, atan2 (q * sin p) (q * cos p) = Some v /\ (if Rltb v 0 then v + 2 * PI else v) = p.
Proof.
  intros Q P. pose proof PI_RGT_0 as PP.
  assert (T : cos p <> 0 -> q * sin p / (q * cos p) = tan p) by (intros; unfold tan; field; lra).
  destruct (Rlt_dec p (PI / 2)) as [L|L].
  { assert (C : 0 < cos p) by (apply cos_gt_0; lra). exists p. unfold atan2. rewrite Rltb_true by nra. rewrite T by lra. rewrite atan_tan by lra. split; [reflexivity|]. rewrite Rltb_false by lra. reflexivity. }
  destruct (Req_dec p (PI / 2)) as [E|E].
  { exists (PI / 2). subst p. rewrite cos_PI2, sin_PI2. unfold atan2. rewrite Rmult_0_r, Rmult_1_r, !(Rltb_false 0 0), (Rltb_true 0 q) by lra. split; [reflexivity|]. rewrite Rltb_false by lra. reflexivity. }
  destruct (Rlt_dec p (3 * (PI / 2))) as [L2|L2].
  { assert (C : cos p < 0) by (apply cos_lt0; lra). unfold atan2. rewrite (Rltb_false 0), (Rltb_true _ 0) by nra. rewrite T, <- tan_shift by lra. rewrite atan_tan by lra.
    destruct (Rle_dec p PI) as [L3|L3].
    - assert (S : 0 <= sin p) by (apply sin_ge_0; lra). exists (p - PI + PI). rewrite Rleb_true by nra. split; [reflexivity|]. rewrite Rltb_false by lra. ring.
    - assert (S : sin p < 0) by (apply sin_lt_0; lra). exists (p - PI - PI). rewrite Rleb_false by nra. split; [reflexivity|]. rewrite Rltb_true by lra. ring. }
  destruct (Req_dec p (3 * (PI / 2))) as [E2|E2].
  { exists (- (PI / 2)). subst p. rewrite cos_3PI2, sin_3PI2. unfold atan2. rewrite Rmult_0_r, !(Rltb_false 0 0), (Rltb_false 0), (Rltb_true _ 0) by lra. split; [reflexivity|]. rewrite Rltb_true by lra. field. }
  assert (CE : cos p = cos (p - 2 * PI)) by (rewrite cos_minus, cos_2PI, sin_2PI; ring). assert (SE : sin p = sin (p - 2 * PI)) by (rewrite sin_minus, cos_2PI, sin_2PI; ring).
  assert (C : 0 < cos p) by (rewrite CE; apply cos_gt_0; lra).
  exists (p - 2 * PI). unfold atan2. rewrite Rltb_true by nra. rewrite T by lra. unfold tan. rewrite CE, SE. fold (tan (p - 2 * PI)). rewrite atan_tan by lra. split; [reflexivity|]. rewrite Rltb_true by lra. ring.
Qed.
Lemma sph_back r t p : 0 < r -> 0 < t < PI -> 0 <= p < 2 * PI ->
  cart_to_sph (r * sin t * cos p) (r * sin t * sin p) (r * cos t) = Some (r, t, p).
Proof.
  intros R T P. assert (S : 0 < sin t) by (apply sin_gt_0; lra).
  assert (E : sqrt (r * sin t * cos p * (r * sin t * cos p) + r * sin t * sin p * (r * sin t * sin p) + r * cos t * (r * cos t)) = r).
  { pose proof (sin2_cos2 t) as A. pose proof (sin2_cos2 p) as B. unfold Rsqr in A, B. set (s := sin t) in *. set (c := cos t) in *. set (u := sin p) in *. set (v := cos p) in *. clearbody s c u v.
    replace (r * s * v * (r * s * v) + r * s * u * (r * s * u) + r * c * (r * c)) with (r * r).
    - apply sqrt_square; lra.
    - replace (r * s * v * (r * s * v) + r * s * u * (r * s * u) + r * c * (r * c)) with (r * r * (s * s * (u * u + v * v) + c * c)) by ring. rewrite B, Rmult_1_r, A. ring. }
  unfold cart_to_sph. rewrite E. destruct (Reqb_spec r 0) as [Z|_]; [lra|].
  destruct (atan2_polar (r * sin t) p ltac:(apply Rmult_lt_0_compat; lra) P) as (v & A & B). rewrite A, B.
  replace (r * cos t / r) with (cos t) by (field; lra). rewrite acos_cos by lra. reflexivity.
Qed.

Lemma retro a x : -1 < a < 0 -> orbit a x -> x * x = Risco a -> ~ is_derive (energy2 a) x 0.
Proof.
  intros A O E D. apply en_stat in D; auto. destruct O as (X & _). destruct (isco_x a ltac:(lra)) as (Y & YY & Q). set (y := sqrt (Risco a)) in *. clearbody y.
  assert (x = y) by nra. subst y. rewrite (Rabs_left a) in Q by lra. assert (a * x < 0) by nra. nra.
Qed.

(** an odd exponent misses the pole; the angle may decrease outwards of the inner edge *)
Lemma odd_pole : exists n X, X 2%nat = 0 /\ th_of_X 1 1 n (1 / 2) 0 true X = PI / 3.
Proof.
  exists 1%nat, (fun _ => 0). split; [reflexivity|].
  unfold th_of_X, thG_of_X, thJ_of_X, y_of_X, poly_norm. replace (1 / 2 * (0 - 0)) with 0 by ring. rewrite exp_0. cbn [INR pow]. field.
Qed.
Lemma fold_back : exists X, X 1%nat < 0 /\ 0 < X 2%nat < 1 /\ dthdX2 1 (1 / 3) 2 (1 / 2) 0 true X < 0.
Proof.
  exists (fun i => match i with 1%nat => -1 | _ => 1 / 2 end). split; [lra|]. split; [lra|].
  unfold dthdX2, dthGdX2, dthJdX2, y_of_X, poly_norm. replace (1 / 2 * (0 - -1)) with (1 / 2) by field.
  pose proof (exp_ineq1 (1 / 2) ltac:(lra)) as H. set (w := exp (1 / 2)) in *. clearbody w. pose proof PI_RGT_0 as P. set (c := cos _). clearbody c.
  match goal with |- ?e < 0 => replace e with (PI * (1 - 3 / 4 * w)) by (cbn [INR pow]; field) end. nra.
Qed.
