(** C131: the luminosity proxy of the log. *)
From Coq Require Import Reals List Bool Lra Lia.
From Verif Require Import RLib XLib EhtModel.
Import ListNotations.
Open Scope R_scope.

(** a positive number has one positive cube root *)
Lemma cube_root x : 0 < x -> 0 < Rpower x (1 / 3) /\ Rpower x (1 / 3) * Rpower x (1 / 3) * Rpower x (1 / 3) = x.
Proof.
  intros P. split; [unfold Rpower; apply exp_pos|]. rewrite <- !Rpower_plus. replace (1 / 3 + 1 / 3 + 1 / 3) with 1 by lra. apply Rpower_1, P.
Qed.
Lemma cube_unique a b : 0 < a -> 0 < b -> a * a * a = b * b * b -> a = b.
Proof.
  intros A B E. assert (K : (a - b) * (a * a + a * b + b * b) = 0) by lra.
  apply Rmult_integral in K. destruct K as [K|K]; [lra|]. assert (0 < a * a) by nra. assert (0 < a * b) by nra. nra.
Qed.
Lemma denominator z : 0 < bsq z -> Pg z <> 0 -> 0 < sqrt (bsq z) * Pg z * Pg z.
Proof.
  intros B P. pose proof (sqrt_lt_R0 _ B). assert (0 < Pg z * Pg z) by (destruct (Rtotal_order (Pg z) 0) as [|[|]]; nra).
  rewrite Rmult_assoc. apply Rmult_lt_0_compat; assumption.
Qed.
Lemma value z : 0 < rho z -> Pg z <> 0 -> 0 < bsq z ->
  j_eht z = Fin (rho z * rho z * rho z * / (Pg z * Pg z) * exp (- (2 / 10) * Rpower (rho z * rho z / (sqrt (bsq z) * Pg z * Pg z)) (1 / 3))).
Proof.
  intros R P B. pose proof (denominator z B P) as D. assert (N : 0 < rho z * rho z) by nra.
  assert (Q : 0 < rho z * rho z / (sqrt (bsq z) * Pg z * Pg z)) by (apply Rdiv_lt_0_compat; assumption).
  unfold j_eht. rewrite xsqrt_fin by lra. cbn [xmul]. rewrite xdiv_fin by lra. unfold cbrt, powm2, pow3.
  destruct (Rltb_spec (rho z * rho z / (sqrt (bsq z) * Pg z * Pg z)) 0); [lra|].
  destruct (Reqb_spec (rho z * rho z / (sqrt (bsq z) * Pg z * Pg z)) 0); [lra|].
  destruct (Reqb_spec (Pg z) 0); [contradiction|]. reflexivity.
Qed.
Lemma no_field z : 0 < rho z -> Pg z <> 0 -> bsq z = 0 -> j_eht z = Fin 0.
Proof.
  intros R P B. unfold j_eht. rewrite B, xsqrt_fin by lra. rewrite sqrt_0. cbn [xmul xdiv]. destruct (Reqb_spec (0 * Pg z * Pg z) 0) as [_|K]; [|exfalso; apply K; ring].
  unfold inf_by. destruct (Rltb_spec 0 (rho z * rho z)); [|nra]. cbn [cbrt xmul]. unfold inf_by, C_eht.
  destruct (Rltb_spec 0 (- (2 / 10))); [lra|]. destruct (Rltb_spec (- (2 / 10)) 0); [|lra]. cbn [xexp]. unfold pow3, powm2.
  destruct (Reqb_spec (Pg z) 0); [contradiction|]. cbn [xmul]. f_equal. ring.
Qed.
Lemma cold z : 0 < rho z -> Pg z = 0 -> 0 <= bsq z -> j_eht z = NaN.
Proof.
  intros R P B. unfold j_eht. rewrite P, xsqrt_fin by lra. cbn [xmul xdiv]. destruct (Reqb_spec (sqrt (bsq z) * 0 * 0) 0) as [_|K]; [|exfalso; apply K; ring].
  unfold inf_by. destruct (Rltb_spec 0 (rho z * rho z)); [|nra]. cbn [cbrt xmul]. unfold inf_by, C_eht.
  destruct (Rltb_spec 0 (- (2 / 10))); [lra|]. destruct (Rltb_spec (- (2 / 10)) 0); [|lra]. cbn [xexp]. unfold pow3, powm2.
  destruct (Reqb_spec 0 0); [|contradiction]. cbn [xmul]. unfold inf_by. destruct (Rltb_spec 0 (rho z * rho z * rho z)) as [_|K]; [|exfalso; apply K; repeat apply Rmult_lt_0_compat; assumption].
  cbn [xmul]. unfold inf_by. destruct (Rltb_spec 0 0); [lra|reflexivity].
Qed.

(** With density, pressure and field, the emissivity is rho^3 P^-2 exp(-0.2 c), where c is the
    positive number with c^3 B P^2 = rho^2 and B^2 = b.b. *)
Theorem C131_formula : forall z B c, 0 < rho z -> Pg z <> 0 -> 0 < B -> bsq z = B ^ 2 -> 0 < c -> c ^ 3 * (B * Pg z ^ 2) = rho z ^ 2 ->
  j_eht z = Fin (rho z ^ 3 / Pg z ^ 2 * exp (- (c / 5))).
Proof.
  intros z B c R P HB E C K. assert (BB : 0 < bsq z) by (rewrite E; nra). rewrite value by assumption.
  assert (S : sqrt (bsq z) = B) by (rewrite E; replace (B ^ 2) with (B * B) by ring; apply sqrt_square; lra).
  pose proof (denominator z BB P) as D. rewrite S in *.
  assert (Q : 0 < rho z * rho z / (B * Pg z * Pg z)) by (apply Rdiv_lt_0_compat; [nra|exact D]).
  destruct (cube_root _ Q) as [U V]. assert (Y : Rpower (rho z * rho z / (B * Pg z * Pg z)) (1 / 3) = c).
  { apply cube_unique; [exact U|exact C|]. rewrite V. apply Rmult_eq_reg_r with (B * Pg z * Pg z); [|lra]. field_simplify; [lra|split; [exact P|lra]]. }
  rewrite Y. f_equal. replace (- (2 / 10) * c) with (- (c / 5)) by field. field. exact P.
Qed.
Print Assumptions C131_formula.

(** Without field it is zero. *)
Theorem C131_no_field : forall z, 0 < rho z -> Pg z <> 0 -> bsq z = 0 -> j_eht z = Fin 0.
Proof. exact no_field. Qed.
Print Assumptions C131_no_field.

Lemma zone_finite z : 0 < rho z -> Pg z <> 0 -> 0 <= bsq z -> exists j, j_eht z = Fin j /\ 0 <= j.
Proof.
  intros R P B. destruct (Req_dec (bsq z) 0) as [E|E].
  - exists 0. split; [apply no_field; assumption|lra].
  - eexists. split; [apply value; try assumption; lra|]. repeat apply Rmult_le_pos; try lra; [|left; apply exp_pos].
    left. apply Rinv_0_lt_compat. destruct (Rtotal_order (Pg z) 0) as [|[|]]; nra.
Qed.
Lemma sum_from zs : forall a, 0 <= a -> (forall z, In z zs -> 0 < rho z /\ Pg z <> 0 /\ 0 <= bsq z /\ 0 <= dvol z) ->
  exists l, fold_left (fun a z => (a + j_eht z * Fin (dvol z))%X) zs (Fin a) = Fin l /\ a <= l.
Proof.
  induction zs as [|z zs IH]; intros a A H; [exists a; split; [reflexivity|lra]|]. cbn [fold_left].
  destruct (H z (or_introl eq_refl)) as (R & P & B & V). destruct (zone_finite z R P B) as (j & J & JP). rewrite J. cbn [xmul xadd].
  assert (0 <= j * dvol z) by (apply Rmult_le_pos; assumption).
  destruct (IH (a + j * dvol z)) as (l & L & LL); [lra|intros; apply H; right; assumption|]. exists l. split; [exact L|lra].
Qed.
(** The proxy is a finite number, not negative, if no zone has zero pressure. *)
Theorem C131_finite : forall zs, (forall z, In z zs -> 0 < rho z /\ Pg z <> 0 /\ 0 <= bsq z /\ 0 <= dvol z) ->
  exists l, lum_eht zs = Fin l /\ 0 <= l.
Proof. intros zs H. apply sum_from; [lra|exact H]. Qed.
Print Assumptions C131_finite.

(** It is the sum of the zones' emissivities times their volumes. *)
Theorem C131_sum : forall zs (j : ezone -> R), (forall z, In z zs -> j_eht z = Fin (j z)) ->
  lum_eht zs = Fin (fold_right Rplus 0 (map (fun z => j z * dvol z) zs)).
Proof.
  intros zs j H. unfold lum_eht. enough (E : forall a, fold_left (fun a z => (a + j_eht z * Fin (dvol z))%X) zs (Fin a) = Fin (a + fold_right Rplus 0 (map (fun z => j z * dvol z) zs))).
  { rewrite E. f_equal. lra. }
  induction zs as [|z zs IH]; intros a; cbn [fold_left map fold_right]; [f_equal; lra|].
  rewrite (H z (or_introl eq_refl)). cbn [xmul xadd]. rewrite IH by (intros; apply H; right; assumption). f_equal. lra.
Qed.
Print Assumptions C131_sum.

Lemma nan_stays zs : fold_left (fun a z => (a + j_eht z * Fin (dvol z))%X) zs NaN = NaN.
Proof. induction zs as [|z zs IH]; [reflexivity|]. cbn [fold_left]. exact IH. Qed.
Lemma nan_right a : (a + NaN)%X = NaN.
Proof. destruct a; reflexivity. Qed.
(** One zone with matter and no pressure anywhere makes the whole of it not a number. *)
Theorem C131_cold : forall zs z, In z zs -> 0 < rho z -> Pg z = 0 -> 0 <= bsq z -> lum_eht zs = NaN.
Proof.
  intros zs z I R P B. unfold lum_eht. generalize (Fin 0). induction zs as [|y zs IH]; [destruct I|]. intros a. cbn [fold_left].
  destruct I as [-> | I]; [|apply IH, I]. rewrite (cold z R P B). cbn [xmul]. rewrite nan_right. apply nan_stays.
Qed.
Print Assumptions C131_cold.
Theorem C131_cold_refuted : exists zs, (forall z, In z zs -> 0 < rho z /\ 0 <= Pg z /\ 0 <= bsq z /\ 0 < dvol z) /\ lum_eht zs = NaN.
Proof.
  exists [mke 1 1 1 1; mke 1 0 1 1]. split.
  - intros z [<- | [<- | []]]; cbn; lra.
  - apply C131_cold with (mke 1 0 1 1); cbn; try lra. right. left. reflexivity.
Qed.
Print Assumptions C131_cold_refuted.

(** A stronger field at the same density and pressure shines more. *)
Theorem C131_field : forall r p b b' v v', 0 < r -> p <> 0 -> 0 < b -> b < b' ->
  exists j j', j_eht (mke r p b v) = Fin j /\ j_eht (mke r p b' v') = Fin j' /\ j < j'.
Proof.
  intros r p b b' v v' R P B L.
  pose proof (value (mke r p b v) R P B) as E. assert (B' : 0 < b') by lra. pose proof (value (mke r p b' v') R P B') as E'.
  pose proof (denominator (mke r p b v) B P) as D. pose proof (denominator (mke r p b' v') B' P) as D'. cbn [rho Pg bsq] in *.
  do 2 eexists. split; [exact E|]. split; [exact E'|].
  assert (PP : 0 < p * p) by (destruct (Rtotal_order p 0) as [|[|]]; nra).
  apply Rmult_lt_compat_l; [apply Rmult_lt_0_compat; [repeat apply Rmult_lt_0_compat; assumption|apply Rinv_0_lt_compat, PP]|].
  apply exp_increasing. enough (Rpower (r * r / (sqrt b' * p * p)) (1 / 3) < Rpower (r * r / (sqrt b * p * p)) (1 / 3)) by lra.
  assert (S : sqrt b < sqrt b') by (apply sqrt_lt_1; lra).
  unfold Rpower. apply exp_increasing. apply Rmult_lt_compat_l; [lra|]. apply ln_increasing.
  - apply Rdiv_lt_0_compat; [nra|exact D'].
  - unfold Rdiv. apply Rmult_lt_compat_l; [nra|]. apply Rinv_lt_contravar; [apply Rmult_lt_0_compat; assumption|].
    rewrite !Rmult_assoc. apply Rmult_lt_compat_r; assumption.
Qed.
Print Assumptions C131_field.

Example C131_nonvacuous : j_eht (mke 8 1 1 1) = Fin (512 * exp (- (4 / 5))) /\ (exists l, lum_eht [mke 8 1 1 1; mke 1 2 0 1] = Fin l /\ 0 <= l).
Proof.
  split.
  - rewrite (C131_formula (mke 8 1 1 1) 1 4) by (cbn; lra). f_equal. cbn. lra.
  - apply C131_finite. intros z [<- | [<- | []]]; cbn; lra.
Qed.
