(** Lemmas for thermal cross-sections. *)
From Coq Require Import Reals Bool ZArith Lia Lra.
From Verif Require Import RLib XLib IntLib ScatModel ScatSpec ScatKN ScatCross ThermModel ThermSpec.
Open Scope R_scope.

Lemma rsum_ext n f g : (forall k, (k < n)%nat -> f k = g k) -> rsum n f = rsum n g.
Proof. induction n as [|n IH]; intros H; cbn [rsum]; [reflexivity|]. rewrite IH by (intros; apply H; lia). rewrite H by lia. reflexivity. Qed.
Lemma rsum_plus n f g : rsum n (fun k => f k + g k) = rsum n f + rsum n g.
Proof. induction n as [|n IH]; cbn [rsum]; [lra|]. rewrite IH. ring. Qed.
Lemma rsum_scal n c f : rsum n (fun k => c * f k) = c * rsum n f.
Proof. induction n as [|n IH]; cbn [rsum]; [lra|]. rewrite IH. ring. Qed.
Lemma rsum_zero n : rsum n (fun _ => 0) = 0.
Proof. induction n as [|n IH]; cbn [rsum]; [reflexivity|]. rewrite IH. ring. Qed.
Lemma rsum_swap n m f : rsum n (fun i => rsum m (fun j => f i j)) = rsum m (fun j => rsum n (fun i => f i j)).
Proof. induction n as [|n IH]; cbn [rsum]; [now rewrite rsum_zero|]. rewrite IH, <- rsum_plus. reflexivity. Qed.
Lemma rsum_le n f g : (forall k, (k < n)%nat -> f k <= g k) -> rsum n f <= rsum n g.
Proof. induction n as [|n IH]; intros H; cbn [rsum]; [lra|]. assert (rsum n f <= rsum n g) by (apply IH; intros; apply H; lia). specialize (H n ltac:(lia)). lra. Qed.
Lemma rsum_pos n f : (0 < n)%nat -> (forall k, (k < n)%nat -> 0 < f k) -> 0 < rsum n f.
Proof.
  destruct n as [|n]; [lia|]. intros _ H. cbn [rsum]. assert (0 <= rsum n f). { rewrite <- (rsum_zero n). apply rsum_le. intros. apply Rlt_le, H. lia. }
  specialize (H n ltac:(lia)). lra.
Qed.

(** ** the loops *)
Lemma for_sum n : forall fuel x dx hi body g acc, (n < fuel)%nat ->
  (forall k, (k < n)%nat -> x + INR k * dx < hi) -> hi <= x + INR n * dx ->
  (forall k a, (k < n)%nat -> body (x + INR k * dx) a = Some (a + g k)) ->
  for_lt fuel x dx hi body acc = Some (acc + rsum n g).
Proof.
  assert (G : forall m fuel x dx hi body g acc, (m < fuel)%nat ->
    (forall k, (k < m)%nat -> x + INR k * dx < hi) -> hi <= x + INR m * dx ->
    (forall k a, (k < m)%nat -> body (x + INR k * dx) a = Some (a + g k)) ->
    exists s, for_lt fuel x dx hi body acc = Some (acc + s) /\ s = rsum m g).
  { induction m as [|m IH]; intros fuel x dx hi body g acc F L H B; (destruct fuel as [|fuel]; [lia|]); cbn [for_lt].
    - cbn [INR] in H. rewrite Rltb_false by lra. exists 0. split; [f_equal; ring|reflexivity].
    - specialize (L 0%nat ltac:(lia)) as L0. cbn [INR] in L0. rewrite Rltb_true by lra.
      specialize (B 0%nat acc ltac:(lia)) as B0. cbn [INR] in B0. rewrite Rmult_0_l, Rplus_0_r in B0. rewrite B0.
      destruct (IH fuel (x + dx) dx hi body (fun k => g (S k)) (acc + g 0%nat)) as (s & E & S).
      + lia.
      + intros k K. specialize (L (S k) ltac:(lia)). rewrite S_INR in L. lra.
      + rewrite S_INR in H. lra.
      + intros k a K. specialize (B (S k) a ltac:(lia)). rewrite S_INR in B. rewrite <- B. f_equal. ring.
      + exists (g 0%nat + s). split; [rewrite E; f_equal; ring|]. rewrite S. clear. induction m as [|m IH]; cbn [rsum] in *; [lra|]. rewrite <- IH. ring. }
  intros fuel x dx hi body g acc F L H B. destruct (G n fuel x dx hi body g acc F L H B) as (s & E & ->). exact E.
Qed.
(** ** the distribution *)
Lemma half_pow th c : 0 < th -> sqrt (PI / 2) * Rpower th (c + / 2) = sqrt (PI * th / 2) * Rpower th c.
Proof.
  intros T. rewrite Rpower_plus, Rpower_sqrt by assumption. replace (PI * th / 2) with (PI / 2 * th) by field.
  rewrite sqrt_mult_alt by (pose proof PI_RGT_0; lra). ring.
Qed.
Lemma K2f_is K2 th : 0 < th -> K2f K2 th * exp (- (1 / th)) = k2_of K2 th.
Proof.
  intros T. unfold K2f, k2_of. destruct (Rltb_spec (/ 100) th), (Rlt_dec (1 / 100) th); try lra.
  - rewrite Rmult_assoc, <- exp_plus. replace (1 / th + - (1 / th)) with 0 by ring. rewrite exp_0. ring.
  - unfold k2_cold. replace 1.5 with (INR 1 + / 2) by (cbn; lra). replace 2.5 with (INR 2 + / 2) by (cbn; lra). replace 3.5 with (INR 3 + / 2) by (cbn; lra).
    replace (15 / 8 * sqrt (PI / 2) * Rpower th (INR 1 + / 2)) with (15 / 8 * (sqrt (PI / 2) * Rpower th (INR 1 + / 2))) by ring.
    replace (105 / 128 * sqrt (PI / 2) * Rpower th (INR 2 + / 2)) with (105 / 128 * (sqrt (PI / 2) * Rpower th (INR 2 + / 2))) by ring.
    replace (315 / 1024 * sqrt (PI / 2) * Rpower th (INR 3 + / 2)) with (315 / 1024 * (sqrt (PI / 2) * Rpower th (INR 3 + / 2))) by ring.
    rewrite !half_pow by assumption. rewrite !Rpower_pow by assumption. ring.
Qed.
Lemma k2_pos K2 th : (forall x, 0 < x -> 0 < K2 x) -> 0 < th -> 0 < k2_of K2 th.
Proof.
  intros H T. unfold k2_of. destruct (Rlt_dec (1 / 100) th).
  - apply H. apply Rdiv_lt_0_compat; lra.
  - unfold k2_cold. apply Rmult_lt_0_compat; [apply Rmult_lt_0_compat; [apply exp_pos|apply sqrt_lt_R0; pose proof PI_RGT_0; apply Rdiv_lt_0_compat; [apply Rmult_lt_0_compat; lra|lra]]|].
    assert (0 <= th ^ 2) by apply pow2_ge_0. assert (th ^ 3 <= 1) by (rewrite <- (pow1 3); apply pow_incr; lra).
    lra.
Qed.
Lemma dN_is K2 th g : (forall x, 0 < x -> 0 < K2 x) -> 0 < th -> dNdgammae K2 th g = juttner (k2_of K2 th) th g.
Proof.
  intros H T. pose proof (k2_pos K2 th H T) as P. pose proof (K2f_is K2 th T) as E. unfold dNdgammae, juttner.
  replace (g ^ 2) with (g * g) by ring. replace (- (g - 1) / th) with (- g / th + 1 / th) by (field; lra). rewrite exp_plus.
  assert (I : exp (1 / th) * exp (- (1 / th)) = 1) by (rewrite <- exp_plus; replace (1 / th + - (1 / th)) with 0 by ring; apply exp_0).
  pose proof (exp_pos (1 / th)) as e1. pose proof (exp_pos (- (1 / th))) as e2. rewrite <- E in P |- *.
  assert (F : 0 < K2f K2 th). { destruct (Rlt_or_le 0 (K2f K2 th)); [assumption|]. exfalso. assert (K2f K2 th * exp (- (1 / th)) <= 0 * exp (- (1 / th))) by (apply Rmult_le_compat_r; lra). lra. }
  replace (exp (1 / th)) with (/ exp (- (1 / th))) by (apply (Rmult_eq_reg_r (exp (- (1 / th)))); [rewrite I; field; lra|lra]).
  field. lra.
Qed.
Lemma lorentz_gt th k : 0 < th -> 1 < lorentz th k.
Proof. intros T. unfold lorentz. assert (0 < (INR k + 1 / 2) * (th / 20)) by (pose proof (pos_INR k); apply Rmult_lt_0_compat; lra). lra. Qed.
Lemma lorentz_lt th k : 0 < th -> (k < 240)%nat -> lorentz th k < 1 + 12 * th.
Proof.
  intros T K. unfold lorentz. assert (INR k <= 239) by (replace 239 with (INR 239) by (cbn; lra); apply le_INR; lia).
  assert ((INR k + 1 / 2) * (th / 20) < 240 * (th / 20)) by (apply Rmult_lt_compat_r; lra). lra.
Qed.
Lemma juttner_pos K2 th g : (forall x, 0 < x -> 0 < K2 x) -> 0 < th -> 1 < g -> 0 < juttner (k2_of K2 th) th g.
Proof.
  intros H T G. pose proof (k2_pos K2 th H T) as P. unfold juttner. apply Rdiv_lt_0_compat; [|apply Rmult_lt_0_compat; assumption].
  apply Rmult_lt_0_compat; [apply Rmult_lt_0_compat; [lra|]|apply exp_pos]. apply sqrt_lt_R0. assert (1 * 1 < g * g) by (apply Rmult_le_0_lt_compat; lra). lra.
Qed.
(** ** the quadrature *)
Section Avg.
Variable K2 : R -> R.
Hypothesis KP : forall x, 0 < x -> 0 < K2 x.
Lemma average_is fuel bc (b : R -> R -> R) th : (240 < fuel)%nat -> 0 < th ->
  (forall l k, (l < 40)%nat -> (k < 240)%nat -> bc (cosine l) (lorentz th k) = Some (b (cosine l) (lorentz th k))) ->
  average K2 fuel bc th = Some (over_energy K2 th (fun g => over_angle (fun mu => b mu g))).
Proof using KP.
  intros F T B. unfold average. cbv zeta. unfold DMUE, DGAMMAE, MAXGAMMA.
  rewrite (for_sum 40 fuel _ _ _ _ (fun l => rsum 240 (fun k => 5 / 100 * (th * (5 / 100)) * b (cosine l) (lorentz th k) * (5 / 10 * juttner (k2_of K2 th) th (lorentz th k)))) 0).
  - f_equal. rewrite Rplus_0_l. rewrite rsum_swap. unfold over_energy. apply rsum_ext. intros k _. unfold over_angle.
    rewrite <- rsum_scal. apply rsum_ext. intros l _. field.
  - lia.
  - intros k K. assert (INR k <= 39) by (replace 39 with (INR 39) by (cbn; lra); apply le_INR; lia). lra.
  - replace (INR 40) with 40 by (cbn; lra). lra.
  - intros l a L.
    replace (-1 + 5 / 10 * (5 / 100) + INR l * (5 / 100)) with (cosine l) by (unfold cosine; field).
    apply for_sum.
    + lia.
    + intros k K. assert (INR k <= 239) by (replace 239 with (INR 239) by (cbn; lra); apply le_INR; lia).
      assert (INR k * (th * (5 / 100)) <= 239 * (th * (5 / 100))) by (apply Rmult_le_compat_r; lra). lra.
    + replace (INR 240) with 240 by (cbn; lra). lra.
    + intros k a' K. replace (1 + 5 / 10 * (th * (5 / 100)) + INR k * (th * (5 / 100))) with (lorentz th k) by (unfold lorentz; field).
      rewrite B by assumption. rewrite dN_is by assumption. reflexivity.
Qed.
Lemma over_energy_le th F G : 0 < th -> (forall g, 1 < g < 1 + 12 * th -> F g <= G g) -> over_energy K2 th F <= over_energy K2 th G.
Proof using KP.
  intros T H. unfold over_energy. apply rsum_le. intros k K. pose proof (lorentz_gt th k T). pose proof (lorentz_lt th k T K).
  apply Rmult_le_compat_l; [|apply H; lra]. apply Rlt_le, Rmult_lt_0_compat; [lra|apply juttner_pos; assumption].
Qed.
Lemma over_energy_pos th F : 0 < th -> (forall g, 1 < g < 1 + 12 * th -> 0 < F g) -> 0 < over_energy K2 th F.
Proof using KP.
  intros T H. unfold over_energy. apply rsum_pos; [lia|]. intros k K. pose proof (lorentz_gt th k T). pose proof (lorentz_lt th k T K).
  apply Rmult_lt_0_compat; [|apply H; lra]. apply Rmult_lt_0_compat; [lra|apply juttner_pos; assumption].
Qed.
Lemma over_energy_scal th c F : over_energy K2 th (fun g => c * F g) = c * over_energy K2 th F.
Proof. unfold over_energy. rewrite <- rsum_scal. apply rsum_ext. intros. ring. Qed.
Lemma over_energy_ext th F G : 0 < th -> (forall g, 1 < g < 1 + 12 * th -> F g = G g) -> over_energy K2 th F = over_energy K2 th G.
Proof using.
  intros T H. unfold over_energy. apply rsum_ext. intros k K. rewrite H; [reflexivity|]. pose proof (lorentz_gt th k T). pose proof (lorentz_lt th k T K). lra.
Qed.
End Avg.
Lemma over_angle_le F G : (forall mu, -1 < mu < 1 -> F mu <= G mu) -> over_angle F <= over_angle G.
Proof.
  intros H. unfold over_angle. apply rsum_le. intros l L. assert (INR l <= 39) by (replace 39 with (INR 39) by (cbn; lra); apply le_INR; lia).
  pose proof (pos_INR l). apply Rmult_le_compat_l; [lra|]. apply H. unfold cosine. lra.
Qed.
Lemma over_angle_pos F : (forall mu, -1 < mu < 1 -> 0 < F mu) -> 0 < over_angle F.
Proof.
  intros H. unfold over_angle. apply rsum_pos; [lia|]. intros l L. assert (INR l <= 39) by (replace 39 with (INR 39) by (cbn; lra); apply le_INR; lia).
  pose proof (pos_INR l). apply Rmult_lt_0_compat; [lra|]. apply H. unfold cosine. lra.
Qed.
Lemma angle_sum c F : over_angle (fun mu => c * F mu) = c * over_angle F.
Proof. unfold over_angle. rewrite <- rsum_scal. apply rsum_ext. intros. ring. Qed.
Lemma angle_1 v : over_angle (fun mu => 1 - mu * v) = 1.
Proof. unfold over_angle, cosine. cbn [rsum]. repeat rewrite S_INR. cbn [INR]. lra. Qed.
Lemma angle_3 v : over_angle (fun mu => (1 - mu * v) ^ 3) = 1 + 1599 / 1600 * v ^ 2.
Proof. unfold over_angle, cosine. cbn [rsum]. repeat rewrite S_INR. cbn [INR]. field. Qed.
