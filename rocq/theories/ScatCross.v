(** Proofs about neutrino cross-sections, rejection and the table. *)
From Coq Require Import Reals Bool ZArith List Lia Lra Psatz.
From Verif Require Import RLib XLib IntLib ScatModel ScatSpec.
Open Scope R_scope.

Lemma NUSIGMA0_pos : 0 < NUSIGMA0.
Proof. unfold NUSIGMA0. apply Rdiv_lt_0_compat; [lra|apply pow_lt; lra]. Qed.
Lemma GA2_eq : GA2 = 1.618805816329.
Proof. unfold GA2, GA. lra. Qed.
Lemma delta_range t : -1 <= nu_cross_delta t <= 1.
Proof.
  destruct t; cbn [nu_cross_delta]; try lra.
  - rewrite GA2_eq. unfold S2THW. lra.
  - rewrite GA2_eq. lra.
Qed.
(** the factor is linear in sigma with a coefficient that is not negative *)
Definition coef (t : target) (A Z : R) : R := nu_cross_factor 1 t A Z.
Lemma factor_lin s t A Z : nu_cross_factor s t A Z = s * coef t A Z.
Proof. destruct t; unfold coef, nu_cross_factor, total_cross_ions; cbv zeta; unfold Rdiv; ring. Qed.
Lemma coef_pos t A Z : 0 <= coef t A Z.
Proof.
  pose proof NUSIGMA0_pos as N. unfold coef. destruct t; cbn [nu_cross_factor].
  - apply Rmult_le_pos; [lra|]. rewrite GA2_eq. unfold S4THW, S2THW. lra.
  - rewrite GA2_eq. lra.
  - unfold total_cross_ions. cbv zeta. set (W := 1 - 2 * (Z / A) * _). replace (1 / 16 * NUSIGMA0 * 1 * A * A * (W * 1 + 1) * (W * 1 + 1) * 1) with (1 / 16 * NUSIGMA0 * ((A * (W + 1)) * (A * (W + 1)))) by ring.
    apply Rmult_le_pos; [lra|apply Rle_0_sqr].
  - unfold total_cross_ions. cbv zeta. set (W := 1 - 2 * (2 / 4) * _). replace (1 / 16 * NUSIGMA0 * 1 * 4 * 4 * (W * 1 + 1) * (W * 1 + 1) * 1) with (1 / 16 * NUSIGMA0 * ((4 * (W + 1)) * (4 * (W + 1)))) by ring.
    apply Rmult_le_pos; [lra|apply Rle_0_sqr].
Qed.
Lemma coef_pos_lt t A Z : (t = TA -> 0 < A /\ 0 <= Z <= A) -> 0 < coef t A Z.
Proof.
  pose proof NUSIGMA0_pos as N. intros H. unfold coef. destruct t; cbn [nu_cross_factor].
  - apply Rmult_lt_0_compat; [lra|]. rewrite GA2_eq. unfold S4THW, S2THW. lra.
  - rewrite GA2_eq. lra.
  - destruct (H eq_refl) as (HA & HZ). unfold total_cross_ions. cbv zeta.
    assert (ZA : 0 <= Z / A <= 1). { split; [apply Rmult_le_pos; [lra|left; apply Rinv_0_lt_compat; lra]|]. apply (Rmult_le_reg_r A); auto. unfold Rdiv. rewrite Rmult_assoc, Rinv_l; lra. }
    set (W := 1 - 2 * (Z / A) * _). assert (WP : 0 < W + 1) by (unfold W, S2THW; lra).
    replace (1 / 16 * NUSIGMA0 * 1 * A * A * (W * 1 + 1) * (W * 1 + 1) * 1) with (1 / 16 * NUSIGMA0 * ((A * (W + 1)) * (A * (W + 1)))) by ring.
    apply Rmult_lt_0_compat; [lra|]. apply Rmult_lt_0_compat; apply Rmult_lt_0_compat; auto.
  - unfold total_cross_ions. cbv zeta. set (W := 1 - 2 * (2 / 4) * _). assert (WP : 0 < W + 1) by (unfold W, S2THW; lra).
    replace (1 / 16 * NUSIGMA0 * 1 * 4 * 4 * (W * 1 + 1) * (W * 1 + 1) * 1) with (1 / 16 * NUSIGMA0 * ((4 * (W + 1)) * (4 * (W + 1)))) by ring.
    apply Rmult_lt_0_compat; [lra|]. apply Rmult_lt_0_compat; apply Rmult_lt_0_compat; lra.
Qed.
Lemma quad_range wmax w : 0 <= w -> 0 <= wmax -> 0 <= hc_quad wmax w <= hc_quad_max wmax.
Proof.
  intros W M. unfold hc_quad_max, hc_quad. cbv zeta. destruct (Rleb_spec wmax wmax); [|lra]. destruct (Rleb_spec wmax w); nra.
Qed.
Lemma mu_factor d mu : -1 <= d <= 1 -> -1 <= mu <= 1 -> 0 <= 1 + d * mu <= 1 + Rabs d.
Proof.
  intros D M. assert (A : Rabs (d * mu) <= Rabs d * 1) by (rewrite Rabs_mult; apply Rmult_le_compat_l; [apply Rabs_pos|apply Rabs_le; lra]).
  pose proof (Rle_abs (d * mu)). pose proof (Rle_abs (- (d * mu))) as Q. rewrite Rabs_Ropp in Q. assert (Rabs d <= 1) by (apply Rabs_le; lra). lra.
Qed.
Lemma cross_max_partial wmax w mu t A Z : 0 <= wmax <= 1 -> 0 <= w -> -1 <= mu <= 1 -> 0 <= nu_cross wmax w mu t A Z <= nu_cross_max wmax t A Z.
Proof.
  intros M W U. unfold nu_cross, nu_cross_max. cbv zeta. rewrite !factor_lin. pose proof (quad_range wmax w W (proj1 M)) as Q. pose proof (coef_pos t A Z) as C.
  pose proof (mu_factor _ _ (delta_range t) U) as F. pose proof PI_RGT_0 as P.
  assert (H1 : hc_quad_max wmax <= 1) by (unfold hc_quad_max, hc_quad; cbv zeta; destruct (Rleb_spec wmax wmax); nra).
  set (q := hc_quad wmax w) in *. set (m := hc_quad_max wmax) in *. set (c := coef t A Z) in *.
  assert (I : 0 < / (4 * PI)) by (apply Rinv_0_lt_compat; lra).
  assert (QC : 0 <= q * (q * c) <= m * c).
  { assert (0 <= q * c) by (apply Rmult_le_pos; lra). split; [apply Rmult_le_pos; lra|]. apply Rle_trans with (1 * (q * c)); [apply Rmult_le_compat_r; lra|].
    rewrite Rmult_1_l. apply Rmult_le_compat_r; lra. }
  assert (QI : 0 <= q * (q * c) / (4 * PI) <= m * c / (4 * PI)) by (unfold Rdiv; split; [apply Rmult_le_pos; lra|apply Rmult_le_compat_r; lra]).
  split; [apply Rmult_le_pos; lra|]. apply Rmult_le_compat; lra.
Qed.
(** above one the bound is too small by as much as the square of the largest energy *)
Lemma cross_max_fails wmax t A Z : 1 < wmax -> 0 < coef t A Z -> exists mu, -1 <= mu <= 1 /\ nu_cross_max wmax t A Z < nu_cross wmax wmax mu t A Z.
Proof.
  intros M C. pose proof PI_RGT_0 as P. pose proof (delta_range t) as D. set (d := nu_cross_delta t) in *.
  exists (if Rleb 0 d then 1 else -1). split; [destruct (Rleb 0 d); lra|].
  unfold nu_cross, nu_cross_max. cbv zeta. fold d. rewrite !factor_lin.
  assert (Q : hc_quad wmax wmax = wmax * wmax /\ hc_quad_max wmax = wmax * wmax) by (unfold hc_quad_max, hc_quad; cbv zeta; destruct (Rleb_spec wmax wmax); [auto|lra]).
  destruct Q as (-> & ->). assert (E : 1 + d * (if Rleb 0 d then 1 else -1) = 1 + Rabs d) by (destruct (Rleb_spec 0 d); [rewrite Rabs_right by lra|rewrite Rabs_left by lra]; lra).
  rewrite E. pose proof (Rabs_pos d). apply Rmult_lt_compat_r; [lra|]. unfold Rdiv. apply Rmult_lt_compat_r; [apply Rinv_0_lt_compat; lra|].
  set (c := coef t A Z) in *. assert (1 < wmax * wmax) by nra. assert (0 < wmax * wmax * c) by (apply Rmult_lt_0_compat; lra).
  assert (1 * (wmax * wmax * c) < wmax * wmax * (wmax * wmax * c)) by (apply Rmult_lt_compat_r; lra). lra.
Qed.
(** what rejection does when the bound holds: the acceptance probability is the ratio *)
Lemma accept_iff f xmax r1 r2 : 0 < xmax -> accept f xmax r1 r2 = Some (2 * r1 - 1) <-> r2 < f (2 * r1 - 1) / xmax.
Proof.
  intros X. unfold accept. cbv zeta. assert (E : f (2 * r1 - 1) = f (2 * r1 - 1) / xmax * xmax) by (field; lra).
  destruct (Rleb_spec (f (2 * r1 - 1)) (r2 * xmax)) as [L|L]; split; intros H; try discriminate; auto.
  - exfalso. apply (Rmult_lt_compat_r xmax) in H; [|auto]. lra.
  - apply (Rmult_lt_reg_r xmax); auto. lra.
Qed.
(** neutrons and five times the electron rest energy: every angle is accepted, so that the
    anisotropy is lost *)
Lemma flat_refuted : exists wmax w t, 0 < w <= wmax /\ nu_cross_delta t < 0 /\
  (forall r1 r2 A Z, 0 <= r1 < 1 -> 0 <= r2 < 1 -> accept (fun mu => nu_cross wmax w mu t A Z) (nu_cross_max wmax t A Z) r1 r2 = Some (2 * r1 - 1)) /\
  (forall A Z, nu_cross wmax w 1 t A Z < nu_cross wmax w (-1) t A Z).
Proof.
  exists 5, 5, TN. pose proof PI_RGT_0 as P. split; [lra|]. split; [cbn [nu_cross_delta]; rewrite GA2_eq; lra|].
  assert (D : -0.11 < nu_cross_delta TN < -0.1) by (cbn [nu_cross_delta]; rewrite GA2_eq; lra).
  assert (Q : hc_quad 5 5 = 25 /\ hc_quad_max 5 = 25) by (unfold hc_quad_max, hc_quad; cbv zeta; destruct (Rleb_spec 5 5); lra).
  assert (C : forall A Z, 0 < coef TN A Z) by (intros; apply coef_pos_lt; discriminate). destruct Q as (Q1 & Q2).
  assert (I : 0 < / (4 * PI)) by (apply Rinv_0_lt_compat; lra).
  assert (NC : forall A Z, nu_cross_max 5 TN A Z = coef TN A Z * / (4 * PI) * (25 * (1 - nu_cross_delta TN))).
  { intros. unfold nu_cross_max. cbv zeta. rewrite factor_lin, Q2, Rabs_left by lra. unfold Rdiv. ring. }
  assert (NX : forall mu A Z, nu_cross 5 5 mu TN A Z = coef TN A Z * / (4 * PI) * (625 * (1 + nu_cross_delta TN * mu))).
  { intros. unfold nu_cross. cbv zeta. rewrite factor_lin, Q1. unfold Rdiv. ring. }
  set (d := nu_cross_delta TN) in *. clearbody d. split.
  - intros r1 r2 A Z R1 R2. unfold accept. cbv zeta. rewrite NC, NX. specialize (C A Z). set (c := coef TN A Z * / (4 * PI)). assert (0 < c) by (apply Rmult_lt_0_compat; auto).
    destruct (Rleb_spec (c * (625 * (1 + d * (2 * r1 - 1)))) (r2 * (c * (25 * (1 - d))))) as [L|L]; [|reflexivity]. exfalso.
    assert (E : c * (625 * (1 + d * (2 * r1 - 1))) <= c * (r2 * (25 * (1 - d)))) by lra. apply Rmult_le_reg_l in E; [|auto].
    assert (r2 * (25 * (1 - d)) <= 1 * (25 * (1 - d))) by (apply Rmult_le_compat_r; lra).
    assert (-1 <= 2 * r1 - 1 <= 1) by lra. assert (d * (2 * r1 - 1) >= -0.2) by nra. lra.
  - intros A Z. rewrite !NX. specialize (C A Z). apply Rmult_lt_compat_l; [apply Rmult_lt_0_compat; auto|]. lra.
Qed.
(** integrated over the sphere the differential cross-section is the total times the scaled
    energy squared *)
Lemma normalized_range wmax k : 0 < wmax -> 0 <= k -> 0 <= nu_normalized wmax k <= 1.
Proof.
  intros M K. unfold nu_normalized. pose proof (quad_range wmax k K ltac:(lra)) as Q.
  assert (P : 0 < hc_quad_max wmax) by (unfold hc_quad_max, hc_quad; cbv zeta; destruct (Rleb_spec wmax wmax); nra).
  split; [apply Rmult_le_pos; [lra|left; apply Rinv_0_lt_compat; lra]|]. apply (Rmult_le_reg_r (hc_quad_max wmax)); auto. unfold Rdiv. rewrite Rmult_assoc, Rinv_l; lra.
Qed.
Lemma odd_pow mu i : -1 <= mu <= 1 -> -1 <= mu ^ (2 * i + 1) <= 1.
Proof.
  intros M. assert (A : Rabs (mu ^ (2 * i + 1)) <= 1).
  { rewrite <- RPow_abs. rewrite <- (pow1 (2 * i + 1)). apply pow_incr. split; [apply Rabs_pos|apply Rabs_le; lra]. }
  pose proof (Rle_abs (mu ^ (2 * i + 1))). pose proof (Rle_abs (- mu ^ (2 * i + 1))) as Q. rewrite Rabs_Ropp in Q. lra.
Qed.
Lemma ms_max c d mu i : 0 <= c -> -1 <= mu <= 1 -> ms_flat c d mu i <= ms_flat_max c d i.
Proof.
  intros C M. pose proof (odd_pow mu i M) as O. unfold ms_flat_max, ms_flat. rewrite !Rmult_1_l.
  assert (P : 0 <= (2 * 2 * INR i + 1) * c) by (apply Rmult_le_pos; [pose proof (pos_INR i); lra|auto]). set (e := (2 * 2 * INR i + 1) * c) in *. clearbody e.
  set (m := mu ^ (2 * i + 1)) in *. clearbody m.
  destruct (Rltb_spec 0 d); [rewrite pow1; apply Rmult_le_compat_l; [auto|nra]|]. destruct (Rltb_spec d 0).
  - assert ((-1) ^ (2 * i + 1) = -1) as -> by (rewrite pow_add, pow_mult; replace ((-1) ^ 2) with 1 by ring; rewrite pow1; ring). apply Rmult_le_compat_l; [auto|nra].
  - assert (d = 0) as -> by lra. right. ring.
Qed.
(** ** The table *)
Lemma ln10 : 0 < ln 10.
Proof. rewrite <- ln_1. apply ln_increasing; lra. Qed.
Lemma log10_lt a b : 0 < a < b -> log10 a < log10 b.
Proof. intros H. unfold log10, Rdiv. apply Rmult_lt_compat_r; [apply Rinv_0_lt_compat, ln10|]. apply ln_increasing; lra. Qed.
Lemma log10_div a b : 0 < a -> 0 < b -> log10 (b / a) = log10 b - log10 a.
Proof. intros A B. unfold log10, Rdiv at 2. unfold Rdiv. rewrite ln_mult, ln_Rinv by (auto; apply Rinv_0_lt_compat; auto). field. pose proof ln10. lra. Qed.
Lemma cell lo hi n x : 0 < lo < x -> x < hi -> (0 < n)%Z -> (n <= 2147483647)%Z ->
  let f := (log10 x - log10 lo) / (log10 (hi / lo) / IZR n) in exists i, to_int (Fin f) = Some i /\ (0 <= i < n)%Z /\ 0 <= f - IZR i < 1.
Proof.
  intros L H N M. cbv zeta. rewrite log10_div by lra. pose proof (log10_lt lo x L). pose proof (log10_lt x hi ltac:(lra)). set (a := log10 lo) in *. set (b := log10 x) in *. set (c := log10 hi) in *.
  assert (Q : 0 < IZR n) by (apply (IZR_lt 0); lia). clearbody a b c.
  assert (R : 0 <= (b - a) / ((c - a) / IZR n) < IZR n).
  { replace ((b - a) / ((c - a) / IZR n)) with ((b - a) / (c - a) * IZR n) by (field; lra).
    assert (F : 0 <= (b - a) / (c - a) < 1). { split; [apply Rmult_le_pos; [lra|left; apply Rinv_0_lt_compat; lra]|]. apply (Rmult_lt_reg_r (c - a)); [lra|]. unfold Rdiv. rewrite Rmult_assoc, Rinv_l; lra. }
    split; [apply Rmult_le_pos; lra|]. rewrite <- (Rmult_1_l (IZR n)) at 2. apply Rmult_lt_compat_r; lra. }
  destruct (to_int_range _ n ltac:(lia) R) as (i & E & I & F). exists i. split; [auto|]. split; [auto|]. lra.
Qed.
Lemma convex a b t : 0 <= t <= 1 -> Rmin a b <= (1 - t) * a + t * b <= Rmax a b.
Proof.
  intros T. unfold Rmin, Rmax. destruct (Rle_dec a b).
  - split; [assert (t * a <= t * b) by (apply Rmult_le_compat_l; lra)|assert ((1 - t) * a <= (1 - t) * b) by (apply Rmult_le_compat_l; lra)]; lra.
  - split; [assert ((1 - t) * b <= (1 - t) * a) by (apply Rmult_le_compat_l; lra)|assert (t * b <= t * a) by (apply Rmult_le_compat_l; lra)]; lra.
Qed.
Lemma min_mono a b c d : a <= c -> b <= d -> Rmin a b <= Rmin c d.
Proof. intros. apply Rmin_glb; [eapply Rle_trans; [apply Rmin_l|auto]|eapply Rle_trans; [apply Rmin_r|auto]]. Qed.
Lemma max_mono a b c d : a <= c -> b <= d -> Rmax a b <= Rmax c d.
Proof. intros. apply Rmax_lub; [eapply Rle_trans; [eassumption|apply Rmax_l]|eapply Rle_trans; [eassumption|apply Rmax_r]]. Qed.
Lemma bilinear a b c d x y : 0 <= x <= 1 -> 0 <= y <= 1 -> hull4 a b c d ((1 - x) * (1 - y) * a + x * (1 - y) * b + (1 - x) * y * c + x * y * d).
Proof.
  intros X Y. replace ((1 - x) * (1 - y) * a + x * (1 - y) * b + (1 - x) * y * c + x * y * d) with ((1 - y) * ((1 - x) * a + x * b) + y * ((1 - x) * c + x * d)) by ring.
  pose proof (convex a b x X) as A. pose proof (convex c d x X) as B. pose proof (convex ((1 - x) * a + x * b) ((1 - x) * c + x * d) y Y) as C. unfold hull4.
  split; [eapply Rle_trans; [apply min_mono; [apply A|apply B]|apply C]|eapply Rle_trans; [apply C|apply max_mono; [apply A|apply B]]].
Qed.
Definition full (table : Z -> Z -> option R) : Prop := forall i j, (0 <= i <= NW)%Z -> (0 <= j <= NT)%Z -> exists v, table i j = Some v.
Lemma lookup_ok MINW MAXW MINT MAXT table w th : full table -> 0 < MINW < w -> w < MAXW -> 0 < MINT < th -> th < MAXT ->
  exists i j a b c d e, (0 <= i < NW)%Z /\ (0 <= j < NT)%Z /\ table i j = Some a /\ table (i + 1)%Z j = Some b /\ table i (j + 1)%Z = Some c /\ table (i + 1)%Z (j + 1)%Z = Some d /\
    lookup MINW MAXW MINT MAXT table w th = Looked e /\ hull4 a b c d e /\
    IZR i <= (log10 w - log10 MINW) / (log10 (MAXW / MINW) / IZR NW) < IZR i + 1 /\ IZR j <= (log10 th - log10 MINT) / (log10 (MAXT / MINT) / IZR NT) < IZR j + 1.
Proof.
  intros F W1 W2 T1 T2. destruct (cell MINW MAXW NW w W1 W2 ltac:(unfold NW; lia) ltac:(unfold NW; lia)) as (i & E1 & I & D1).
  destruct (cell MINT MAXT NT th T1 T2 ltac:(unfold NT; lia) ltac:(unfold NT; lia)) as (j & E2 & J & D2).
  destruct (F i j) as (a & A); [lia|lia|]. destruct (F (i + 1)%Z j) as (b & B); [lia|lia|]. destruct (F i (j + 1)%Z) as (c & C); [lia|lia|]. destruct (F (i + 1)%Z (j + 1)%Z) as (d & D); [lia|lia|].
  unfold lookup, dlw, dlT. rewrite !Rltb_true by lra. cbn [andb]. cbv zeta in *. 
  set (fi := (log10 w - log10 MINW) / (log10 (MAXW / MINW) / IZR NW)) in *. set (fj := (log10 th - log10 MINT) / (log10 (MAXT / MINT) / IZR NT)) in *. clearbody fi fj.
  rewrite E1, E2, A, B, C, D. exists i, j, a, b, c, d. eexists. split; [auto|]. split; [auto|]. do 4 (split; [auto|]). split; [reflexivity|]. split; [|lra].
  apply bilinear; lra.
Qed.
Lemma truncate_in lo hi x : 0 < lo -> lo * (1 + 1 / 100) < hi -> lo < hi * (1 - 1 / 100) -> lo < truncate lo hi x < hi.
Proof.
  intros L H1 H2. unfold truncate. rewrite (Rabs_right (1 / 100 * lo)), (Rabs_right (1 / 100 * hi)) by lra.
  destruct (Rleb_spec x lo).
  - destruct (Rleb_spec hi (lo + 1 / 100 * lo)); lra.
  - destruct (Rleb_spec hi x); lra.
Qed.
Lemma truncate_id lo hi x : lo < x < hi -> truncate lo hi x = x.
Proof. intros H. unfold truncate. destruct (Rleb_spec x lo); [lra|]. destruct (Rleb_spec hi x); [lra|reflexivity]. Qed.
(** tables linear in each index are interpolated exactly *)
Lemma lookup_exact MINW MAXW MINT MAXT p q r s w th : 0 < MINW < w -> w < MAXW -> 0 < MINT < th -> th < MAXT ->
  let f x y := p + q * x + r * y + s * (x * y) in
  lookup MINW MAXW MINT MAXT (fun i j => if ((0 <=? i) && (i <=? NW) && (0 <=? j) && (j <=? NT))%Z then Some (f (IZR i) (IZR j)) else None) w th =
  Looked (f (IZR NW * (log10 w - log10 MINW) / (log10 MAXW - log10 MINW)) (IZR NT * (log10 th - log10 MINT) / (log10 MAXT - log10 MINT))).
Proof.
  intros W1 W2 T1 T2 f. destruct (cell MINW MAXW NW w W1 W2 ltac:(unfold NW; lia) ltac:(unfold NW; lia)) as (i & E1 & I & D1).
  destruct (cell MINT MAXT NT th T1 T2 ltac:(unfold NT; lia) ltac:(unfold NT; lia)) as (j & E2 & J & D2).
  assert (FI : IZR NW * (log10 w - log10 MINW) / (log10 MAXW - log10 MINW) = (log10 w - log10 MINW) / (log10 (MAXW / MINW) / IZR NW)).
  { rewrite log10_div by lra. pose proof (log10_lt MINW MAXW ltac:(lra)). field. split; [apply not_0_IZR; unfold NW; lia|lra]. }
  assert (FJ : IZR NT * (log10 th - log10 MINT) / (log10 MAXT - log10 MINT) = (log10 th - log10 MINT) / (log10 (MAXT / MINT) / IZR NT)).
  { rewrite log10_div by lra. pose proof (log10_lt MINT MAXT ltac:(lra)). field. split; [apply not_0_IZR; unfold NT; lia|lra]. }
  rewrite FI, FJ. unfold lookup, dlw, dlT. rewrite !Rltb_true by lra. cbn [andb]. cbv zeta in *.
  set (fi := (log10 w - log10 MINW) / (log10 (MAXW / MINW) / IZR NW)) in *. set (fj := (log10 th - log10 MINT) / (log10 (MAXT / MINT) / IZR NT)) in *. clearbody fi fj.
  rewrite E1, E2.
  assert (B : forall a b, (0 <= a <= NW)%Z -> (0 <= b <= NT)%Z -> ((0 <=? a) && (a <=? NW) && (0 <=? b) && (b <=? NT))%Z = true).
  { intros a b A1 B1. rewrite !andb_true_iff, !Z.leb_le. lia. }
  rewrite !B by lia. f_equal. unfold f. rewrite !plus_IZR. ring.
Qed.
(** the clamp of the sampled angle, and the Lorentz factor *)
Lemma clamp_ok mu : -1 <= clamp_mu mu <= 1 /\ (-1 <= mu <= 1 -> clamp_mu mu = mu) /\ forall x, -1 <= x <= 1 -> Rabs (clamp_mu mu - mu) <= Rabs (x - mu).
Proof.
  unfold clamp_mu. destruct (Rltb_spec 1 mu); [|destruct (Rltb_spec mu (-1))]; (split; [lra|]); (split; [lra|]); intros x X.
  - rewrite !Rabs_left1; lra.
  - rewrite !Rabs_right; lra.
  - replace (mu - mu) with 0 by ring. rewrite Rabs_R0. apply Rabs_pos.
Qed.
Lemma gamma_ok y th : 0 <= th -> 1 <= sample_gamma y th /\ (0 < th -> y ^ 2 = (sample_gamma y th - 1) / th).
Proof.
  intros T. unfold sample_gamma. pose proof (Rle_0_sqr y) as Y. unfold Rsqr in Y. pose proof (Rmult_le_pos _ _ Y T). split; [lra|]. intros P. field. lra.
Qed.
(** neutral-current scattering off nucleons *)
Lemma nucleons sigma A Z :
  nu_cross_factor sigma TP A Z = NUSIGMA0 / 4 * sigma * strength GA2 (proton_cv S2THW) proton_ca /\ asymmetry GA2 (proton_cv S2THW) proton_ca (nu_cross_delta TP) /\
  nu_cross_factor sigma TN A Z = NUSIGMA0 / 4 * sigma * strength GA2 neutron_cv neutron_ca /\ asymmetry GA2 neutron_cv neutron_ca (nu_cross_delta TN).
Proof.
  unfold asymmetry, strength, proton_cv, proton_ca, neutron_cv, neutron_ca, nu_cross_delta, nu_cross_factor, S4THW.
  assert (G : 0 < GA2) by (unfold GA2, GA; lra). set (s := S2THW) in *. clearbody s. set (g := GA2) in *. clearbody g.
  replace 0.25 with (1 / 4) by lra. replace 0.5 with (1 / 2) by lra.
  assert (D : (1 / 2 + 2 * s - 1) * (1 / 2 + 2 * s - 1) + 3 * g * (1 / 2 - 1) * (1 / 2 - 1) <> 0).
  { pose proof (Rle_0_sqr (1 / 2 + 2 * s - 1)) as Q. unfold Rsqr in Q. nra. }
  split; [field|]. split; [|split; field; lra].
  match goal with |- ?n / ?d * ?e = ?f => replace e with d by field; replace f with n by field end. unfold Rdiv at 1. rewrite Rmult_assoc, Rinv_l by exact D. ring.
Qed.
(** ions: the charges add coherently, and a half for every nucleon is added to the sum *)
Lemma ions sigma A Z : A <> 0 ->
  let charge := (A - Z) * neutron_cv + Z * proton_cv S2THW in
  nu_cross_factor sigma TA A Z = NUSIGMA0 / 4 * sigma * (A / 2 - charge) ^ 2 /\
  nu_cross_factor sigma TALPHA A Z = nu_cross_factor sigma TA 4 2.
Proof.
  intros HA charge. split; [|reflexivity]. unfold charge, nu_cross_factor, total_cross_ions, neutron_cv, proton_cv. set (s := S2THW). set (n := NUSIGMA0). field. exact HA.
Qed.
