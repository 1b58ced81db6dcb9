(** Property theorems C36-C38 (reconstruction). *)
From Coq Require Import Reals Bool Lra.
From Verif Require Import RLib ReconModel ReconSpec ReconProofs.
Open Scope R_scope.

(** C36.  The limited linear scheme as called by the dispatcher. *)
Theorem C36_linear : forall x1 x2 x3 l r, lr_lin x1 x2 x3 = (l, r) ->
  between x1 x2 l /\ between x2 x3 r /\ l + r = 2 * x2 /\
  ((x2 - x1) * (x3 - x2) <= 0 -> l = x2 /\ r = x2) /\
  (forall a b, x1 = a - b -> x2 = a -> x3 = a + b -> l = a - b / 2 /\ r = a + b / 2) /\
  lr_lin x3 x2 x1 = (r, l).
Proof. exact lr_lin_ok. Qed.
Print Assumptions C36_linear.
(** linear_mc computes the same pair. *)
Theorem C36_linear_mc : forall x1 x2 x3, linear_mc x1 x2 x3 = lr_lin x1 x2 x3.
Proof. exact linear_mc_lim. Qed.
Print Assumptions C36_linear_mc.
Example C36_nonvacuous : lr_lin 0 1 6 = (0, 2) /\ lr_lin 0 5 4 = (5, 5).
Proof.
  unfold lr_lin, slope_lim. split; rcases; rabs; f_equal; lra.
Qed.

(** C37.  Positive weights adding to one for every data. *)
Theorem C37_convex : forall x1 x2 x3 x4 x5 l r, weno x1 x2 x3 x4 x5 = (l, r) ->
  (exists a b c, 0 < a /\ 0 < b /\ 0 < c /\ a + b + c = 1 /\
     r = a * weno_vr0 x1 x2 x3 x4 x5 + b * weno_vr1 x1 x2 x3 x4 x5 + c * weno_vr2 x1 x2 x3 x4 x5) /\
  (exists a b c, 0 < a /\ 0 < b /\ 0 < c /\ a + b + c = 1 /\
     l = a * weno_vl0 x1 x2 x3 x4 x5 + b * weno_vl1 x1 x2 x3 x4 x5 + c * weno_vl2 x1 x2 x3 x4 x5).
Proof. exact weno_convex. Qed.
Print Assumptions C37_convex.
Theorem C37_between : forall x1 x2 x3 x4 x5 l r, weno x1 x2 x3 x4 x5 = (l, r) ->
  Rmin (weno_vr0 x1 x2 x3 x4 x5) (Rmin (weno_vr1 x1 x2 x3 x4 x5) (weno_vr2 x1 x2 x3 x4 x5)) <= r <=
  Rmax (weno_vr0 x1 x2 x3 x4 x5) (Rmax (weno_vr1 x1 x2 x3 x4 x5) (weno_vr2 x1 x2 x3 x4 x5)) /\
  Rmin (weno_vl0 x1 x2 x3 x4 x5) (Rmin (weno_vl1 x1 x2 x3 x4 x5) (weno_vl2 x1 x2 x3 x4 x5)) <= l <=
  Rmax (weno_vl0 x1 x2 x3 x4 x5) (Rmax (weno_vl1 x1 x2 x3 x4 x5) (weno_vl2 x1 x2 x3 x4 x5)).
Proof. exact weno_between. Qed.
Print Assumptions C37_between.
(** The candidates are the values at the face of the quadratics through the
    three stencils. *)
Theorem C37_candidates : forall a b c,
  let x i := a + b * i + c * i ^ 2 in
  let p := a + b * (1 / 2) + c * (1 / 2) ^ 2 in
  let m := a + b * (- (1 / 2)) + c * (- (1 / 2)) ^ 2 in
  forall y1 y2,
  weno_vr0 (x (-2)) (x (-1)) (x 0) y1 y2 = p /\ weno_vr1 y1 (x (-1)) (x 0) (x 1) y2 = p /\
  weno_vr2 y1 y2 (x 0) (x 1) (x 2) = p /\
  weno_vl0 y1 y2 (x 0) (x 1) (x 2) = m /\ weno_vl1 y1 (x (-1)) (x 0) (x 1) y2 = m /\
  weno_vl2 (x (-2)) (x (-1)) (x 0) y1 y2 = m.
Proof. exact candidates_quadratic. Qed.
Print Assumptions C37_candidates.
(** Exact on every quadratic (constants and lines included). *)
Theorem C37_quadratic : forall a b c, let x i := a + b * i + c * i ^ 2 in
  weno (x (-2)) (x (-1)) (x 0) (x 1) (x 2) = (x (- (1 / 2)), x (1 / 2)).
Proof. exact weno_quadratic. Qed.
Print Assumptions C37_quadratic.
(** The ideal weights: where the three smoothness values agree the scheme is
    the five-point interpolation, exact on quartics. *)
Theorem C37_smooth : forall c0 c1 c2 c3 c4,
  let p := poly c0 c1 c2 c3 c4 in
  weno_beta0 (p (-2)) (p (-1)) (p 0) (p 1) (p 2) = weno_beta1 (p (-2)) (p (-1)) (p 0) (p 1) (p 2) ->
  weno_beta1 (p (-2)) (p (-1)) (p 0) (p 1) (p 2) = weno_beta2 (p (-2)) (p (-1)) (p 0) (p 1) (p 2) ->
  weno (p (-2)) (p (-1)) (p 0) (p 1) (p 2) = (p (- (1 / 2)), p (1 / 2)).
Proof. exact weno_smooth. Qed.
Print Assumptions C37_smooth.
(** A rougher stencil gets a smaller share relative to its ideal weight. *)
Theorem C37_weights_order : forall b0 b1 b2 w0 w1 w2, 0 <= b0 -> 0 <= b1 -> 0 <= b2 ->
  weno_weights b0 b1 b2 = (w0, w1, w2) ->
  (b0 <= b1 -> w1 / (5 / 8) <= w0 / (1 / 16)) /\ (b1 <= b2 -> w2 / (5 / 16) <= w1 / (5 / 8)) /\
  (b1 <= b0 -> w0 / (1 / 16) <= w1 / (5 / 8)) /\ (b2 <= b1 -> w1 / (5 / 8) <= w2 / (5 / 16)).
Proof. exact weights_order. Qed.
Print Assumptions C37_weights_order.
Theorem C37_mirror : forall x1 x2 x3 x4 x5, weno x5 x4 x3 x2 x1 = swap (weno x1 x2 x3 x4 x5).
Proof. exact weno_mirror. Qed.
Print Assumptions C37_mirror.
(** Samples of a true quartic with equal smoothness values. *)
Example C37_nonvacuous :
  let p := poly 0 0 (61 / 48) 0 (- (13 / 48)) in
  p (-2) = 3 / 4 /\ p (-1) = 1 /\ p 0 = 0 /\ p 1 = 1 /\ p 2 = 3 / 4 /\
  weno_beta0 (p (-2)) (p (-1)) (p 0) (p 1) (p 2) = 13 / 3 /\
  weno_beta1 (p (-2)) (p (-1)) (p 0) (p 1) (p 2) = 13 / 3 /\
  weno_beta2 (p (-2)) (p (-1)) (p 0) (p 1) (p 2) = 13 / 3.
Proof. unfold poly, weno_beta0, weno_beta1, weno_beta2. repeat split; field. Qed.

(** C38.  Either the unlimited value is returned or the limiter condition
    holds and the result is the middle one of the unlimited value and the two
    bounds, hence within the bounds; the bounds enclose the zone value. *)
Theorem C38_limited : forall a b c d e lo hi, mp5_bounds a b c d e = (lo, hi) ->
  let f := mp5_high a b c d e in
  mp5_subcalc a b c d e = f \/
  (/ 10 ^ 12 < (f - c) * (f - mp5_fmp b c d) /\
   mp5_subcalc a b c d e = middle f lo hi /\ lo <= mp5_subcalc a b c d e <= hi).
Proof. exact mp5_active. Qed.
Print Assumptions C38_limited.
Theorem C38_bounds : forall a b c d e lo hi, mp5_bounds a b c d e = (lo, hi) -> lo <= c <= hi.
Proof. exact bounds_around. Qed.
Print Assumptions C38_bounds.
(** The bounds do not reach beyond the two zones next to the face where the
    curvature changes sign there, nor beyond four upstream differences where it
    changes sign upstream; in general by half the smaller curvature, and only
    on the side the curvature points to. *)
Theorem C38_neighbours : forall a b c d e lo hi, mp5_bounds a b c d e = (lo, hi) ->
  (b + d - 2 * c) * (c + e - 2 * d) <= 0 -> Rmin c d <= lo /\ hi <= Rmax c d.
Proof. exact bounds_neighbours. Qed.
Print Assumptions C38_neighbours.
Theorem C38_upstream : forall a b c d e lo hi, mp5_bounds a b c d e = (lo, hi) ->
  (b + d - 2 * c) * (a + c - 2 * b) <= 0 ->
  Rmin c (c + 4 * (c - b)) <= lo /\ hi <= Rmax c (c + 4 * (c - b)).
Proof. exact bounds_upstream. Qed.
Print Assumptions C38_upstream.
Theorem C38_relaxed : forall a b c d e lo hi, mp5_bounds a b c d e = (lo, hi) ->
  let k := Rmin (Rabs (b + d - 2 * c)) (Rabs (c + e - 2 * d)) in
  Rmin c d - k / 2 <= lo /\ hi <= Rmax c d + k / 2 /\
  (0 < b + d - 2 * c -> hi <= Rmax c d) /\ (b + d - 2 * c < 0 -> Rmin c d <= lo).
Proof. exact bounds_relaxed. Qed.
Print Assumptions C38_relaxed.
(** The monotonicity limit: the zone value at extrema, else the nearer of the
    next zone and the extrapolation by four upstream differences. *)
Theorem C38_limit : forall b c d,
  ((c - b) * (d - c) <= 0 -> mp5_fmp b c d = c) /\
  (b <= c <= d -> mp5_fmp b c d = Rmin d (c + 4 * (c - b))) /\
  (d <= c <= b -> mp5_fmp b c d = Rmax d (c + 4 * (c - b))).
Proof. exact fmp_mono. Qed.
Print Assumptions C38_limit.
(** Linear data are reproduced. *)
Theorem C38_linear : forall u v, mp5 (u - 2 * v) (u - v) u (u + v) (u + 2 * v) = (u - v / 2, u + v / 2).
Proof. exact mp5_linear. Qed.
Print Assumptions C38_linear.
(** The limiter leaves values between the zone value and its monotonicity
    limit alone. *)
Theorem C38_inactive : forall a b c d e, let f := mp5_high a b c d e in
  between c (mp5_fmp b c d) f -> mp5_subcalc a b c d e = f.
Proof. exact mp5_inactive. Qed.
Print Assumptions C38_inactive.
(** The unlimited value is exact at both faces for zone averages of quartics. *)
Theorem C38_high_order : forall c0 c1 c2 c3 c4, let u := zone_average c0 c1 c2 c3 c4 in
  mp5_high (u (-2)) (u (-1)) (u 0) (u 1) (u 2) = poly c0 c1 c2 c3 c4 (1 / 2) /\
  mp5_high (u 2) (u 1) (u 0) (u (-1)) (u (-2)) = poly c0 c1 c2 c3 c4 (- (1 / 2)).
Proof. exact mp5_high_exact. Qed.
Print Assumptions C38_high_order.
Theorem C38_constant : forall k, mp5 k k k k k = (k, k).
Proof. exact mp5_const. Qed.
Print Assumptions C38_constant.
Theorem C38_mirror : forall x1 x2 x3 x4 x5, mp5 x5 x4 x3 x2 x1 = swap (mp5 x1 x2 x3 x4 x5).
Proof. exact mp5_mirror. Qed.
Print Assumptions C38_mirror.
(** [zone_average] is the integral of [poly] over the zone. *)
Theorem C38_average_is_integral : forall c0 c1 c2 c3 c4 x,
  derivable_pt_lim (primitive_of c0 c1 c2 c3 c4) x (poly c0 c1 c2 c3 c4 x).
Proof. exact primitive_derivative. Qed.
Print Assumptions C38_average_is_integral.
(** An isolated spike at the right: limiter active, result the zone value. *)
Example C38_nonvacuous : mp5_bounds 0 0 0 0 1 = (0, 0) /\ mp5_high 0 0 0 0 1 = - (1 / 20) /\
  mp5_fmp 0 0 0 = 0 /\ mp5_subcalc 0 0 0 0 1 = 0.
Proof.
  assert (H : mp5_bounds 0 0 0 0 1 = (0, 0)).
  { unfold mp5_bounds. rewrite (minmod_zero (4 * (0 + 0 - 2 * 0) - (0 + 1 - 2 * 0)) _) by lra.
    rewrite (minmod_zero (0 + 0 - 2 * 0) (0 + 1 - 2 * 0)) by lra.
    rewrite (minmod_zero (0 + 0 - 2 * 0) (0 + 0 - 2 * 0)) by lra.
    rewrite (minmod_zero (4 * (0 + 0 - 2 * 0) - (0 + 0 - 2 * 0)) _) by lra.
    rewrite (minmod_zero 0 0) by lra. f_equal; minmax; lra. }
  assert (F : mp5_high 0 0 0 0 1 = - (1 / 20)) by (unfold mp5_high; field).
  assert (M : mp5_fmp 0 0 0 = 0) by (unfold mp5_fmp; rewrite minmod_zero; lra).
  split; [trivial|]. split; [trivial|]. split; [trivial|].
  unfold mp5_subcalc. rewrite H, F, M, median_middle.
  destruct (Rleb_spec ((- (1 / 20) - 0) * (- (1 / 20) - 0)) (/ 10 ^ 12)) as [L|L].
  - exfalso. apply Rle_not_lt in L. apply L. apply Rlt_trans with (/ 1000); [apply Rinv_lt_contravar|]; lra.
  - unfold middle. minmax; lra.
Qed.
