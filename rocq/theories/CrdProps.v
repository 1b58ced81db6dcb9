(** Property theorems on code coordinates, their Jacobians and the radii of the grid. *)
From Coq Require Import Reals Bool List Arith Lia Lra.
From Coquelicot Require Import Coquelicot.
From Verif Require Import RLib FluxModel GeomModel GeomSpec CrdModel CrdSpec CrdProofs CrdPoles CrdInv CrdRadii CrdSph.
Open Scope R_scope.

(** C94. The matrix of jac_harm_to_bl holds the partial derivatives of the Boyer-Lindquist
    coordinates, and that of jac_harm_to_cart those of the Cartesian ones off the axis. *)
Theorem C94_jacobian : forall hslope xt alpha smooth start derefine, 0 < xt -> forall X i j, (i < 4)%nat -> (j < 4)%nat ->
  partial (fun X => bl4 hslope xt alpha smooth start derefine X i) X j (h2bl_con hslope xt alpha smooth start derefine X i j).
Proof. exact bl_jac. Qed.
Print Assumptions C94_jacobian.
Theorem C94_cartesian : forall hslope xt alpha smooth start derefine, 0 < xt -> forall X i j, (i < 4)%nat -> (j < 4)%nat ->
  off (th_of_X hslope xt alpha smooth start derefine X) ->
  partial (fun X => cart_coord hslope xt alpha smooth start derefine X i) X j (h2c_con hslope xt alpha smooth start derefine X i j).
Proof. exact cart_jac. Qed.
Print Assumptions C94_cartesian.
(** The covariant matrices invert them up to the 1e-20 in the denominators. *)
Theorem C94_inverse : forall hslope xt alpha smooth start derefine X, 0 < dthdX2 hslope xt alpha smooth start derefine X ->
  let r := r_of_X X in let d1 := dthdX1 hslope xt alpha smooth start derefine X in let d2 := dthdX2 hslope xt alpha smooth start derefine X in
  nearly_inverse (SMALL * (1 / r + 1 / d2 + Rabs d1 * (1 + r) / (r * d2 * d2)))
    (h2bl_cov hslope xt alpha smooth start derefine X) (h2bl_con hslope xt alpha smooth start derefine X).
Proof. exact bl_inv. Qed.
Print Assumptions C94_inverse.
Theorem C94_inverse_spherical : forall hslope xt alpha smooth start derefine X, 0 < sin (bl_th hslope xt alpha smooth start derefine X) ->
  let r := r_of_X X in let t := bl_th hslope xt alpha smooth start derefine X in
  nearly_inverse (SMALL * (1 / r + 1 / (r * sin t)))
    (bl2c_cov hslope xt alpha smooth start derefine X) (bl2c_con hslope xt alpha smooth start derefine X).
Proof. exact cart_inv. Qed.
Print Assumptions C94_inverse_spherical.
Theorem C94_inverse_cartesian : forall hslope xt alpha smooth start derefine X, 0 < dthdX2 hslope xt alpha smooth start derefine X ->
  0 < sin (bl_th hslope xt alpha smooth start derefine X) ->
  let r := r_of_X X in let d1 := dthdX1 hslope xt alpha smooth start derefine X in let d2 := dthdX2 hslope xt alpha smooth start derefine X in
  let t := bl_th hslope xt alpha smooth start derefine X in
  nearly_inverse (SMALL * (2 / r + 1 / d2 + Rabs d1 * (1 + r) / (r * d2 * d2) + Rabs d1 / (r * d2) + 1 / (r * sin t)))
    (h2c_cov hslope xt alpha smooth start derefine X) (h2c_con hslope xt alpha smooth start derefine X).
Proof. exact all_inv. Qed.
Print Assumptions C94_inverse_cartesian.
Example C94_nonvacuous : 0 < dthdX2 1 1 2 0 0 false (fun i => if Nat.eqb i 2 then 1 / 2 else 1) /\
  off (th_of_X 1 1 2 0 0 false (fun i => if Nat.eqb i 2 then 1 / 2 else 1)).
Proof.
  pose proof PI2_3_2 as P. unfold dthdX2, dthGdX2, th_of_X, thG_of_X, off. cbn [Nat.eqb].
  replace ((1 - 1) / 2 * sin (2 * PI * (1 / 2))) with 0 by (unfold Rdiv; ring). replace (PI * (1 - 1) * cos (2 * PI * (1 / 2))) with 0 by ring.
  assert (S : / 10 ^ 20 < 1) by (apply Rmult_lt_reg_l with (10 ^ 20); [lra|]; rewrite Rinv_r by lra; lra).
  rewrite !Rabs_right by lra. repeat split; lra.
Qed.

(** C95. For an even exponent the angle runs from 0 to pi between X2 = 0 and 1, mirror symmetric,
    and increases outside the inner edge of the grid; there the metric that set_gcov computes is a
    space-time metric, on the axis too. *)
Theorem C95_poles : forall hslope xt alpha smooth start derefine, 0 < xt -> Nat.Even alpha -> forall X,
  (X 2%nat = 0 -> th_of_X hslope xt alpha smooth start derefine X = 0) /\ (X 2%nat = 1 -> th_of_X hslope xt alpha smooth start derefine X = PI) /\
  (forall Y, Y 1%nat = X 1%nat -> Y 2%nat = 1 - X 2%nat -> th_of_X hslope xt alpha smooth start derefine Y = PI - th_of_X hslope xt alpha smooth start derefine X).
Proof. exact (fun h x n m s d P E X => conj (th_north h x n m s d P E X) (conj (th_south h x n m s d P X) (th_sym h x n m s d P E X))). Qed.
Print Assumptions C95_poles.
Theorem C95_increasing : forall hslope xt alpha smooth start derefine, 0 < xt -> Nat.Even alpha -> 0 < hslope < 2 -> 0 <= smooth -> forall X Y,
  (derefine = true -> start <= X 1%nat) -> Y 1%nat = X 1%nat -> X 2%nat < Y 2%nat ->
  th_of_X hslope xt alpha smooth start derefine X < th_of_X hslope xt alpha smooth start derefine Y.
Proof. exact th_inc. Qed.
Print Assumptions C95_increasing.
Theorem C95_range : forall hslope xt alpha smooth start derefine, 0 < xt -> Nat.Even alpha -> 0 < hslope < 2 -> 0 <= smooth -> forall X,
  (derefine = true -> start <= X 1%nat) -> (0 < X 2%nat < 1 <-> 0 < th_of_X hslope xt alpha smooth start derefine X < PI).
Proof. exact th_range. Qed.
Print Assumptions C95_range.
Theorem C95_metric : forall hslope xt alpha smooth start derefine, 0 < xt -> Nat.Even alpha -> 0 < hslope < 2 -> 0 <= smooth -> forall a X,
  0 <= X 2%nat <= 1 -> (derefine = true -> start <= X 1%nat) -> exists al beta, spacetime (set_gcov hslope xt alpha smooth start derefine a X) al beta.
Proof. exact code_metric. Qed.
Print Assumptions C95_metric.
(** With an odd exponent the pole is missed; inside the inner edge, where the ghost zones are, the
    angle can decrease. *)
Theorem C95_odd_refuted : exists n X, X 2%nat = 0 /\ th_of_X 1 1 n (1 / 2) 0 true X = PI / 3.
Proof. exact odd_pole. Qed.
Print Assumptions C95_odd_refuted.
Theorem C95_ghost_refuted : exists X, X 1%nat < 0 /\ 0 < X 2%nat < 1 /\ dthdX2 1 (1 / 3) 2 (1 / 2) 0 true X < 0.
Proof. exact fold_back. Qed.
Print Assumptions C95_ghost_refuted.
Example C95_nonvacuous : 0 < 82 / 100 /\ Nat.Even 14 /\ 0 < 3 / 10 < 2 /\ 0 <= 1 / 2.
Proof. split; [lra|]. split; [exists 7%nat; reflexivity|lra]. Qed.

(** C96. Radii: the horizon is the outer root of r^2 - 2 r + a^2; Risco is the only radius outside it
    where the energy of circular orbits turning with the hole is stationary; with at least 6 zones
    the horizon is at 5.5 zones from the inner edge and the grid ends at Rout. *)
Theorem C96_horizon : forall a, -1 < a < 1 -> Reh a * Reh a - 2 * Reh a + a * a = 0 /\ forall r, Reh a < r -> 0 < r * r - 2 * r + a * a.
Proof. exact horizon. Qed.
Print Assumptions C96_horizon.
Theorem C96_isco : forall a, -1 < a < 1 -> orbit (Rabs a) (sqrt (Risco a)) /\
  forall x, orbit (Rabs a) x -> (is_derive (energy2 (Rabs a)) x 0 <-> x * x = Risco a).
Proof. exact isco_ok. Qed.
Print Assumptions C96_isco.
(** For negative spin it is not the one of orbits turning against the hole. *)
Theorem C96_retrograde : forall a x, -1 < a < 0 -> orbit a x -> x * x = Risco a -> ~ is_derive (energy2 a) x 0.
Proof. exact retro. Qed.
Print Assumptions C96_retrograde.
Theorem C96_edge : forall a Rout N, -1 < a < 1 -> Reh a < Rout -> (6 <= N)%nat ->
  0 < dx_1 a Rout N /\ startx_1 a Rout N + 11 / 2 * dx_1 a Rout N = ln (Reh a) /\ stopx_1 a Rout N = ln Rout.
Proof. exact edge. Qed.
Print Assumptions C96_edge.
(** With fewer zones the zone width is negative. *)
Theorem C96_edge_refuted : exists a Rout N, -1 < a < 1 /\ Reh a < Rout /\ (0 < N)%nat /\ dx_1 a Rout N < 0.
Proof. exact edge_small. Qed.
Print Assumptions C96_edge_refuted.
Example C96_nonvacuous : Reh 0 < 40 /\ orbit 0 (sqrt 6) /\ sqrt 6 * sqrt 6 = Risco 0.
Proof.
  assert (R : Risco 0 = 6).
  { unfold Risco, z2, z1, cbrt. replace (1 - 0 * 0) with 1 by ring. replace (1 + 0) with 1 by ring. replace (1 - 0) with 1 by ring. rewrite Rltb_true by lra.
    assert (E : Rpower 1 (1 / 3) = 1) by (unfold Rpower; rewrite ln_1, Rmult_0_r; apply exp_0). rewrite E. replace (1 + 1 * (1 + 1)) with 3 by ring. replace (3 * 0 * 0 + 3 * 3) with (3 * 3) by ring. rewrite sqrt_square by lra. replace ((3 - 3) * (3 + 3 + 2 * 3)) with 0 by ring. rewrite sqrt_0. ring. }
  split; [unfold Reh; replace (1 - 0 * 0) with 1 by ring; rewrite sqrt_1; lra|]. split; [|rewrite R; apply sqrt_sqrt; lra].
  pose proof (proj1 (isco_ok 0 ltac:(lra))) as O. rewrite R, Rabs_R0 in O. exact O.
Qed.

(** C97. cart_to_sph undoes the spherical coordinates, the azimuth in [0, 2 pi). *)
Theorem C97_spherical : forall r t p, 0 < r -> 0 < t < PI -> 0 <= p < 2 * PI ->
  cart_to_sph (r * sin t * cos p) (r * sin t * sin p) (r * cos t) = Some (r, t, p).
Proof. exact sph_back. Qed.
Print Assumptions C97_spherical.
Example C97_nonvacuous : cart_to_sph (0) (- 2) (0) = Some (2, PI / 2, 3 * (PI / 2)).
Proof.
  pose proof PI_RGT_0. pose proof (sph_back 2 (PI / 2) (3 * (PI / 2)) ltac:(lra) ltac:(lra) ltac:(lra)) as E.
  rewrite sin_PI2, cos_PI2, cos_3PI2, sin_3PI2 in E. replace (2 * 1 * 0) with 0 in E by ring. replace (2 * 1 * -1) with (-2) in E by ring. replace (2 * 0) with 0 in E by ring. exact E.
Qed.
