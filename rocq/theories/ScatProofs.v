(** Proofs about the scattering kernel. *)
From Coq Require Import Reals Bool ZArith List Lia Lra Psatz.
From Verif Require Import RLib XLib IntLib ScatModel ScatSpec.
Open Scope R_scope.

Lemma SMALL_pos : 0 < SMALL.
Proof. unfold SMALL. apply Rinv_0_lt_compat, pow_lt. lra. Qed.
Lemma pow_incr_inv2 a b : 0 <= b -> a ^ 2 <= b ^ 2 -> a <= b.
Proof. intros B H. apply Rnot_lt_le. intros C. assert (b * b < a * a) by (apply Rmult_le_0_lt_compat; lra). lra. Qed.
Lemma dot_sq a : dot a a = sq3 a.
Proof. destruct a as ((x, y), z). unfold dot, sq3. ring. Qed.
Lemma sq3_pos a : 0 <= sq3 a.
Proof. destruct a as ((x, y), z). unfold sq3. pose proof (pow2_ge_0 x). pose proof (pow2_ge_0 y). pose proof (pow2_ge_0 z). lra. Qed.
Lemma prod_dot a b : prod3 a b = dot a b.
Proof. destruct a as ((x, y), z), b as ((p, q), r). reflexivity. Qed.
Lemma sq3_scale c a : sq3 (scale c a) = c ^ 2 * sq3 a.
Proof. destruct a as ((x, y), z). unfold sq3, scale. ring. Qed.
Lemma unit_sq a u : unit a = Some u -> sq3 u = 1 /\ exists l, 0 < l /\ a = scale l u.
Proof.
  unfold unit. rewrite dot_sq. destruct (Reqb_spec (sqrt (sq3 a)) 0) as [|N]; [discriminate|]. intros E. injection E as <-.
  pose proof (sqrt_pos (sq3 a)) as P. pose proof (sqrt_sqrt _ (sq3_pos a)) as Q. split.
  - rewrite sq3_scale. rewrite <- Q at 2. set (l := sqrt _) in *. field. exact N.
  - exists (sqrt (sq3 a)). split; [lra|]. destruct a as ((x, y), z). unfold scale. set (l := sqrt _) in *. f_equal; [f_equal|]; field; exact N.
Qed.
Lemma dot_scale_l c a b : dot (scale c a) b = c * dot a b.
Proof. destruct a as ((x, y), z), b as ((p, q), r). unfold dot, scale. ring. Qed.
Lemma dot_scale_r c a b : dot a (scale c b) = c * dot a b.
Proof. destruct a as ((x, y), z), b as ((p, q), r). unfold dot, scale. ring. Qed.
Lemma dot_add_l a b c : dot (add a b) c = dot a c + dot b c.
Proof. destruct a as ((x, y), z), b as ((p, q), r), c as ((s, t), u). unfold dot, add. ring. Qed.
Lemma dot_add_r a b c : dot c (add a b) = dot c a + dot c b.
Proof. destruct a as ((x, y), z), b as ((p, q), r), c as ((s, t), u). unfold dot, add. ring. Qed.
Lemma dot_sym a b : dot a b = dot b a.
Proof. destruct a as ((x, y), z), b as ((p, q), r). unfold dot. ring. Qed.
Lemma cross_l a b : dot a (cross a b) = 0.
Proof. destruct a as ((x, y), z), b as ((p, q), r). unfold dot, cross. ring. Qed.
Lemma cross_r a b : dot b (cross a b) = 0.
Proof. destruct a as ((x, y), z), b as ((p, q), r). unfold dot, cross. ring. Qed.
Lemma cross_sq a b : dot (cross a b) (cross a b) = dot a a * dot b b - dot a b * dot a b.
Proof. destruct a as ((x, y), z), b as ((p, q), r). unfold dot, cross. ring. Qed.
(** the frame is orthonormal and its first vector is along k *)
Lemma frame_orth k n0 v0 v1 v2 : frame k n0 = Some (v0, v1, v2) ->
  dot v0 v0 = 1 /\ dot v1 v1 = 1 /\ dot v2 v2 = 1 /\ dot v0 v1 = 0 /\ dot v0 v2 = 0 /\ dot v1 v2 = 0 /\ exists l, 0 < l /\ k = scale l v0.
Proof.
  unfold frame. destruct (unit k) as [u|] eqn:E; [|discriminate]. destruct (unit (add n0 _)) as [w|] eqn:F; [|discriminate].
  intros G. injection G as <- <- <-. apply unit_sq in E. destruct E as (E1 & E2). apply unit_sq in F. destruct F as (F1 & l & L & F2).
  rewrite <- dot_sq in E1, F1.
  assert (O : dot u w = 0).
  { assert (Q : dot u (add n0 (scale (- dot u n0) u)) = l * dot u w) by (rewrite F2; apply dot_scale_r).
    rewrite dot_add_r, dot_scale_r, E1 in Q. assert (Z : l * dot u w = 0) by lra. apply Rmult_integral in Z. destruct Z; [lra|auto]. }
  split; [auto|]. split; [auto|]. split; [rewrite cross_sq, E1, F1, O; lra|]. split; [auto|]. split; [apply cross_l|]. split; [apply cross_r|auto].
Qed.
Lemma direction_unit k n0 fr c s phi : frame k n0 = Some fr -> c ^ 2 + s ^ 2 = 1 ->
  dot (direction fr c s phi) (direction fr c s phi) = 1 /\ exists l, 0 < l /\ dot (direction fr c s phi) k = l * c /\ dot k k = l * l.
Proof.
  destruct fr as ((v0, v1), v2). intros F C. apply frame_orth in F. destruct F as (A & B & D & E & F & G & l & L & ->).
  pose proof (sin2_cos2 phi) as T. unfold Rsqr in T. split.
  - unfold direction. rewrite !dot_add_l, !dot_add_r, !dot_scale_l, !dot_scale_r, !dot_add_l, !dot_add_r, !dot_scale_l, !dot_scale_r.
    rewrite (dot_sym v1 v0), (dot_sym v2 v0), (dot_sym v2 v1), A, B, D, E, F, G.
    transitivity (c ^ 2 + s ^ 2 * (sin phi * sin phi + cos phi * cos phi)); [ring|]. rewrite T. lra.
  - exists l. split; [auto|]. split.
    + unfold direction. rewrite !dot_add_l, !dot_scale_l, !dot_scale_r, !dot_add_l, !dot_scale_l. rewrite (dot_sym v1 v0), (dot_sym v2 v0), A, E, F. ring.
    + rewrite dot_scale_l, dot_scale_r, A. ring.
Qed.
Lemma sth_ok c : -1 <= c <= 1 -> c ^ 2 + sqrt (1 - c * c) ^ 2 = 1 /\ c ^ 2 + sqrt (Rabs (1 - c * c)) ^ 2 = 1.
Proof.
  intros C. assert (P : 0 <= 1 - c * c) by nra. rewrite (Rabs_right (1 - c * c)) by lra. simpl (_ ^ 2). rewrite !Rmult_1_r, !sqrt_sqrt by auto. lra.
Qed.
(** ** Boosts *)
(** length of the space part of a four-velocity with time component g *)
Definition bnorm (g : R) : R := sqrt (g * g - 1).
Lemma bnorm_eq g : 1 <= g -> g * sqrt (Rabs (1 - 1 / (g * g))) = bnorm g.
Proof.
  intros G. assert (P : 0 < g * g) by nra. assert (Q : 0 <= 1 - 1 / (g * g)).
  { assert (1 / (g * g) <= 1); [|lra]. apply (Rmult_le_reg_r (g * g)); auto. unfold Rdiv. rewrite Rmult_assoc, Rinv_l; nra. }
  rewrite Rabs_right by lra. unfold bnorm. transitivity (sqrt (g * g) * sqrt (1 - 1 / (g * g))); [rewrite sqrt_square by lra; reflexivity|].
  rewrite <- sqrt_mult by lra. f_equal. field. nra.
Qed.
Lemma bnorm_sq g : 1 <= g -> bnorm g * bnorm g = g * g - 1 /\ 0 <= bnorm g /\ bnorm g < g.
Proof.
  intros G. unfold bnorm. split; [apply sqrt_sqrt; nra|]. split; [apply sqrt_pos|].
  apply Rsqr_incrst_0; [rewrite Rsqr_sqrt by nra; unfold Rsqr; lra|apply sqrt_pos|lra].
Qed.
Lemma boost_eq v u : 1 <= fst u ->
  boost v u = (energy v u, add (add (scale (- fst v) (snd u)) (snd v)) (scale ((fst u - 1) / (bnorm (fst u) + SMALL) ^ 2 * dot (snd u) (snd v)) (snd u))).
Proof.
  intros G. pose proof (bnorm_sq _ G) as (_ & B & _). pose proof SMALL_pos as S.
  destruct v as (v0, ((v1, v2), v3)), u as (u0, ((u1, u2), u3)). cbn [fst snd] in *. unfold boost. rewrite bnorm_eq by auto.
  unfold energy, prod3, add, scale, dot. cbn [fst snd]. set (b := bnorm u0 + SMALL). assert (N : b <> 0) by (unfold b; lra). clearbody b.
  f_equal; [ring|]. f_equal; [f_equal|]; field; auto.
Qed.
Lemma cauchy a b : dot a b * dot a b <= dot a a * dot b b.
Proof. pose proof (cross_sq a b) as Q. pose proof (sq3_pos (cross a b)) as P. rewrite <- dot_sq in P. lra. Qed.
(** change of the square under a boost, exactly *)
Lemma boost_mink v u : 1 <= fst u ->
  let g := fst u in let B2 := dot (snd u) (snd u) in let q := (g - 1) / (bnorm g + SMALL) ^ 2 in let d := dot (snd u) (snd v) in
  mink (boost v u) - mink v = fst v ^ 2 * (1 - g ^ 2 + B2) + 2 * fst v * d * (g - 1 - q * B2) + d ^ 2 * (q ^ 2 * B2 + 2 * q - 1).
Proof.
  intros G. cbv zeta. rewrite boost_eq by auto. set (q := (fst u - 1) / (bnorm (fst u) + SMALL) ^ 2). clearbody q.
  destruct v as (v0, ((v1, v2), v3)), u as (u0, ((u1, u2), u3)). unfold mink, energy, prod3, sq3, add, scale, dot. cbn [fst snd]. ring.
Qed.
(** sizes *)
Lemma excess g B2 : 1 <= g -> g * SMALL <= 1 -> (exists e, 0 <= e <= g * SMALL /\ B2 = (bnorm g + e) ^ 2) ->
  let q := (g - 1) / (bnorm g + SMALL) ^ 2 in
  0 <= 1 - g ^ 2 + B2 <= 3 * g ^ 2 * SMALL /\ 0 <= B2 <= 4 * g ^ 2 /\
  Rabs (g - 1 - q * B2) <= 2 * g ^ 2 * SMALL /\ Rabs (q ^ 2 * B2 + 2 * q - 1) * B2 <= 11 * g ^ 3 * SMALL.
Proof.
  intros G GS (e & (E0 & E1) & EB). cbv zeta. destruct (bnorm_sq g G) as (BB & B0 & BG). pose proof SMALL_pos as S0.
  set (b := bnorm g) in *. set (S := SMALL) in *. clearbody b S.
  assert (D0 : 0 < b + S) by lra. set (q := (g - 1) / (b + S) ^ 2).
  assert (Gb : g - 1 <= b) by (apply Rnot_lt_le; intros C; assert (b * b < (g - 1) * (g - 1)) by (apply Rmult_le_0_lt_compat; lra); lra).
  set (s := (b + e) / (b + S)). assert (SE : b + e = s * (b + S)) by (unfold s; field; lra).
  assert (s0 : 0 <= s) by (unfold s; apply Rmult_le_pos; [lra|left; apply Rinv_0_lt_compat; lra]).
  assert (sg : s <= g).
  { apply (Rmult_le_reg_r (b + S)); [auto|]. rewrite <- SE. assert (1 * b <= g * b) by (apply Rmult_le_compat_r; lra). lra. }
  assert (QB : q * B2 = (g - 1) * s ^ 2) by (rewrite EB, SE; unfold q; field; lra).
  assert (W : Rabs ((g - 1) * (1 - s)) <= g * S).
  { assert (R1 : Rabs (1 - s) * (b + S) <= g * S).
    { rewrite <- (Rabs_right (b + S)) at 1 by lra. rewrite <- Rabs_mult. replace ((1 - s) * (b + S)) with (S - e) by (rewrite Rmult_minus_distr_r, <- SE; ring).
      assert (1 * S <= g * S) by (apply Rmult_le_compat_r; lra). apply Rabs_le. lra. }
    rewrite Rabs_mult, (Rabs_right (g - 1)) by lra. pose proof (Rabs_pos (1 - s)).
    apply Rle_trans with (Rabs (1 - s) * (b + S)); [|lra]. rewrite (Rmult_comm (g - 1)). apply Rmult_le_compat_l; lra. }
  assert (DL : Rabs (g - 1 - q * B2) <= 2 * g ^ 2 * S).
  { rewrite QB. replace (g - 1 - (g - 1) * s ^ 2) with ((g - 1) * (1 - s) * (1 + s)) by ring. rewrite Rabs_mult, (Rabs_right (1 + s)) by lra.
    apply Rle_trans with (g * S * (1 + g)); [apply Rmult_le_compat; try lra; apply Rabs_pos|].
    assert (P : 0 <= g * S) by (apply Rmult_le_pos; lra). assert (g * S * (1 + g) <= g * S * (2 * g)) by (apply Rmult_le_compat_l; lra). lra. }
  assert (g2 : g <= g ^ 2) by nra. assert (gs : 0 <= g * S) by (apply Rmult_le_pos; lra).
  assert (EX : 0 <= 1 - g ^ 2 + B2 <= 3 * g ^ 2 * S).
  { replace (1 - g ^ 2 + B2) with (2 * (b * e) + e * e) by (rewrite EB; replace (1 - g ^ 2) with (- (b * b)) by (rewrite BB; ring); ring).
    assert (b * e <= g * (g * S)) by (apply Rmult_le_compat; lra). assert (e * e <= (g * S) * (g * S)) by (apply Rmult_le_compat; lra).
    assert ((g * S) * (g * S) <= 1 * (g * S)) by (apply Rmult_le_compat_r; lra). assert (g * S <= g ^ 2 * S) by (apply Rmult_le_compat_r; lra).
    assert (0 <= b * e) by (apply Rmult_le_pos; lra). assert (0 <= e * e) by (apply Rmult_le_pos; lra). lra. }
  split; [exact EX|]. split.
  { rewrite EB. split; [apply pow2_ge_0|]. replace (4 * g ^ 2) with ((2 * g) ^ 2) by ring. apply pow_incr. lra. }
  split; [exact DL|].
  assert (BP : 0 <= B2) by (rewrite EB; apply pow2_ge_0).
  rewrite <- (Rabs_right B2) at 2 by lra. rewrite <- Rabs_mult.
  set (dl := g - 1 - q * B2) in *.
  replace ((q ^ 2 * B2 + 2 * q - 1) * B2) with (- (1 - g ^ 2 + B2) - 2 * g * dl + dl ^ 2) by (unfold dl; ring).
  apply Rle_trans with (3 * g ^ 2 * S + 2 * g * (2 * g ^ 2 * S) + (2 * g ^ 2 * S) ^ 2).
  - assert (d2 : dl ^ 2 <= (2 * g ^ 2 * S) ^ 2) by (rewrite <- pow2_abs; apply pow_incr; split; [apply Rabs_pos|auto]).
    pose proof (pow2_ge_0 dl) as d3. assert (AB : - (2 * g ^ 2 * S) <= dl <= 2 * g ^ 2 * S).
    { pose proof (Rle_abs dl). pose proof (Rle_abs (- dl)) as Q. rewrite Rabs_Ropp in Q. lra. }
    assert (T1 : g * dl <= g * (2 * g ^ 2 * S)) by (apply Rmult_le_compat_l; lra). assert (T2 : g * - (2 * g ^ 2 * S) <= g * dl) by (apply Rmult_le_compat_l; lra).
    apply Rabs_le. lra.
  - assert (g3 : g ^ 2 <= g ^ 3) by (replace (g ^ 2) with (g ^ 2 * 1) by ring; replace (g ^ 3) with (g ^ 2 * g) by ring; apply Rmult_le_compat_l; [apply pow2_ge_0|lra]).
    assert (X1 : g ^ 2 * S <= g ^ 3 * S) by (apply Rmult_le_compat_r; lra).
    assert (X2 : (g ^ 3 * S) * (g * S) <= (g ^ 3 * S) * 1) by (apply Rmult_le_compat_l; [apply Rmult_le_pos; [apply pow_le; lra|lra]|lra]).
    replace ((2 * g ^ 2 * S) ^ 2) with (4 * ((g ^ 3 * S) * (g * S))) by ring. replace (2 * g * (2 * g ^ 2 * S)) with (4 * (g ^ 3 * S)) by ring. lra.
Qed.
(** A boost to a particle of the kind sampled is a Lorentz transformation but for the small
    number. *)
Lemma boost_close v u E : 1 <= fst u -> fst u * SMALL <= 1 -> (exists e, 0 <= e <= fst u * SMALL /\ sq3 (snd u) = (bnorm (fst u) + e) ^ 2) ->
  fst v ^ 2 <= E ^ 2 -> sq3 (snd v) <= E ^ 2 -> Rabs (mink (boost v u) - mink v) <= 22 * fst u ^ 3 * SMALL * E ^ 2.
Proof.
  intros G GS X V0 V1. rewrite boost_mink by auto. cbv zeta. rewrite dot_sq. pose proof (excess _ _ G GS X) as Q. cbv zeta in Q.
  pose proof (cauchy (snd u) (snd v)) as C. rewrite !dot_sq in C.
  set (g := fst u) in *. set (B2 := sq3 (snd u)) in *. set (q := (g - 1) / (bnorm g + SMALL) ^ 2) in *. set (d := dot (snd u) (snd v)) in *. set (v0 := fst v) in *.
  set (w := sq3 (snd v)) in *. assert (W0 : 0 <= w) by apply sq3_pos. pose proof SMALL_pos as S0. set (S := SMALL) in *. clearbody g B2 q d v0 w S.
  destruct Q as (Q1 & Q2 & Q3 & Q4). set (dl := g - 1 - q * B2) in *. set (T := q ^ 2 * B2 + 2 * q - 1) in *. clearbody dl T. clear X.
  set (F := E ^ 2) in *. assert (F0 : 0 <= F) by (unfold F; apply pow2_ge_0). 
  assert (g0 : 0 < g ^ 2) by (apply pow_lt; lra). assert (g3 : g ^ 2 <= g ^ 3) by (replace (g ^ 2) with (g ^ 2 * 1) by ring; replace (g ^ 3) with (g ^ 2 * g) by ring; apply Rmult_le_compat_l; lra).
  assert (T1 : Rabs (v0 ^ 2 * (1 - g ^ 2 + B2)) <= 3 * g ^ 3 * S * F).
  { pose proof (pow2_ge_0 v0). rewrite Rabs_right by (apply Rle_ge, Rmult_le_pos; lra).
    apply Rle_trans with (F * (3 * g ^ 2 * S)); [apply Rmult_le_compat; lra|]. 
    assert (g ^ 2 * (S * F) <= g ^ 3 * (S * F)) by (apply Rmult_le_compat_r; [apply Rmult_le_pos; lra|lra]). lra. }
  assert (dv : Rabs (v0 * d) <= 2 * g * F).
  { apply pow_incr_inv2; [apply Rmult_le_pos; lra|]. rewrite pow2_abs. replace ((v0 * d) ^ 2) with (v0 ^ 2 * (d * d)) by ring.
    apply Rle_trans with (F * (4 * g ^ 2 * F)); [|right; ring]. apply Rmult_le_compat; [apply pow2_ge_0|apply Rle_0_sqr|auto|].
    apply Rle_trans with (B2 * w); [auto|]. apply Rmult_le_compat; lra. }
  assert (T2 : Rabs (2 * v0 * d * dl) <= 8 * g ^ 3 * S * F).
  { replace (2 * v0 * d * dl) with (2 * ((v0 * d) * dl)) by ring. rewrite Rabs_mult, (Rabs_right 2), Rabs_mult by lra.
    apply Rle_trans with (2 * ((2 * g * F) * (2 * g ^ 2 * S))); [|right; ring]. apply Rmult_le_compat_l; [lra|]. apply Rmult_le_compat; auto using Rabs_pos. }
  assert (T3 : Rabs (d ^ 2 * T) <= 11 * g ^ 3 * S * F).
  { rewrite Rabs_mult, (Rabs_right (d ^ 2)) by (apply Rle_ge, pow2_ge_0). replace (d ^ 2) with (d * d) by ring.
    apply Rle_trans with ((B2 * w) * Rabs T); [apply Rmult_le_compat_r; auto using Rabs_pos|].
    replace (B2 * w * Rabs T) with (w * (Rabs T * B2)) by ring. apply Rle_trans with (F * (11 * g ^ 3 * S)); [|right; ring].
    apply Rmult_le_compat; auto. apply Rmult_le_pos; [apply Rabs_pos|lra]. }
  pose proof (Rabs_triang (v0 ^ 2 * (1 - g ^ 2 + B2) + 2 * v0 * d * dl) (d ^ 2 * T)) as A1.
  pose proof (Rabs_triang (v0 ^ 2 * (1 - g ^ 2 + B2)) (2 * v0 * d * dl)) as A2. lra.
Qed.
(** ** The sampled particle and the scattered packet *)
Lemma beta_eq g : 1 <= g -> g * sample_beta g = bnorm g + g * SMALL.
Proof.
  intros G. unfold sample_beta. rewrite <- bnorm_eq by auto. assert (P : 0 < g * g) by nra. assert (Q : 0 <= 1 - 1 / (g * g)).
  { assert (1 / (g * g) <= 1); [|lra]. apply (Rmult_le_reg_r (g * g)); auto. unfold Rdiv. rewrite Rmult_assoc, Rinv_l; nra. }
  rewrite (Rabs_right (1 - 1 / (g * g))) by lra. ring.
Qed.
Lemma gas_shell k n0 g mu phi p : 1 <= g -> -1 <= mu <= 1 -> gas_particle k n0 g (sample_beta g) mu phi = Some p ->
  fst p = g /\ sq3 (snd p) = (sqrt (g ^ 2 - 1) + g * SMALL) ^ 2 /\ prod3 (snd p) k = sqrt (sq3 (snd p)) * sqrt (sq3 k) * mu.
Proof.
  intros G M. unfold gas_particle. destruct (frame k n0) as [fr|] eqn:F; [|discriminate]. intros E. injection E as <-. cbn [fst snd].
  destruct (direction_unit k n0 fr mu (sqrt (1 - mu * mu)) phi F (proj1 (sth_ok mu M))) as (D & l & L & D2 & D3).
  assert (BN : sqrt (g ^ 2 - 1) = bnorm g) by (unfold bnorm; f_equal; ring). destruct (bnorm_sq g G) as (_ & B0 & _). pose proof SMALL_pos as S.
  assert (Q : sq3 (scale (g * sample_beta g) (direction fr mu (sqrt (1 - mu * mu)) phi)) = (bnorm g + g * SMALL) ^ 2).
  { rewrite sq3_scale, <- dot_sq, D, beta_eq by auto. ring. }
  assert (T : 0 <= g * SMALL) by (apply Rmult_le_pos; lra).
  split; [reflexivity|]. rewrite Q, BN. split; [reflexivity|]. rewrite prod_dot, dot_scale_l, D2, beta_eq by auto.
  rewrite sqrt_pow2 by lra. rewrite <- dot_sq, D3, sqrt_square by lra. ring.
Qed.
Lemma scatter_ok k p n0 k0p cth phi kp : 1 <= fst p -> 2 * fst p ^ 2 * SMALL < 1 ->
  sq3 (snd p) = (sqrt (fst p ^ 2 - 1) + fst p * SMALL) ^ 2 -> 0 < k0p -> -1 <= cth <= 1 ->
  scattered_rad k p n0 k0p cth phi = Some kp ->
  (exists d, sq3 d = 1 /\ prod3 d (snd (boost k p)) = sqrt (sq3 (snd (boost k p))) * cth /\ kp = boost (k0p, scale k0p d) (fst p, scale (-1) (snd p))) /\
  0 < fst kp /\ Rabs (mink kp) <= 22 * fst p ^ 3 * SMALL * k0p ^ 2 /\ Rabs (energy kp p - k0p) <= 7 * fst p ^ 3 * SMALL * k0p.
Proof.
  intros G G2 P K C. unfold scattered_rad. destruct (frame (snd (boost k p)) n0) as [fr|] eqn:F; [|discriminate]. intros E.
  assert (I : forall a b : V4, Some a = Some b -> b = a) by congruence. apply I in E. subst kp. clear I.
  destruct (direction_unit _ _ _ cth (sqrt (Rabs (1 - cth * cth))) phi F (proj2 (sth_ok cth C))) as (D & l & L & D2 & D3).
  set (d := direction fr cth (sqrt (Rabs (1 - cth * cth))) phi) in *. clearbody d. clear F fr.
  pose proof SMALL_pos as S0. destruct (bnorm_sq _ G) as (BB & B0 & BG).
  assert (BN : sqrt (fst p ^ 2 - 1) = bnorm (fst p)) by (unfold bnorm; f_equal; ring). rewrite BN in P.
  assert (GS : fst p * SMALL <= 1). { assert (1 * fst p <= fst p * fst p) by (apply Rmult_le_compat_r; lra). assert (fst p * SMALL <= fst p * fst p * SMALL) by (apply Rmult_le_compat_r; lra). simpl in G2. lra. }
  assert (TS : 0 <= fst p * SMALL) by (apply Rmult_le_pos; lra).
  assert (X : exists e, 0 <= e <= fst p * SMALL /\ sq3 (snd p) = (bnorm (fst p) + e) ^ 2) by (exists (fst p * SMALL); split; [lra|exact P]).
  assert (X' : exists e, 0 <= e <= fst p * SMALL /\ sq3 (scale (-1) (snd p)) = (bnorm (fst p) + e) ^ 2).
  { destruct X as (e & E1 & E2). exists e. split; [auto|]. rewrite sq3_scale, E2. ring. }
  split.
  { exists d. split; [rewrite <- dot_sq; exact D|]. split; [|reflexivity]. rewrite prod_dot, D2, <- dot_sq, D3, sqrt_square by lra. reflexivity. }
  assert (U : sq3 (scale k0p d) = k0p ^ 2) by (rewrite sq3_scale, <- dot_sq, D; ring).
  pose proof (excess _ _ G GS X) as Q. cbv zeta in Q. destruct Q as (Q1 & Q2 & Q3 & _).
  pose proof (cauchy (snd p) d) as CC. rewrite D, dot_sq, Rmult_1_r in CC.
  assert (DD : Rabs (dot (snd p) d) <= bnorm (fst p) + fst p * SMALL).
  { apply pow_incr_inv2; [lra|]. rewrite pow2_abs, <- P. lra. }
  assert (DE : - (bnorm (fst p) + fst p * SMALL) <= dot (snd p) d).
  { pose proof (Rle_abs (- dot (snd p) d)) as Q. rewrite Rabs_Ropp in Q. lra. }
  split.
  { rewrite boost_eq by (cbn; exact G). cbn [fst]. unfold energy. cbn [fst snd]. rewrite prod_dot, dot_scale_l, dot_scale_r.
    apply Rlt_le_trans with (k0p * (fst p + dot (snd p) d)); [|right; ring]. apply Rmult_lt_0_compat; [auto|].
    assert (H : fst p * SMALL < fst p - bnorm (fst p)); [|lra].
    apply (Rmult_lt_reg_r (fst p + bnorm (fst p))); [lra|]. replace ((fst p - bnorm (fst p)) * (fst p + bnorm (fst p))) with 1 by (ring_simplify; lra).
    apply Rle_lt_trans with (fst p * SMALL * (2 * fst p)); [apply Rmult_le_compat_l; lra|]. simpl in G2. lra. }
  split.
  { pose proof (boost_close (k0p, scale k0p d) (fst p, scale (-1) (snd p)) k0p G GS X') as Q. cbn [fst snd] in Q. specialize (Q (Rle_refl _)). rewrite U in Q. specialize (Q (Rle_refl _)).
    assert (M : mink (k0p, scale k0p d) = 0) by (unfold mink; cbn [fst snd]; rewrite U; ring). rewrite M, Rminus_0_r in Q. exact Q. }
  set (dd := dot (snd p) d) in *.
  assert (E : energy (boost (k0p, scale k0p d) (fst p, scale (-1) (snd p))) p - k0p =
    k0p * (- (1 - fst p ^ 2 + sq3 (snd p)) + dd * (fst p - 1 - (fst p - 1) / (bnorm (fst p) + SMALL) ^ 2 * sq3 (snd p)))).
  { rewrite boost_eq by (cbn; exact G). unfold energy. cbn [fst snd]. rewrite !prod_dot, !dot_add_r, ?dot_scale_r, ?dot_scale_l, ?dot_scale_r, ?dot_sq. fold dd. ring. }
  rewrite E, Rabs_mult, (Rabs_right k0p) by lra.
  set (dl := fst p - 1 - _) in *. clearbody dl.
  apply Rle_trans with (k0p * (7 * fst p ^ 3 * SMALL)); [|right; ring]. apply Rmult_le_compat_l; [lra|].
  apply Rle_trans with (3 * fst p ^ 2 * SMALL + (2 * fst p) * (2 * fst p ^ 2 * SMALL)).
  - apply Rle_trans with (Rabs (- (1 - fst p ^ 2 + sq3 (snd p))) + Rabs (dd * dl)); [apply Rabs_triang|]. rewrite Rabs_Ropp, (Rabs_right (1 - _ + _)) by lra. rewrite Rabs_mult.
    apply Rplus_le_compat; [lra|]. apply Rmult_le_compat; try apply Rabs_pos; lra.
  - assert (g0 : 0 <= fst p ^ 2) by apply pow2_ge_0. assert (fst p ^ 2 * 1 <= fst p ^ 2 * fst p) by (apply Rmult_le_compat_l; lra).
    assert (fst p ^ 2 * 1 * SMALL <= fst p ^ 2 * fst p * SMALL) by (apply Rmult_le_compat_r; lra).
    replace (2 * fst p * (2 * fst p ^ 2 * SMALL)) with (4 * (fst p ^ 2 * fst p * SMALL)) by ring. replace (7 * fst p ^ 3 * SMALL) with (7 * (fst p ^ 2 * fst p * SMALL)) by ring. lra.
Qed.
(** at rest the boost does nothing *)
Lemma boost_rest v : boost v (1, (0, 0, 0)) = v.
Proof.
  destruct v as (v0, ((v1, v2), v3)). unfold boost. cbv zeta. pose proof SMALL_pos. set (n := 0 / _). assert (n = 0) as -> by (unfold n; unfold Rdiv; ring).
  f_equal; [ring|]. f_equal; [f_equal|]; ring.
Qed.
(** a random direction along the packet leaves no frame *)
Lemma frame_refuted : frame (1, 0, 0) (1, 0, 0) = None.
Proof.
  unfold frame, unit. replace (dot (1, 0, 0) (1, 0, 0)) with 1 by (cbn; ring). rewrite sqrt_1. destruct (Reqb_spec 1 0); [lra|].
  replace (dot _ _) with 0.
  - rewrite sqrt_0. destruct (Reqb_spec 0 0); [reflexivity|lra].
  - unfold dot, add, scale. field.
Qed.
(** ** Sampling *)
Lemma mu_ok b x : 0 < b -> 0 <= x <= 1 -> -1 <= sample_mu b x <= 1 /\ x = 1 / 2 * (1 + sample_mu b x) + b / 4 * (1 - sample_mu b x ^ 2).
Proof.
  intros B X. unfold sample_mu. set (r := 1 + 2 * b + b * b - 4 * b * x).
  assert (R1 : (1 - b) * (1 - b) <= r) by (unfold r; assert (b * x <= b * 1) by (apply Rmult_le_compat_l; lra); lra).
  assert (R2 : r <= (1 + b) * (1 + b)) by (unfold r; assert (0 <= b * x) by (apply Rmult_le_pos; lra); lra).
  assert (R0 : 0 <= r) by (pose proof (Rle_0_sqr (1 - b)); unfold Rsqr in *; lra).
  pose proof (sqrt_sqrt r R0) as SS. pose proof (sqrt_pos r) as SP. set (s := sqrt r) in *. clearbody s.
  assert (S2 : s <= 1 + b) by (apply pow_incr_inv2; [lra|simpl; rewrite !Rmult_1_r; lra]).
  assert (S1 : Rabs (1 - b) <= s) by (apply pow_incr_inv2; [lra|]; rewrite pow2_abs; simpl; rewrite !Rmult_1_r; lra).
  pose proof (Rle_abs (1 - b)) as A1. pose proof (Rle_abs (- (1 - b))) as A2. rewrite Rabs_Ropp in A2.
  split.
  - assert (E : 1 - s = (1 - s) / b * b) by (field; lra). set (mu := (1 - s) / b) in *. clearbody mu.
    split; apply Rnot_lt_le; intros C; [assert (mu * b < -1 * b) by (apply Rmult_lt_compat_r; lra)|assert (1 * b < mu * b) by (apply Rmult_lt_compat_r; lra)]; lra.
  - apply (Rmult_eq_reg_r (4 * b)); [|lra].
    replace ((1 / 2 * (1 + (1 - s) / b) + b / 4 * (1 - ((1 - s) / b) ^ 2)) * (4 * b)) with (2 * b + b * b + 1 - s * s) by (field; lra).
    rewrite SS. unfold r. ring.
Qed.
Lemma y_ok th y : 0 <= th -> 0 <= y -> 1 / 2 < y_prob th y <= 1.
Proof.
  intros T Y. unfold y_prob. pose proof (sqrt_pos (1 / 2 * th)) as A. pose proof (sqrt_sqrt (1 / 2 * th) ltac:(lra)) as AA. set (q := sqrt (1 / 2 * th)) in *.
  assert (E : 1 + 1 / 2 * th * (y * y) = 1 + (y * q) * (y * q)) by (rewrite <- AA; ring). rewrite E. clearbody q. clear E AA.
  assert (Q : 0 <= y * q) by (apply Rmult_le_pos; lra). set (a := y * q) in *. clearbody a.
  assert (P : 0 <= 1 + a * a) by nra. pose proof (sqrt_sqrt _ P) as S. pose proof (sqrt_pos (1 + a * a)) as S0. set (s := sqrt (1 + a * a)) in *. clearbody s.
  assert (s <= 1 + a) by (apply pow_incr_inv2; [lra|]; simpl; nra).
  assert (L : 1 / 2 * (1 + a) < s). { apply Rnot_le_lt. intros C. assert (s * s <= (1 / 2 * (1 + a)) * (1 / 2 * (1 + a))) by (apply Rmult_le_compat; lra). nra. }
  split.
  - apply (Rmult_lt_reg_r (1 + a)); [lra|]. replace (s / (1 + a) * (1 + a)) with s by (field; lra). exact L.
  - apply (Rmult_le_reg_r (1 + a)); [lra|]. replace (s / (1 + a) * (1 + a)) with s by (field; lra). lra.
Qed.
Lemma kn_ok k kp : 0 < k -> kn_min k <= kp <= k -> 0 < kp /\ 0 < klein_nishina k kp <= kn_box k /\ -1 <= kn_cth k kp <= 1.
Proof.
  intros K (L & U). assert (M0 : 0 < kn_min k) by (unfold kn_min; apply Rdiv_lt_0_compat; lra). assert (P : 0 < kp) by lra. split; [auto|].
  set (u := k / kp). assert (EK : k = u * kp) by (unfold u; field; lra).
  assert (U1 : 1 <= u) by (apply (Rmult_le_reg_r kp); [auto|]; rewrite <- EK; lra).
  assert (U2 : u <= 1 + 2 * k).
  { apply (Rmult_le_reg_r kp); [auto|]. rewrite <- EK. unfold kn_min in L. apply (Rmult_le_compat_r (1 + 2 * k)) in L; [|lra].
    replace (k / (1 + 2 * k) * (1 + 2 * k)) with k in L by (field; lra). lra. }
  assert (IK : 0 < / k) by (apply Rinv_0_lt_compat, K).
  set (ch := 1 + 1 / k - 1 / kp).
  assert (EC : ch = 1 - (u - 1) * / k) by (unfold ch, u; field; lra).
  assert (C0 : 0 <= (u - 1) * / k) by (apply Rmult_le_pos; lra).
  assert (C1 : (u - 1) * / k <= 2). { apply (Rmult_le_reg_r k); [auto|]. rewrite Rmult_assoc, Rinv_l; lra. }
  assert (CC : -1 <= ch <= 1) by lra. split.
  - unfold klein_nishina. cbv zeta. fold ch. assert (KK : 0 < k * k) by (apply Rmult_lt_0_compat; auto).
    assert (IU : kp / k = / u) by (unfold u; field; lra). fold u. rewrite IU.
    assert (C2 : 0 <= ch * ch <= 1) by nra.
    assert (U3 : 0 < / u <= 1) by (split; [apply Rinv_0_lt_compat; lra|rewrite <- Rinv_1; apply Rinv_le_contravar; lra]).
    set (m := 1 + 2 * k) in *. assert (MI : / u <= / m + (m - u) * (/ u * / m)) by (right; field; unfold m; lra).
    assert (IM : 0 < / m <= 1) by (split; [apply Rinv_0_lt_compat; unfold m; lra|rewrite <- Rinv_1; apply Rinv_le_contravar; unfold m; lra]).
    assert (IUM : 0 < / u * / m <= 1) by (split; [apply Rmult_lt_0_compat; lra|rewrite <- (Rmult_1_l 1); apply Rmult_le_compat; lra]).
    assert (SUM : u + / u <= m + / m). { assert ((m - u) * (/ u * / m) <= (m - u) * 1) by (apply Rmult_le_compat_l; lra). lra. }
    split.
    + apply Rdiv_lt_0_compat; [|auto]. lra.
    + replace (kn_box k) with ((m + / m) / (k * k)) by (unfold kn_box, m; field; lra). unfold Rdiv. apply Rmult_le_compat_r; [left; apply Rinv_0_lt_compat, KK|]. lra.
  - unfold kn_cth. replace (1 - 1 / kp + 1 / k) with ch by (unfold ch; ring). exact CC.
Qed.
Lemma kn_tight k : 0 < k -> klein_nishina k (kn_min k) = kn_box k.
Proof. intros K. unfold klein_nishina, kn_min, kn_box. field. lra. Qed.
