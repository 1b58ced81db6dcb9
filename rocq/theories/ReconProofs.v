From Coq Require Import Reals Bool Lra Psatz.
From Verif Require Import RLib ReconModel ReconSpec.
Open Scope R_scope.

Ltac minmax := unfold Rmin, Rmax in *; repeat match goal with
  | |- context [Rle_dec ?a ?b] => destruct (Rle_dec a b)
  | H : context [Rle_dec ?a ?b] |- _ => destruct (Rle_dec a b)
  end.
Ltac rabs := unfold Rabs in *; repeat match goal with
  | |- context [Rcase_abs ?a] => destruct (Rcase_abs a)
  | H : context [Rcase_abs ?a] |- _ => destruct (Rcase_abs a)
  end.

(** ** Limited linear scheme *)
Lemma prod_sign a b : (a * b <= 0 -> a <= 0 /\ 0 <= b \/ 0 <= a /\ b <= 0) /\ (0 < a * b -> a < 0 /\ b < 0 \/ 0 < a /\ 0 < b).
Proof.
  split; intros H; destruct (Rle_lt_dec a 0), (Rle_lt_dec b 0); try lra; try nra.
Qed.

Lemma slope_facts x1 x2 x3 : let s := slope_lim x1 x2 x3 in
  (0 < (x2 - x1) * (x3 - x2) ->
     (Rabs s <= 2 * Rabs (x2 - x1) /\ Rabs s <= 2 * Rabs (x3 - x2) /\ Rabs s <= 1 / 2 * Rabs (x3 - x1)) /\
     (s = 2 * (x2 - x1) \/ s = 2 * (x3 - x2) \/ s = 1 / 2 * (x3 - x1))) /\
  ((x2 - x1) * (x3 - x2) <= 0 -> s = 0).
Proof.
  cbn zeta. unfold slope_lim.
  destruct (Rleb_spec (2 * (x2 - x1) * (2 * (x3 - x2))) 0) as [H|H].
  - split; [intros; nra|trivial].
  - split; [|intros; nra]. intros P. destruct (prod_sign (x2 - x1) (x3 - x2)) as [_ Q]. specialize (Q P).
    rcases; rabs; split; lra.
Qed.

Lemma linear_mc_lim x1 x2 x3 : linear_mc x1 x2 x3 = lr_lin x1 x2 x3.
Proof. reflexivity. Qed.

Lemma lr_lin_ok x1 x2 x3 l r : lr_lin x1 x2 x3 = (l, r) ->
  between x1 x2 l /\ between x2 x3 r /\ l + r = 2 * x2 /\
  ((x2 - x1) * (x3 - x2) <= 0 -> l = x2 /\ r = x2) /\
  (forall a b, x1 = a - b -> x2 = a -> x3 = a + b -> l = a - b / 2 /\ r = a + b / 2) /\
  lr_lin x3 x2 x1 = (r, l).
Proof.
  unfold lr_lin, between. intros E. injection E as <- <-.
  pose proof (slope_facts x1 x2 x3) as [A B]. cbn zeta in A, B.
  split; [|split; [|split; [|split; [|split]]]].
  - destruct (Rle_lt_dec ((x2 - x1) * (x3 - x2)) 0) as [C|C].
    + rewrite (B C). minmax; lra.
    + destruct (A C) as [A1 A2]. destruct (prod_sign (x2 - x1) (x3 - x2)) as [_ Q]. specialize (Q C).
      minmax; rabs; lra.
  - destruct (Rle_lt_dec ((x2 - x1) * (x3 - x2)) 0) as [C|C].
    + rewrite (B C). minmax; lra.
    + destruct (A C) as [A1 A2]. destruct (prod_sign (x2 - x1) (x3 - x2)) as [_ Q]. specialize (Q C).
      minmax; rabs; lra.
  - lra.
  - intros C. rewrite (B C). lra.
  - intros a b -> -> ->. clear A B.
    assert (slope_lim (a - b) a (a + b) = b); [|rewrite H; lra].
    unfold slope_lim. replace (2 * (a - (a - b))) with (2 * b) by ring. replace (2 * (a + b - a)) with (2 * b) by ring.
    replace (5 / 10 * (a + b - (a - b))) with b by field.
    destruct (Rleb_spec (2 * b * (2 * b)) 0); [assert (b = 0) by nra; lra|].
    rewrite !Rabs_mult, (Rabs_pos_eq 2) by lra. pose proof (Rabs_pos b). rcases; lra.
  - assert (slope_lim x3 x2 x1 = - slope_lim x1 x2 x3); [|rewrite H; f_equal; lra].
    unfold slope_lim. clear A B.
    replace (2 * (x2 - x3)) with (- (2 * (x3 - x2))) by ring. replace (2 * (x1 - x2)) with (- (2 * (x2 - x1))) by ring.
    replace (5 / 10 * (x1 - x3)) with (- (5 / 10 * (x3 - x1))) by ring. rewrite !Rabs_Ropp.
    replace (- (2 * (x3 - x2)) * - (2 * (x2 - x1))) with (2 * (x2 - x1) * (2 * (x3 - x2))) by ring.
    destruct (Rleb_spec (2 * (x2 - x1) * (2 * (x3 - x2))) 0) as [C|C]; [lra|].
    assert (P : 0 < (x2 - x1) * (x3 - x2)) by nra.
    destruct (prod_sign (x2 - x1) (x3 - x2)) as [_ Q]. specialize (Q P). rcases; rabs; lra.
Qed.

(** ** WENO *)
Lemma weno_eps_pos : 0 < weno_eps.
Proof. unfold weno_eps. apply Rinv_0_lt_compat. apply pow_lt. lra. Qed.

Lemma weights_ok b0 b1 b2 w0 w1 w2 : 0 <= b0 -> 0 <= b1 -> 0 <= b2 -> weno_weights b0 b1 b2 = (w0, w1, w2) ->
  0 < w0 /\ 0 < w1 /\ 0 < w2 /\ w0 + w1 + w2 = 1.
Proof.
  intros H0 H1 H2 E. unfold weno_weights in E. injection E as <- <- <-. pose proof weno_eps_pos.
  assert (A : forall c b, 0 < c -> 0 <= b -> 0 < c / ((weno_eps + b) * (weno_eps + b))).
  { intros c b Hc Hb. apply Rdiv_lt_0_compat; [trivial|]. apply Rmult_lt_0_compat; lra. }
  pose proof (A (1 / 16) b0 ltac:(lra) H0). pose proof (A (5 / 8) b1 ltac:(lra) H1). pose proof (A (5 / 16) b2 ltac:(lra) H2).
  set (a := 1 / 16 / _) in *. set (b := 5 / 8 / _) in *. set (c := 5 / 16 / _) in *. clearbody a b c.
  repeat split; try (apply Rdiv_lt_0_compat; lra). field. lra.
Qed.

Lemma weights_equal b w0 w1 w2 : 0 <= b -> weno_weights b b b = (w0, w1, w2) -> w0 = 1 / 16 /\ w1 = 5 / 8 /\ w2 = 5 / 16.
Proof.
  intros H E. unfold weno_weights in E. injection E as <- <- <-. pose proof weno_eps_pos.
  assert (weno_eps + b <> 0) by lra. generalize dependent (weno_eps + b). intros e He.
  repeat split; field; lra.
Qed.

(** Larger smoothness value, smaller weight relative to the ideal one. *)
Lemma weights_order b0 b1 b2 w0 w1 w2 : 0 <= b0 -> 0 <= b1 -> 0 <= b2 -> weno_weights b0 b1 b2 = (w0, w1, w2) ->
  (b0 <= b1 -> w1 / (5 / 8) <= w0 / (1 / 16)) /\ (b1 <= b2 -> w2 / (5 / 16) <= w1 / (5 / 8)) /\
  (b1 <= b0 -> w0 / (1 / 16) <= w1 / (5 / 8)) /\ (b2 <= b1 -> w1 / (5 / 8) <= w2 / (5 / 16)).
Proof.
  intros H0 H1 H2 E. unfold weno_weights in E. injection E as <- <- <-. pose proof weno_eps_pos as EP.
  set (g := fun b => / ((weno_eps + b) * (weno_eps + b))).
  assert (GP : forall b, 0 <= b -> 0 < g b).
  { intros b Hb. apply Rinv_0_lt_compat. apply Rmult_lt_0_compat; lra. }
  assert (GM : forall a b, 0 <= a -> a <= b -> g b <= g a).
  { intros a b Ha Hab. apply Rinv_le_contravar; [apply Rmult_lt_0_compat; lra|]. apply Rmult_le_compat; lra. }
  unfold Rdiv. fold (g b0) (g b1) (g b2).
  pose proof (GP b0 H0). pose proof (GP b1 H1). pose proof (GP b2 H2).
  set (W := 1 * / 16 * g b0 + 5 * / 8 * g b1 + 5 * / 16 * g b2).
  assert (WP : 0 < / W) by (apply Rinv_0_lt_compat; unfold W; lra).
  assert (C : forall x y, x <= y -> x * / W <= y * / W) by (intros; apply Rmult_le_compat_r; lra).
  replace (5 * / 8 * g b1 * / W * / (5 * / 8)) with (g b1 * / W) by (field; unfold W; lra).
  replace (1 * / 16 * g b0 * / W * / (1 * / 16)) with (g b0 * / W) by (field; unfold W; lra).
  replace (5 * / 16 * g b2 * / W * / (5 * / 16)) with (g b2 * / W) by (field; unfold W; lra).
  repeat split; intros; apply C; now apply GM.
Qed.

Lemma betas_nonneg x1 x2 x3 x4 x5 :
  0 <= weno_beta0 x1 x2 x3 x4 x5 /\ 0 <= weno_beta1 x1 x2 x3 x4 x5 /\ 0 <= weno_beta2 x1 x2 x3 x4 x5.
Proof.
  unfold weno_beta0, weno_beta1, weno_beta2.
  assert (forall x, 0 <= x ^ 2) by (intros x; apply pow2_ge_0).
  repeat split; repeat match goal with |- context [?a ^ 2] => pose proof (H a); generalize dependent (a ^ 2); intros end; lra.
Qed.

Lemma weno_convex x1 x2 x3 x4 x5 l r : weno x1 x2 x3 x4 x5 = (l, r) ->
  (exists a b c, 0 < a /\ 0 < b /\ 0 < c /\ a + b + c = 1 /\
     r = a * weno_vr0 x1 x2 x3 x4 x5 + b * weno_vr1 x1 x2 x3 x4 x5 + c * weno_vr2 x1 x2 x3 x4 x5) /\
  (exists a b c, 0 < a /\ 0 < b /\ 0 < c /\ a + b + c = 1 /\
     l = a * weno_vl0 x1 x2 x3 x4 x5 + b * weno_vl1 x1 x2 x3 x4 x5 + c * weno_vl2 x1 x2 x3 x4 x5).
Proof.
  unfold weno. destruct (betas_nonneg x1 x2 x3 x4 x5) as (B0 & B1 & B2).
  destruct (weno_weights (weno_beta0 x1 x2 x3 x4 x5) _ _) as [[r0 r1] r2] eqn:ER.
  destruct (weno_weights (weno_beta2 x1 x2 x3 x4 x5) _ _) as [[l0 l1] l2] eqn:EL.
  intros E. injection E as <- <-. split.
  - exists r0, r1, r2. destruct (weights_ok _ _ _ _ _ _ B0 B1 B2 ER) as (? & ? & ? & ?). repeat split; trivial. ring.
  - exists l0, l1, l2. destruct (weights_ok _ _ _ _ _ _ B2 B1 B0 EL) as (? & ? & ? & ?). repeat split; trivial. ring.
Qed.

(** Candidates: the quadratic through three of the samples, at the face. *)
Lemma candidates_quadratic a b c :
  let x i := a + b * i + c * i ^ 2 in
  let p := a + b * (1 / 2) + c * (1 / 2) ^ 2 in
  let m := a + b * (- (1 / 2)) + c * (- (1 / 2)) ^ 2 in
  forall y1 y2,
  weno_vr0 (x (-2)) (x (-1)) (x 0) y1 y2 = p /\ weno_vr1 y1 (x (-1)) (x 0) (x 1) y2 = p /\
  weno_vr2 y1 y2 (x 0) (x 1) (x 2) = p /\
  weno_vl0 y1 y2 (x 0) (x 1) (x 2) = m /\ weno_vl1 y1 (x (-1)) (x 0) (x 1) y2 = m /\
  weno_vl2 (x (-2)) (x (-1)) (x 0) y1 y2 = m.
Proof.
  cbn zeta. intros. unfold weno_vr0, weno_vr1, weno_vr2, weno_vl0, weno_vl1, weno_vl2. repeat split; field.
Qed.

Lemma convex_mid a b c u v w : 0 < a -> 0 < b -> 0 < c -> a + b + c = 1 ->
  Rmin u (Rmin v w) <= a * u + b * v + c * w <= Rmax u (Rmax v w).
Proof.
  intros A B C S.
  set (lo := Rmin u (Rmin v w)). set (hi := Rmax u (Rmax v w)).
  assert (lo <= u /\ lo <= v /\ lo <= w) by (unfold lo; minmax; lra).
  assert (u <= hi /\ v <= hi /\ w <= hi) by (unfold hi; minmax; lra).
  replace c with (1 - a - b) in * by lra. clearbody lo hi. split; nra.
Qed.

Lemma weno_between x1 x2 x3 x4 x5 l r : weno x1 x2 x3 x4 x5 = (l, r) ->
  Rmin (weno_vr0 x1 x2 x3 x4 x5) (Rmin (weno_vr1 x1 x2 x3 x4 x5) (weno_vr2 x1 x2 x3 x4 x5)) <= r <=
  Rmax (weno_vr0 x1 x2 x3 x4 x5) (Rmax (weno_vr1 x1 x2 x3 x4 x5) (weno_vr2 x1 x2 x3 x4 x5)) /\
  Rmin (weno_vl0 x1 x2 x3 x4 x5) (Rmin (weno_vl1 x1 x2 x3 x4 x5) (weno_vl2 x1 x2 x3 x4 x5)) <= l <=
  Rmax (weno_vl0 x1 x2 x3 x4 x5) (Rmax (weno_vl1 x1 x2 x3 x4 x5) (weno_vl2 x1 x2 x3 x4 x5)).
Proof.
  intros E. apply weno_convex in E. destruct E as [(a & b & c & A & B & C & S & ->) (a' & b' & c' & A' & B' & C' & S' & ->)].
  split; now apply convex_mid.
Qed.

Lemma weno_quadratic a b c :
  let x i := a + b * i + c * i ^ 2 in
  weno (x (-2)) (x (-1)) (x 0) (x 1) (x 2) = (x (- (1 / 2)), x (1 / 2)).
Proof.
  cbn zeta. destruct (weno _ _ _ _ _) as [l r] eqn:E. apply weno_between in E.
  destruct (candidates_quadratic a b c (a + b * 1 + c * 1 ^ 2) (a + b * 2 + c * 2 ^ 2)) as (E1 & _ & _ & _ & _ & E6).
  destruct (candidates_quadratic a b c (a + b * (-2) + c * (-2) ^ 2) (a + b * 2 + c * 2 ^ 2)) as (_ & E2 & _ & _ & E5 & _).
  destruct (candidates_quadratic a b c (a + b * (-2) + c * (-2) ^ 2) (a + b * (-1) + c * (-1) ^ 2)) as (_ & _ & E3 & E4 & _).
  cbv beta zeta in *. rewrite E1, E2, E3, E4, E5, E6 in E. f_equal; minmax; lra.
Qed.

Lemma weno_mirror x1 x2 x3 x4 x5 : weno x5 x4 x3 x2 x1 = swap (weno x1 x2 x3 x4 x5).
Proof.
  unfold weno, swap.
  replace (weno_beta0 x5 x4 x3 x2 x1) with (weno_beta2 x1 x2 x3 x4 x5) by (unfold weno_beta0, weno_beta2; ring).
  replace (weno_beta1 x5 x4 x3 x2 x1) with (weno_beta1 x1 x2 x3 x4 x5) by (unfold weno_beta1; ring).
  replace (weno_beta2 x5 x4 x3 x2 x1) with (weno_beta0 x1 x2 x3 x4 x5) by (unfold weno_beta0, weno_beta2; ring).
  destruct (weno_weights (weno_beta0 x1 x2 x3 x4 x5) _ _) as [[r0 r1] r2].
  destruct (weno_weights (weno_beta2 x1 x2 x3 x4 x5) _ _) as [[l0 l1] l2].
  cbn [fst snd]. reflexivity.
Qed.

Lemma weno_smooth c0 c1 c2 c3 c4 :
  let p := poly c0 c1 c2 c3 c4 in
  weno_beta0 (p (-2)) (p (-1)) (p 0) (p 1) (p 2) = weno_beta1 (p (-2)) (p (-1)) (p 0) (p 1) (p 2) ->
  weno_beta1 (p (-2)) (p (-1)) (p 0) (p 1) (p 2) = weno_beta2 (p (-2)) (p (-1)) (p 0) (p 1) (p 2) ->
  weno (p (-2)) (p (-1)) (p 0) (p 1) (p 2) = (p (- (1 / 2)), p (1 / 2)).
Proof.
  cbn zeta. intros E1 E2.
  destruct (betas_nonneg (poly c0 c1 c2 c3 c4 (-2)) (poly c0 c1 c2 c3 c4 (-1)) (poly c0 c1 c2 c3 c4 0) (poly c0 c1 c2 c3 c4 1) (poly c0 c1 c2 c3 c4 2)) as (_ & _ & B).
  unfold weno. rewrite E1, E2.
  destruct (weno_weights _ _ _) as [[r0 r1] r2] eqn:ER. apply (weights_equal _ _ _ _ B) in ER. destruct ER as (-> & -> & ->).
  unfold weno_vr0, weno_vr1, weno_vr2, weno_vl0, weno_vl1, weno_vl2, poly. f_equal; field.
Qed.

(** ** MP5 *)
Lemma median_middle a b c : Median a b c = middle a b c.
Proof.
  unfold Median, MINMOD, middle.
  destruct (Rltb_spec 0 ((b - a) * (c - a))) as [H|H].
  - destruct (prod_sign (b - a) (c - a)) as [_ Q]. specialize (Q H). rcases; rabs; minmax; lra.
  - destruct (prod_sign (b - a) (c - a)) as [Q _]. assert (Q' : (b - a) * (c - a) <= 0) by lra. specialize (Q Q'). minmax; lra.
Qed.

Lemma bounds_around a b c d e lo hi : mp5_bounds a b c d e = (lo, hi) -> lo <= c <= hi.
Proof.
  unfold mp5_bounds. intros E. injection E as <- <-.
  set (fMD := _ - _ * MINMOD _ _). set (fLC := _ + _ * MINMOD _ _). clearbody fMD fLC. minmax; lra.
Qed.

Lemma mp5_active a b c d e lo hi : mp5_bounds a b c d e = (lo, hi) ->
  let f := mp5_high a b c d e in
  mp5_subcalc a b c d e = f \/
  (/ 10 ^ 12 < (f - c) * (f - mp5_fmp b c d) /\
   mp5_subcalc a b c d e = middle f lo hi /\ lo <= mp5_subcalc a b c d e <= hi).
Proof.
  cbn zeta. intros E. unfold mp5_subcalc. rewrite E.
  destruct (Rleb_spec ((mp5_high a b c d e - c) * (mp5_high a b c d e - mp5_fmp b c d)) (/ 10 ^ 12)); [now left|right].
  split; [lra|]. rewrite median_middle. split; [trivial|]. apply bounds_around in E. unfold middle. minmax; lra.
Qed.

Lemma mp5_inactive a b c d e : let f := mp5_high a b c d e in
  between c (mp5_fmp b c d) f -> mp5_subcalc a b c d e = f.
Proof.
  cbn zeta. unfold mp5_subcalc, between. intros H.
  assert (0 < / 10 ^ 12) by (apply Rinv_0_lt_compat, pow_lt; lra).
  destruct (Rleb_spec ((mp5_high a b c d e - c) * (mp5_high a b c d e - mp5_fmp b c d)) (/ 10 ^ 12)); [trivial|].
  exfalso. apply n. apply Rle_trans with 0; [|lra]. minmax; nra.
Qed.

Lemma mp5_high_exact c0 c1 c2 c3 c4 : let u := zone_average c0 c1 c2 c3 c4 in
  mp5_high (u (-2)) (u (-1)) (u 0) (u 1) (u 2) = poly c0 c1 c2 c3 c4 (1 / 2) /\
  mp5_high (u 2) (u 1) (u 0) (u (-1)) (u (-2)) = poly c0 c1 c2 c3 c4 (- (1 / 2)).
Proof. cbn zeta. unfold mp5_high, zone_average, primitive_of, poly. split; field. Qed.

Lemma primitive_derivative c0 c1 c2 c3 c4 x :
  derivable_pt_lim (primitive_of c0 c1 c2 c3 c4) x (poly c0 c1 c2 c3 c4 x).
Proof.
  unfold primitive_of, poly.
  assert (P : forall k n y, derivable_pt_lim (fun z => k * z ^ S n / INR (S n)) y (k * y ^ n)).
  { intros k n y.
    replace (k * y ^ n) with ((k / INR (S n)) * (INR (S n) * y ^ pred (S n))).
    2:{ cbn [pred]. field. apply not_0_INR. discriminate. }
    replace (fun z => k * z ^ S n / INR (S n)) with (mult_real_fct (k / INR (S n)) (fun z => z ^ S n)).
    - apply derivable_pt_lim_scal. apply derivable_pt_lim_pow.
    - unfold mult_real_fct. apply FunctionalExtensionality.functional_extensionality. intros z. field. apply not_0_INR. discriminate. }
  pose proof (P c0 0%nat x) as H0. pose proof (P c1 1%nat x) as H1. pose proof (P c2 2%nat x) as H2.
  pose proof (P c3 3%nat x) as H3. pose proof (P c4 4%nat x) as H4.
  pose proof (derivable_pt_lim_plus _ _ _ _ _ (derivable_pt_lim_plus _ _ _ _ _ (derivable_pt_lim_plus _ _ _ _ _ (derivable_pt_lim_plus _ _ _ _ _ H0 H1) H2) H3) H4) as H.
  unfold plus_fct in H.
  replace (c0 + c1 * x + c2 * x ^ 2 + c3 * x ^ 3 + c4 * x ^ 4) with (c0 * x ^ 0 + c1 * x ^ 1 + c2 * x ^ 2 + c3 * x ^ 3 + c4 * x ^ 4) by ring.
  eapply derivable_pt_lim_ext; [|exact H]. intros z. unfold INR. field.
Qed.

Lemma mp5_const k : mp5 k k k k k = (k, k).
Proof.
  unfold mp5. assert (mp5_subcalc k k k k k = k); [|now rewrite H].
  assert (E : mp5_high k k k k k = k) by (unfold mp5_high; field).
  rewrite <- E at 6. apply mp5_inactive. cbn zeta. rewrite E. unfold between. minmax; lra.
Qed.
Lemma mp5_mirror x1 x2 x3 x4 x5 : mp5 x5 x4 x3 x2 x1 = swap (mp5 x1 x2 x3 x4 x5).
Proof. reflexivity. Qed.
Lemma minmod_zero a b : a * b <= 0 -> MINMOD a b = 0.
Proof. intros H. unfold MINMOD. now rewrite Rltb_false. Qed.
Lemma minmod_abs a b : Rabs (MINMOD a b) <= Rmin (Rabs a) (Rabs b) /\ 0 <= MINMOD a b * a /\ 0 <= MINMOD a b * b.
Proof.
  unfold MINMOD. destruct (Rltb_spec 0 (a * b)) as [P|P].
  - destruct (Rltb_spec (Rabs a) (Rabs b)) as [L|L].
    + split; [rewrite Rmin_left; lra|]. split; [apply Rle_0_sqr|lra].
    + split; [rewrite Rmin_right; lra|]. split; [lra|apply Rle_0_sqr].
  - rewrite Rabs_R0, !Rmult_0_l. split; [|lra]. apply Rmin_glb; apply Rabs_pos.
Qed.
Lemma minmod_zero_r a : MINMOD a 0 = 0.
Proof. apply minmod_zero. lra. Qed.
Lemma bounds_parts a b c d e lo hi : mp5_bounds a b c d e = (lo, hi) ->
  exists p m, p = MINMOD (MINMOD (4 * (b + d - 2 * c) - (c + e - 2 * d)) (4 * (c + e - 2 * d) - (b + d - 2 * c))) (MINMOD (b + d - 2 * c) (c + e - 2 * d)) /\
  m = MINMOD (MINMOD (4 * (a + c - 2 * b) - (b + d - 2 * c)) (4 * (b + d - 2 * c) - (a + c - 2 * b))) (MINMOD (b + d - 2 * c) (a + c - 2 * b)) /\
  Rmin (Rmin c d) ((c + d) / 2 - p / 2) <= lo /\ Rmin (Rmin c (c + 4 * (c - b))) (c + (c - b) / 2 + 4 / 3 * m) <= lo /\
  hi <= Rmax (Rmax c d) ((c + d) / 2 - p / 2) /\ hi <= Rmax (Rmax c (c + 4 * (c - b))) (c + (c - b) / 2 + 4 / 3 * m).
Proof.
  unfold mp5_bounds. intros E. injection E as <- <-. eexists. eexists. split; [reflexivity|]. split; [reflexivity|].
  set (p := MINMOD (MINMOD _ _) (MINMOD _ (c + e - 2 * d))). set (m := MINMOD (MINMOD _ _) (MINMOD _ (a + c - 2 * b))). clearbody p m.
  replace ((c + d) / 2 - p / 2) with (5 / 10 * (c + d) - 5 / 10 * p) by field.
  replace (c + (c - b) / 2 + 4 / 3 * m) with (5 / 10 * (3 * c - b) + 4 / 3 * m) by field.
  split; [apply Rmax_l|]. split; [apply Rmax_r|]. split; [apply Rmin_l|apply Rmin_r].
Qed.
Lemma bounds_neighbours a b c d e lo hi : mp5_bounds a b c d e = (lo, hi) ->
  (b + d - 2 * c) * (c + e - 2 * d) <= 0 -> Rmin c d <= lo /\ hi <= Rmax c d.
Proof.
  intros E H. destruct (bounds_parts _ _ _ _ _ _ _ E) as (p & m & -> & _ & A & _ & B & _).
  rewrite (minmod_zero (b + d - 2 * c) (c + e - 2 * d) H), minmod_zero_r in A, B.
  revert A B. minmax; lra.
Qed.
Lemma bounds_upstream a b c d e lo hi : mp5_bounds a b c d e = (lo, hi) ->
  (b + d - 2 * c) * (a + c - 2 * b) <= 0 ->
  Rmin c (c + 4 * (c - b)) <= lo /\ hi <= Rmax c (c + 4 * (c - b)).
Proof.
  intros E H. destruct (bounds_parts _ _ _ _ _ _ _ E) as (p & m & _ & -> & _ & A & _ & B).
  rewrite (minmod_zero (b + d - 2 * c) (a + c - 2 * b) H), minmod_zero_r in A, B.
  revert A B. minmax; lra.
Qed.
Lemma bounds_relaxed a b c d e lo hi : mp5_bounds a b c d e = (lo, hi) ->
  let k := Rmin (Rabs (b + d - 2 * c)) (Rabs (c + e - 2 * d)) in
  Rmin c d - k / 2 <= lo /\ hi <= Rmax c d + k / 2 /\
  (0 < b + d - 2 * c -> hi <= Rmax c d) /\ (b + d - 2 * c < 0 -> Rmin c d <= lo).
Proof.
  intros E k. destruct (bounds_parts _ _ _ _ _ _ _ E) as (p & m & Ep & _ & A & _ & B & _).
  set (q := MINMOD (b + d - 2 * c) (c + e - 2 * d)) in *.
  pose proof (minmod_abs (b + d - 2 * c) (c + e - 2 * d)) as (K1 & K2 & _). fold q k in K1, K2.
  pose proof (minmod_abs (MINMOD (4 * (b + d - 2 * c) - (c + e - 2 * d)) (4 * (c + e - 2 * d) - (b + d - 2 * c))) q) as (L1 & _ & L2).
  rewrite <- Ep in L1, L2. assert (L3 : Rabs p <= Rabs q) by (eapply Rle_trans; [exact L1|apply Rmin_r]).
  clearbody k. clear E Ep L1.
  assert (SGN : (0 < b + d - 2 * c -> 0 <= p) /\ (b + d - 2 * c < 0 -> p <= 0)).
  { assert (Z : q = 0 -> p = 0) by (intros Z; rewrite Z, Rabs_R0 in L3; pose proof (Rabs_pos p); destruct (Req_dec p 0); trivial; apply Rabs_no_R0 in H0; lra).
    destruct (Req_dec q 0) as [Q|Q]; [rewrite (Z Q); lra|]. split; intros S; nra. }
  clearbody q. assert (L4 : Rabs p <= k) by lra. clear L3 K1 L2 K2 q.
  assert (P : - k <= p <= k) by (revert L4; rabs; lra).
  split; [revert A; minmax; lra|]. split; [revert B; minmax; lra|].
  split; intros S; [assert (0 <= p) by now apply SGN|assert (p <= 0) by now apply SGN]; [revert B|revert A]; minmax; lra.
Qed.
Lemma fmp_mono b c d :
  ((c - b) * (d - c) <= 0 -> mp5_fmp b c d = c) /\
  (b <= c <= d -> mp5_fmp b c d = Rmin d (c + 4 * (c - b))) /\
  (d <= c <= b -> mp5_fmp b c d = Rmax d (c + 4 * (c - b))).
Proof.
  unfold mp5_fmp. split; [intros H; rewrite minmod_zero; nra|].
  unfold MINMOD. split; intros H.
  - destruct (Rltb_spec 0 ((d - c) * (4 * (c - b)))) as [P|P].
    + rewrite (Rabs_right (d - c)), (Rabs_right (4 * (c - b))) by lra. rcases; minmax; lra.
    + assert (d = c \/ c = b) as [-> | ->] by (destruct (Req_dec d c); [tauto|right; nra]); minmax; lra.
  - destruct (Rltb_spec 0 ((d - c) * (4 * (c - b)))) as [P|P].
    + rewrite (Rabs_left1 (d - c)), (Rabs_left1 (4 * (c - b))) by lra. rcases; minmax; lra.
    + assert (d = c \/ c = b) as [-> | ->] by (destruct (Req_dec d c); [tauto|right; nra]); minmax; lra.
Qed.
Lemma mp5_linear u v : mp5 (u - 2 * v) (u - v) u (u + v) (u + 2 * v) = (u - v / 2, u + v / 2).
Proof.
  unfold mp5. f_equal.
  - rewrite mp5_inactive; [unfold mp5_high; field|].
    destruct (fmp_mono (u + v) u (u - v)) as (_ & A & B). unfold mp5_high, between.
    destruct (Rle_dec 0 v); [rewrite B|rewrite A]; try lra; minmax; lra.
  - rewrite mp5_inactive; [unfold mp5_high; field|].
    destruct (fmp_mono (u - v) u (u + v)) as (_ & A & B). unfold mp5_high, between.
    destruct (Rle_dec 0 v); [rewrite A|rewrite B]; try lra; minmax; lra.
Qed.
