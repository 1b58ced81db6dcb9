(** Horizon, innermost stable orbit and inner edge of the grid; Cartesian to spherical. *)
From Coq Require Import Reals Bool List Lia Lra Psatz.
From Coquelicot Require Import Coquelicot.
From Verif Require Import RLib CrdModel CrdSpec.
Open Scope R_scope.

Lemma cbrt_ok x : 0 <= x -> 0 <= cbrt x /\ cbrt x * cbrt x * cbrt x = x.
Proof.
  intros H. unfold cbrt. destruct (Rltb_spec 0 x) as [P|P]; [|split; lra].
  split; [left; apply exp_pos|]. rewrite <- !Rpower_plus. replace (1 / 3 + 1 / 3 + 1 / 3) with 1 by field. apply Rpower_1, P.
Qed.
Lemma cube_lt x y : 0 <= x -> x < y -> x * x * x < y * y * y.
Proof.
  intros X L. assert (0 < y * y) by nra. assert (x * x <= y * y) by nra.
  apply Rle_lt_trans with (y * y * x); [apply Rmult_le_compat_r|apply Rmult_lt_compat_l]; lra.
Qed.
Lemma cube_inj x y : 0 <= x -> 0 <= y -> x * x * x = y * y * y -> x = y.
Proof. intros X Y E. destruct (Rtotal_order x y) as [L|[L|L]]; auto; exfalso; apply cube_lt in L; lra. Qed.
Section Hole.
Variable a : R.
Hypothesis A1 : -1 < a < 1.
Notation Z1 := (z1 a).
Notation Z2 := (z2 a).
Lemma z1_cubic : Z1 * Z1 * Z1 - 3 * Z1 * Z1 + 3 * a * a * Z1 - a * a = 0 /\ 1 <= Z1.
Proof.
  destruct (cbrt_ok (1 + a) ltac:(lra)) as (U0 & U). destruct (cbrt_ok (1 - a) ltac:(lra)) as (V0 & V). destruct (cbrt_ok (1 - a * a) ltac:(nra)) as (W0 & W).
  unfold z1. set (u := cbrt (1 + a)) in *. set (v := cbrt (1 - a)) in *. set (w := cbrt (1 - a * a)) in *. clearbody u v w.
  assert (E : w = u * v).
  { apply cube_inj; auto; [nra|]. rewrite W. replace (u * v * (u * v) * (u * v)) with ((u * u * u) * (v * v * v)) by ring. rewrite U, V. ring. }
  subst w. assert (0 <= u * v) by nra. split; [|nra].
  assert (H3 : (u * v * (u + v)) * (u * v * (u + v)) * (u * v * (u + v)) = (1 - a * a) * (2 + 3 * (u * v * (u + v)))).
  { replace (u * v * (u + v) * (u * v * (u + v)) * (u * v * (u + v))) with ((u * u * u) * (v * v * v) * ((u * u * u) + (v * v * v) + 3 * (u * v * (u + v)))) by ring.
    rewrite U, V. ring. }
  set (w := u * v * (u + v)) in *. clearbody w.
  replace ((1 + w) * (1 + w) * (1 + w) - 3 * (1 + w) * (1 + w) + 3 * a * a * (1 + w) - a * a) with (w * w * w - (1 - a * a) * (2 + 3 * w)) by ring. lra.
Qed.
Lemma z1_le : Z1 <= 3.
Proof.
  destruct z1_cubic as (C & L). set (z := Z1) in *. clearbody z. destruct (Rle_dec z 3) as [|N]; auto. exfalso.
  assert (z * z * (z - 3) + a * a * (3 * z - 1) = 0) by lra. assert (0 < z * z * (z - 3)) by (apply Rmult_lt_0_compat; nra). assert (0 <= a * a * (3 * z - 1)) by (apply Rmult_le_pos; nra). lra.
Qed.
Lemma z2_ok : Z2 * Z2 = 3 * a * a + Z1 * Z1 /\ Z1 <= Z2 <= 3.
Proof.
  destruct z1_cubic as (C & L). pose proof z1_le as U. unfold z2. set (z := Z1) in *. clearbody z.
  assert (P : 0 <= 3 * a * a + z * z) by nra. split; [apply sqrt_sqrt, P|]. split.
  - rewrite <- (sqrt_square z) at 1 by lra. apply sqrt_le_1_alt. nra.
  - apply Rle_trans with (sqrt (3 * 3)); [|rewrite sqrt_square; lra]. apply sqrt_le_1_alt.
    assert (Q : a * a * (3 * z - 1) = z * z * (3 - z)) by lra. apply Rmult_le_reg_l with (3 * z - 1); [lra|].
    replace ((3 * z - 1) * (3 * a * a + z * z)) with (3 * (a * a * (3 * z - 1)) + (3 * z - 1) * (z * z)) by ring. rewrite Q. nra.
Qed.
Notation q a r := (r * r * r * r - 12 * (r * r * r) + (36 - 6 * a * a) * (r * r) - 28 * a * a * r + 9 * a * a * a * a).
Lemma isco_quartic : (Risco a * Risco a - 6 * Risco a - 3 * a * a) * (Risco a * Risco a - 6 * Risco a - 3 * a * a) = 64 * a * a * Risco a /\ 0 < Risco a <= 6.
Proof.
  destruct z1_cubic as (C & L). pose proof z1_le as U. destruct z2_ok as (S & L2 & U2). unfold Risco. set (z := Z1) in *. set (w := Z2) in *. clearbody z w.
  assert (P : 0 <= (3 - z) * (3 + z + 2 * w)) by (apply Rmult_le_pos; lra). pose proof (sqrt_sqrt _ P) as Q. pose proof (sqrt_pos ((3 - z) * (3 + z + 2 * w))) as QP.
  set (s := sqrt _) in *. clearbody s. set (r := 3 + w - s).
  assert (R2 : r * r - 2 * (3 + w) * r + (z + w) * (z + w) = 0) by (unfold r; nra).
  split.
  - assert (F : (r * r - 6 * r - 3 * a * a) * (r * r - 6 * r - 3 * a * a) - 64 * a * a * r =
      (r * r - 2 * (3 + w) * r + (z + w) * (z + w)) * (r * r - 2 * (3 - w) * r + (z - w) * (z - w))).
    { assert (A2 : a * a = (w * w - z * z) / 3) by lra.
      assert (C2 : 12 * z * z + 18 * (a * a) - 4 * z * z * z - 12 * (a * a) * z - 14 * (a * a) = 0) by lra.
      replace ((r * r - 6 * r - 3 * a * a) * (r * r - 6 * r - 3 * a * a) - 64 * a * a * r) with
        ((r * r - 6 * r - 3 * (a * a)) * (r * r - 6 * r - 3 * (a * a)) - 64 * (a * a) * r) by ring.
      set (b := a * a) in *. clearbody b. subst b.
      assert (C3 : 12 * z * z + 18 * ((w * w - z * z) / 3) - 4 * z * z * z - 12 * ((w * w - z * z) / 3) * z - 14 * ((w * w - z * z) / 3) = 0) by exact C2.
      apply Rminus_diag_uniq.
      transitivity (2 * r * (12 * z * z + 18 * ((w * w - z * z) / 3) - 4 * z * z * z - 12 * ((w * w - z * z) / 3) * z - 14 * ((w * w - z * z) / 3))); [field|rewrite C3; ring]. }
    rewrite R2 in F. lra.
  - split; [|unfold r; nra]. assert (s * s < (3 + w) * (3 + w)) by (rewrite Q; nra). unfold r. nra.
Qed.
(** in terms of the root of the radius *)
Lemma isco_x : let x := sqrt (Risco a) in 0 < x /\ x * x = Risco a /\ x ^ 4 - 6 * x ^ 2 + 8 * Rabs a * x - 3 * Rabs a ^ 2 = 0.
Proof.
  cbv zeta. destruct isco_quartic as (Q & P & U). pose proof (sqrt_lt_R0 _ P) as X. pose proof (sqrt_sqrt _ (Rlt_le _ _ P)) as E.
  set (r := Risco a) in *. set (x := sqrt r) in *. clearbody x r. split; auto. split; auto. subst r.
  assert (AA : Rabs a * Rabs a = a * a) by (rewrite <- Rabs_mult; apply Rabs_right; nra). pose proof (Rabs_pos a) as AP.
  set (b := Rabs a) in *. clearbody b.
  assert (N : x * x * (x * x) - 6 * (x * x) - 3 * a * a <= 0) by nra.
  assert (F : (- (x * x * (x * x) - 6 * (x * x) - 3 * a * a)) = 8 * b * x).
  { assert (SQ : forall u v : R, 0 <= u -> 0 <= v -> u * u = v * v -> u = v) by (intros; nra). apply SQ; [lra|apply Rmult_le_pos; lra|].
    replace (8 * b * x * (8 * b * x)) with (64 * (b * b) * (x * x)) by ring. rewrite AA. lra. }
  cbn [pow]. rewrite !Rmult_1_r, AA. lra.
Qed.
End Hole.

(** stationary energy *)
Definition sv (b x : R) : R := 4 - 3 * b / x.
Lemma en_d b x : orbit b x -> is_derive (energy2 b) x
  ((x ^ 3 - 2 * x + b) * 2 * x ^ 2 * (x ^ 4 - 6 * x ^ 2 + 8 * b * x - 3 * b ^ 2) / (x ^ 3 * (x ^ 3 - 3 * x + 2 * b)) ^ 2).
Proof.
  intros (X & _ & D). unfold energy2.
  assert (N : x ^ 3 * (x ^ 3 - 3 * x + 2 * b) <> 0) by (apply Rmult_integral_contrapositive; split; [apply pow_nonzero|]; lra).
  auto_derive; [exact N|]. cbn [INR Nat.pred]. field. split; lra.
Qed.

Lemma out1 b x : orbit b x -> 1 < x.
Proof. intros (X & H & _). pose proof (sqrt_pos (1 - b * b)). nra. Qed.
Lemma en_stat b x : orbit b x -> (is_derive (energy2 b) x 0 <-> x ^ 4 - 6 * x ^ 2 + 8 * b * x - 3 * b ^ 2 = 0).
Proof.
  intros O. pose proof (out1 b x O) as L. pose proof (en_d b x O) as D. destruct O as (X & _ & F).
  assert (N : x ^ 3 * (x ^ 3 - 3 * x + 2 * b) <> 0) by (apply Rmult_integral_contrapositive; split; [apply pow_nonzero|]; lra).
  assert (M : 0 < x ^ 3 - 2 * x + b).
  { assert (0 < x ^ 3 - x); [|lra]. replace (x ^ 3 - x) with (x * (x * x - 1)) by ring. apply Rmult_lt_0_compat; nra. }
  set (Q := x ^ 4 - 6 * x ^ 2 + 8 * b * x - 3 * b ^ 2) in *. set (m := x ^ 3 - 2 * x + b) in *. set (d := x ^ 3 * (x ^ 3 - 3 * x + 2 * b)) in *.
  split; intros H.
  - apply is_derive_unique in D. apply is_derive_unique in H. rewrite H in D. symmetry in D. clearbody Q m d.
    assert (E : m * 2 * x ^ 2 * Q = 0) by (replace (m * 2 * x ^ 2 * Q) with (m * 2 * x ^ 2 * Q / d ^ 2 * d ^ 2) by (field; auto); rewrite D; ring).
    apply Rmult_integral in E. destruct E as [E|E]; auto. exfalso. assert (0 < m * 2 * x ^ 2); [|lra]. apply Rmult_lt_0_compat; [lra|apply pow_lt, X].
  - replace 0 with (m * 2 * x ^ 2 * Q / d ^ 2); [exact D|]. rewrite H. clearbody m d. field. exact N.
Qed.
(** a root of the quartic in terms of s = 4 - 3 b / x *)
Lemma root_s b x : 0 < x -> x ^ 4 - 6 * x ^ 2 + 8 * b * x - 3 * b ^ 2 = 0 -> exists s, 3 * b = x * (4 - s) /\ 3 * (x * x) = s * s + 2.
Proof.
  intros X Q. exists (4 - 3 * b / x). split; [field; lra|].
  assert (E : 3 * (x * x) * (x * x) = ((4 - 3 * b / x) * (4 - 3 * b / x) + 2) * (x * x)).
  { replace (((4 - 3 * b / x) * (4 - 3 * b / x) + 2) * (x * x)) with (18 * x ^ 2 - 24 * b * x + 9 * b ^ 2) by (field; lra). replace (3 * (x * x) * (x * x)) with (3 * x ^ 4) by ring. lra. }
  apply Rmult_eq_reg_r with (x * x); auto. nra.
Qed.
Lemma s_b b x s : 3 * b = x * (4 - s) -> 3 * (x * x) = s * s + 2 -> 27 * (b * b - 1) = (s - 1) * (s - 1) * (s - 1) * (s - 1 - 4).
Proof.
  intros B E. assert (9 * (b * b) = x * x * ((4 - s) * (4 - s))) by (replace (9 * (b * b)) with ((3 * b) * (3 * b)) by ring; rewrite B; ring).
  assert (27 * (b * b) = (3 * (x * x)) * ((4 - s) * (4 - s))) by lra. rewrite E in H0. lra.
Qed.
Lemma s_gt1 b x s : 0 <= b < 1 -> 0 < x -> 3 * b = x * (4 - s) -> 3 * (x * x) = s * s + 2 -> 1 < s <= 4.
Proof.
  intros B X E F. split; [|nra]. destruct (Rlt_dec 1 s) as [|N]; auto. exfalso. pose proof (s_b b x s E F) as G.
  assert (0 <= (s - 1) * (s - 1) * (s - 1) * (s - 1 - 4)).
  { replace ((s - 1) * (s - 1) * (s - 1) * (s - 1 - 4)) with (((s - 1) * (s - 1)) * ((1 - s) * (5 - s))) by ring. apply Rmult_le_pos; [nra|apply Rmult_le_pos; lra]. }
  assert (b * b < 1) by nra. lra.
Qed.
Lemma s_inj p q : 0 < p <= 3 -> 0 < q <= 3 -> p * p * p * (p - 4) = q * q * q * (q - 4) -> p = q.
Proof.
  intros P Q E. destruct (Req_dec p q) as [|N]; auto. exfalso.
  assert (H : (p - q) * (p * p * (3 - p) + q * q * (3 - q) + (p - q) * (p - q) + p * q * (6 - p - q)) = 0) by lra.
  apply Rmult_integral in H. destruct H as [H|H]; [lra|].
  assert (0 <= p * p * (3 - p)) by (apply Rmult_le_pos; nra). assert (0 <= q * q * (3 - q)) by (apply Rmult_le_pos; nra).
  assert (0 <= p * q * (6 - p - q)) by (apply Rmult_le_pos; nra). assert (0 < (p - q) * (p - q)) by nra. lra.
Qed.
Lemma isco_orbit b x : 0 <= b < 1 -> 0 < x -> x ^ 4 - 6 * x ^ 2 + 8 * b * x - 3 * b ^ 2 = 0 -> orbit b x.
Proof.
  intros B X Q. destruct (root_s b x X Q) as (s & E & F). pose proof (s_gt1 b x s B X E F) as S.
  split; [auto|]. split.
  - assert (P : 0 <= 1 - b * b) by nra. assert (R1 : 1 < x * x) by nra.
    assert (D : 1 - b * b < (x * x - 1) * (x * x - 1)).
    { assert (G : 27 * ((x * x - 1) * (x * x - 1) - (1 - b * b)) = 4 * (s * s + 2) * ((s - 1) * (s - 1))).
      { pose proof (s_b b x s E F). assert (XX : x * x = (s * s + 2) / 3) by lra. rewrite XX. lra. }
      assert (0 < 4 * (s * s + 2) * ((s - 1) * (s - 1))) by (apply Rmult_lt_0_compat; nra). lra. }
    pose proof (sqrt_lt_1_alt _ _ (conj P D)) as D1. rewrite sqrt_square in D1 by lra. lra.
  - assert (G : 3 * (x ^ 3 - 3 * x + 2 * b) = x * ((s - 1) * (s - 1))).
    { replace (3 * (x ^ 3 - 3 * x + 2 * b)) with (x * (3 * (x * x)) - 9 * x + 2 * (3 * b)) by ring. rewrite E, F. ring. }
    assert (0 < x * ((s - 1) * (s - 1))) by (apply Rmult_lt_0_compat; nra). lra.
Qed.
Lemma isco_ok a : -1 < a < 1 -> orbit (Rabs a) (sqrt (Risco a)) /\
  forall x, orbit (Rabs a) x -> (is_derive (energy2 (Rabs a)) x 0 <-> x * x = Risco a).
Proof.
  intros A. destruct (isco_x a A) as (X0 & XX & Q). set (y := sqrt (Risco a)) in *. clearbody y.
  assert (B : 0 <= Rabs a < 1) by (split; [apply Rabs_pos|apply Rabs_def1; lra]). set (b := Rabs a) in *. clearbody b.
  split; [apply isco_orbit; auto|]. intros x O. rewrite (en_stat b x O). rewrite <- XX. destruct O as (X & _ & _). split; intros H.
  - destruct (root_s b x X H) as (s & E & F). destruct (root_s b y X0 Q) as (t & E' & F').
    pose proof (s_gt1 b x s B X E F). pose proof (s_gt1 b y t B X0 E' F'). pose proof (s_b b x s E F) as G. pose proof (s_b b y t E' F') as G'. rewrite G in G'.
    apply s_inj in G'; [|lra|lra]. assert (s = t) by lra. subst t. lra.
  - assert (x = y) by nra. subst x. exact Q.
Qed.
(** the horizon *)
Lemma horizon a : -1 < a < 1 -> Reh a * Reh a - 2 * Reh a + a * a = 0 /\ forall r, Reh a < r -> 0 < r * r - 2 * r + a * a.
Proof.
  intros A. unfold Reh. assert (P : 0 <= 1 - a * a) by nra. pose proof (sqrt_sqrt _ P). pose proof (sqrt_pos (1 - a * a)). set (s := sqrt _) in *. clearbody s.
  split; [nra|]. intros r R. nra.
Qed.
(** the inner edge *)
Lemma edge a Rout N : -1 < a < 1 -> Reh a < Rout -> (6 <= N)%nat ->
  0 < dx_1 a Rout N /\ startx_1 a Rout N + 11 / 2 * dx_1 a Rout N = ln (Reh a) /\ stopx_1 a Rout N = ln Rout.
Proof.
  intros A R N6. assert (HN : 6 <= INR N) by (replace 6 with (INR 6) by (cbn; lra); apply le_INR, N6).
  assert (RP : 1 <= Reh a) by (unfold Reh; pose proof (sqrt_pos (1 - a * a)); lra). assert (L : ln (Reh a) < ln Rout) by (apply ln_increasing; lra).
  unfold stopx_1, dx_1, startx_1, Rin. rewrite ln_exp. unfold Rdiv at 1 4 8. 
  assert (LD : forall u, ln (Rout * / exp u) = ln Rout - u).
  { intros u. rewrite ln_mult; [|lra|apply Rinv_0_lt_compat, exp_pos]. rewrite ln_Rinv by apply exp_pos. rewrite ln_exp. ring. }
  unfold Rdiv in *. rewrite !LD. set (e := ln (Reh a)) in *. set (o := ln Rout) in *. set (n := INR N) in *. clearbody e o n.
  assert (M : -1 + n * / (11 * / 2) <> 0) by (intros H; assert (n = 11 / 2) by lra; lra).
  assert (K : o - (n * e * / (11 * / 2) - o) * / (-1 + n * / (11 * / 2)) = n * (o - e) / (n - 11 / 2)) by (field; repeat split; lra).
  split; [|split].
  - rewrite K. apply Rmult_lt_0_compat; [|apply Rinv_0_lt_compat; lra]. apply Rdiv_lt_0_compat; [apply Rmult_lt_0_compat|]; lra.
  - field. repeat split; lra.
  - field. repeat split; lra.
Qed.
Lemma edge_small : exists a Rout N, -1 < a < 1 /\ Reh a < Rout /\ (0 < N)%nat /\ dx_1 a Rout N < 0.
Proof.
  exists 0, 4, 5%nat. assert (RE : Reh 0 = 2) by (unfold Reh; replace (1 - 0 * 0) with 1 by ring; rewrite sqrt_1; ring).
  repeat split; try lra; try lia. unfold dx_1, Rin. rewrite RE. unfold Rdiv at 2. rewrite ln_mult; [|lra|apply Rinv_0_lt_compat, exp_pos]. rewrite ln_Rinv by apply exp_pos. rewrite ln_exp.
  assert (L : ln 4 = 2 * ln 2) by (replace 4 with (2 * 2) by ring; rewrite ln_mult; lra). assert (0 < ln 2) by (rewrite <- ln_1; apply ln_increasing; lra).
  rewrite L. set (l := ln 2) in *. clearbody l. cbn [INR]. lra.
Qed.
