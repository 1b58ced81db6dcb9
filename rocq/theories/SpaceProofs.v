(** 3+1 space-times: inner products, inverse, velocities. *)
From Coq Require Import Reals Bool Lia Lra.
From Verif Require Import RLib FluxModel GeomModel GeomSpec GeomProofs.
Open Scope R_scope.

Lemma dot2_inner G a b : dot2 G a b = inner G a b.
Proof. unfold dot2, inner, sum4, sigma4. ring. Qed.
Lemma inner_sym G a b : symmetric G -> inner G a b = inner G b a.
Proof.
  intros S. unfold inner, sigma4.
  rewrite (S 1%nat 0%nat), (S 2%nat 0%nat), (S 3%nat 0%nat), (S 2%nat 1%nat), (S 3%nat 1%nat), (S 3%nat 2%nat) by lia. ring.
Qed.
Lemma inner_lower G a b : inner G a b = sigma4 (fun i => a i * lower b G i).
Proof. unfold inner, lower, sigma4. ring. Qed.

Definition shifted (beta v : nat -> R) : nat -> R := fun i => v i + beta i * v 0%nat.

Section ST.
Variables (G : mat) (alpha : R) (beta : vec).
Hypothesis ST : spacetime G alpha beta.

Lemma st_sym : symmetric G. Proof. apply ST. Qed.
Lemma st_split v w : inner G v w =
  - (alpha * alpha * v 0%nat * w 0%nat) + spatial G (shifted beta v) (shifted beta w).
Proof.
  destruct ST as (S & _ & _ & E0 & E). unfold inner, sigma4, spatial, shifted in *.
  rewrite (S 1%nat 0%nat), (S 2%nat 0%nat), (S 3%nat 0%nat) by lia. rewrite E0, !E by lia.
  rewrite (S 2%nat 1%nat), (S 3%nat 1%nat), (S 3%nat 2%nat) by lia. ring.
Qed.
Lemma sp_sym p q : spatial G p q = spatial G q p.
Proof.
  pose proof st_sym as S. unfold spatial. rewrite (S 2%nat 1%nat), (S 3%nat 1%nat), (S 3%nat 2%nat) by lia. ring.
Qed.
Lemma sp_nonneg p : 0 <= spatial G p p.
Proof.
  destruct ST as (_ & _ & P & _).
  destruct (Req_dec (p 1%nat) 0) as [E1|]; [|apply Rlt_le, P; auto].
  destruct (Req_dec (p 2%nat) 0) as [E2|]; [|apply Rlt_le, P; auto].
  destruct (Req_dec (p 3%nat) 0) as [E3|]; [|apply Rlt_le, P; auto].
  unfold spatial. rewrite E1, E2, E3. lra.
Qed.
Lemma sp_zero p : spatial G p p <= 0 -> p 1%nat = 0 /\ p 2%nat = 0 /\ p 3%nat = 0.
Proof.
  destruct ST as (_ & _ & P & _). intros H.
  destruct (Req_dec (p 1%nat) 0) as [E1|N]; [|assert (0 < spatial G p p) by (apply P; auto); lra].
  destruct (Req_dec (p 2%nat) 0) as [E2|N]; [|assert (0 < spatial G p p) by (apply P; auto); lra].
  destruct (Req_dec (p 3%nat) 0) as [E3|N]; [|assert (0 < spatial G p p) by (apply P; auto); lra]. auto.
Qed.
(** Cauchy-Schwarz *)
Lemma sp_cs p q : spatial G p q * spatial G p q <= spatial G p p * spatial G q q.
Proof.
  destruct (Rle_lt_dec (spatial G p p) 0) as [Z|Z].
  - destruct (sp_zero p Z) as (E1 & E2 & E3).
    assert (spatial G p q = 0) as -> by (unfold spatial; rewrite E1, E2, E3; ring).
    assert (spatial G p p = 0) as -> by (unfold spatial; rewrite E1, E2, E3; ring). lra.
  - set (t := spatial G p q / spatial G p p).
    pose proof (sp_nonneg (fun i => q i - t * p i)) as H.
    assert (E : spatial G (fun i => q i - t * p i) (fun i => q i - t * p i) =
                spatial G q q - 2 * t * spatial G p q + t * t * spatial G p p).
    { replace (2 * t * spatial G p q) with (t * spatial G p q + t * spatial G q p) by (rewrite (sp_sym q p); ring).
      unfold spatial. ring. }
    rewrite E in H. assert (T : t * spatial G p p = spatial G p q) by (unfold t; field; lra).
    clearbody t. nra.
Qed.

(** Vectors orthogonal to a timelike one are spacelike. *)
Lemma perp_spacelike u v : inner G u u < 0 -> inner G u v = 0 -> (exists i, (i < 4)%nat /\ v i <> 0) -> 0 < inner G v v.
Proof.
  intros U O (i & Hi & N). rewrite !st_split in *.
  set (q := shifted beta u) in *. set (p := shifted beta v) in *.
  pose proof (sp_cs q p) as CS. pose proof (sp_nonneg q) as Nq. pose proof (sp_nonneg p) as Np.
  pose proof (proj1 (proj2 ST)) as Ha.
  destruct (Rlt_le_dec 0 (- (alpha * alpha * v 0%nat * v 0%nat) + spatial G p p)) as [|L]; [assumption|exfalso].
  destruct (Req_dec (v 0%nat) 0) as [Z|Z].
  - rewrite Z in L. assert (Q : spatial G p p <= 0) by lra. apply sp_zero in Q. destruct Q as (A & B & C).
    unfold p, shifted in A, B, C. rewrite Z in A, B, C.
    apply N. revert i Hi N. intros i Hi _. revert i Hi. apply four_cases; lra.
  - assert (V : 0 < v 0%nat * v 0%nat) by (destruct (Rtotal_order (v 0%nat) 0) as [|[|]]; [nra|contradiction|nra]).
    assert (A2 : 0 < alpha * alpha) by nra.
    set (X := spatial G q q) in *. set (Y := spatial G p p) in *. set (W := spatial G q p) in *.
    assert (EW : W = alpha * alpha * u 0%nat * v 0%nat) by lra.
    assert (B1 : X * Y <= X * (alpha * alpha * (v 0%nat * v 0%nat))) by (apply Rmult_le_compat_l; lra).
    assert (U2 : X < alpha * alpha * (u 0%nat * u 0%nat)) by lra.
    rewrite EW in CS.
    assert (B2 : X * (alpha * alpha * (v 0%nat * v 0%nat)) < alpha * alpha * (u 0%nat * u 0%nat) * (alpha * alpha * (v 0%nat * v 0%nat))).
    { apply Rmult_lt_compat_r; [apply Rmult_lt_0_compat; lra|exact U2]. }
    replace (alpha * alpha * (u 0%nat * u 0%nat) * (alpha * alpha * (v 0%nat * v 0%nat))) with
      (alpha * alpha * u 0%nat * v 0%nat * (alpha * alpha * u 0%nat * v 0%nat)) in B2 by ring. lra.
Qed.

(** Determinants *)
Definition det3 : R :=
  G 1%nat 1%nat * (G 2%nat 2%nat * G 3%nat 3%nat - G 2%nat 3%nat * G 2%nat 3%nat) -
  G 1%nat 2%nat * (G 1%nat 2%nat * G 3%nat 3%nat - G 2%nat 3%nat * G 1%nat 3%nat) +
  G 1%nat 3%nat * (G 1%nat 2%nat * G 2%nat 3%nat - G 2%nat 2%nat * G 1%nat 3%nat).
Lemma det3_pos : 0 < det3.
Proof.
  pose proof st_sym as S. destruct ST as (_ & _ & P & _).
  assert (A : 0 < G 1%nat 1%nat).
  { assert (H : 0 < spatial G (delta 1) (delta 1)) by (apply P; left; unfold delta; cbn; lra).
    unfold spatial, delta in H. cbn [Nat.eqb] in H. lra. }
  assert (B : 0 < G 1%nat 1%nat * G 2%nat 2%nat - G 1%nat 2%nat * G 1%nat 2%nat).
  { assert (H : 0 < spatial G (fun i => match i with 1%nat => - G 1%nat 2%nat | 2%nat => G 1%nat 1%nat | _ => 0 end)
                       (fun i => match i with 1%nat => - G 1%nat 2%nat | 2%nat => G 1%nat 1%nat | _ => 0 end)) by (apply P; right; left; lra).
    unfold spatial in H. rewrite (S 2%nat 1%nat) in H by lia.
    replace (_ + _ + _) with (G 1%nat 1%nat * (G 1%nat 1%nat * G 2%nat 2%nat - G 1%nat 2%nat * G 1%nat 2%nat)) in H by ring.
    nra. }
  set (m := G 1%nat 1%nat * G 2%nat 2%nat - G 1%nat 2%nat * G 1%nat 2%nat) in *.
  pose (w := fun i : nat => match i with
     | 1%nat => G 1%nat 2%nat * G 2%nat 3%nat - G 1%nat 3%nat * G 2%nat 2%nat
     | 2%nat => G 1%nat 2%nat * G 1%nat 3%nat - G 1%nat 1%nat * G 2%nat 3%nat
     | _ => m end).
  assert (H : 0 < spatial G w w) by (apply P; right; right; cbn; lra).
  unfold spatial, w in H. rewrite (S 2%nat 1%nat), (S 3%nat 1%nat), (S 3%nat 2%nat) in H by lia.
  replace (_ + _ + _) with (det3 * m) in H by (unfold m, det3; ring). nra.
Qed.
Lemma st_det : determinant (flat G) = - (alpha * alpha * det3).
Proof.
  destruct ST as (S & _ & _ & E0 & E).
  unfold determinant, MINOR, flat, det3. cbn [Nat.mul Nat.add Nat.div Nat.modulo Nat.divmod fst snd Nat.sub].
  rewrite (S 1%nat 0%nat), (S 2%nat 0%nat), (S 3%nat 0%nat) by lia. rewrite E0, !E by lia. unfold spatial.
  rewrite (S 2%nat 1%nat), (S 3%nat 1%nat), (S 3%nat 2%nat) by lia. ring.
Qed.
Lemma st_alpha : 0 < alpha. Proof. apply ST. Qed.
Lemma st_det_neg : determinant (flat G) < 0.
Proof. rewrite st_det. pose proof det3_pos. pose proof st_alpha. assert (0 < alpha * alpha) by nra. nra. Qed.

Notation gcon := (fst (gcon_func G)).
Lemma st_inv : inverse G gcon /\ inverse gcon G.
Proof. apply gcon_inverse. pose proof st_det_neg. lra. Qed.

(** Row 0 of the inverse. *)
Definition row0 (i : nat) : R := (if Nat.eqb i 0 then - 1 else beta i) / (alpha * alpha).
Lemma row0_G : forall j, (j < 4)%nat -> sigma4 (fun i => row0 i * G i j) = delta 0 j.
Proof.
  pose proof st_alpha as Ha. destruct ST as (S & _ & _ & E0 & E).
  apply four_cases; unfold sigma4, row0, delta; cbn [Nat.eqb].
  - rewrite (S 1%nat 0%nat), (S 2%nat 0%nat), (S 3%nat 0%nat) by lia. rewrite E0, !E by lia. unfold spatial. field. lra.
  - rewrite E by lia. rewrite (S 2%nat 1%nat), (S 3%nat 1%nat) by lia. field. lra.
  - rewrite E by lia. rewrite (S 2%nat 1%nat), (S 3%nat 2%nat) by lia. field. lra.
  - rewrite E by lia. rewrite (S 3%nat 1%nat), (S 3%nat 2%nat) by lia. field. lra.
Qed.
Lemma gcon_row0 : forall i, (i < 4)%nat -> gcon 0%nat i = row0 i.
Proof.
  intros i Hi. destruct st_inv as [R _]. set (C := gcon) in *. clearbody C.
  transitivity (sigma4 (fun k => delta 0 k * C k i)).
  - unfold sigma4, delta. cbn [Nat.eqb]. ring.
  - transitivity (sigma4 (fun k => sigma4 (fun l => row0 l * G l k) * C k i)).
    + unfold sigma4 at 1 2. rewrite !row0_G by lia. reflexivity.
    + transitivity (sigma4 (fun l => row0 l * sigma4 (fun k => G l k * C k i))).
      * unfold sigma4. ring.
      * unfold sigma4 at 1. rewrite !(fun k (Hk : (k < 4)%nat) => R k i Hk Hi) by lia.
        revert i Hi. apply four_cases; unfold delta; cbn [Nat.eqb]; ring.
Qed.
Lemma gcon_00 : gcon 0%nat 0%nat = - / (alpha * alpha).
Proof. rewrite gcon_row0 by lia. unfold row0. cbn [Nat.eqb]. pose proof st_alpha. field. lra. Qed.
Lemma gcon_0i i : (1 <= i < 4)%nat -> gcon 0%nat i = beta i / (alpha * alpha).
Proof. intros H. rewrite gcon_row0 by lia. unfold row0. destruct i; [lia|]. reflexivity. Qed.
Lemma lapse_alpha : lapse gcon = alpha.
Proof.
  unfold lapse. rewrite gcon_00, Ropp_involutive. pose proof st_alpha as Ha.
  replace (/ (alpha * alpha)) with (/ alpha * / alpha) by (field; lra).
  rewrite sqrt_square; [field; lra|]. apply Rlt_le, Rinv_0_lt_compat, Ha.
Qed.

(** ** Velocities *)
Lemma qsq_spatial U : qsq_of G U = spatial G U U.
Proof.
  pose proof st_sym as S. unfold qsq_of, spatial.
  rewrite (S 2%nat 1%nat), (S 3%nat 1%nat), (S 3%nat 2%nat) by lia. ring.
Qed.
Lemma gamma_defined U : mhd_gamma_calc G U = Some (sqrt (1 + spatial G U U)).
Proof.
  unfold mhd_gamma_calc. rewrite qsq_spatial. rewrite Rltb_false by apply sp_nonneg. reflexivity.
Qed.
Lemma gamma_ge1 U : 1 <= sqrt (1 + spatial G U U).
Proof. rewrite <- sqrt_1 at 1. apply sqrt_le_1_alt. pose proof (sp_nonneg U). lra. Qed.

Lemma ucon_ok U : exists u, ucon_calc G gcon (lapse gcon) U = Some u /\
  inner G u u = -1 /\ 0 < u 0%nat /\ same4 (ucon_to_utcon gcon u) (fun i => if Nat.eqb i 0 then 0 else U i) /\
  (forall i, (1 <= i < 4)%nat -> shifted beta u i = U i) /\ alpha * u 0%nat = sqrt (1 + spatial G U U).
Proof.
  unfold ucon_calc. rewrite gamma_defined, lapse_alpha. set (g := sqrt (1 + spatial G U U)).
  pose proof (gamma_ge1 U) as G1. fold g in G1. pose proof st_alpha as Ha.
  assert (G2 : g * g = 1 + spatial G U U) by (apply sqrt_sqrt; pose proof (sp_nonneg U); lra).
  clearbody g. eexists. split; [reflexivity|]. cbn [Nat.eqb].
  set (u := fun j : nat => if (j =? 0)%nat then g / alpha else U j - g * alpha * gcon 0%nat j).
  assert (SH : forall i, (1 <= i < 4)%nat -> shifted beta u i = U i).
  { intros i Hi. unfold shifted, u. rewrite gcon_0i by exact Hi. destruct i; [lia|]. cbn [Nat.eqb]. field. lra. }
  split; [|split; [|split; [|split]]].
  - rewrite st_split.
    replace (spatial G (shifted beta u) (shifted beta u)) with (spatial G U U)
      by (unfold spatial; rewrite !SH by lia; reflexivity).
    unfold u at 1 2. cbn [Nat.eqb]. replace (alpha * alpha * (g / alpha) * (g / alpha)) with (g * g) by (field; lra). lra.
  - apply Rdiv_lt_0_compat; lra.
  - intros i Hi. unfold ucon_to_utcon. fold (lapse gcon). rewrite lapse_alpha.
    destruct (Nat.eqb_spec i 0) as [->|N]; [reflexivity|].
    rewrite <- (SH i) by lia. unfold shifted. rewrite gcon_0i by lia.
    unfold u. cbn [Nat.eqb]. field. lra.
  - exact SH.
  - cbn [Nat.eqb]. field. lra.
Qed.

Lemma utcon_ok u : inner G u u = -1 -> 0 < u 0%nat ->
  exists u', ucon_calc G gcon (lapse gcon) (ucon_to_utcon gcon u) = Some u' /\ same4 u' u.
Proof.
  intros N P. pose proof st_alpha as Ha.
  assert (E : forall i, (1 <= i < 4)%nat -> ucon_to_utcon gcon u i = shifted beta u i).
  { intros i Hi. unfold ucon_to_utcon. fold (lapse gcon). rewrite lapse_alpha. rewrite gcon_0i by exact Hi.
    destruct i; [lia|]. cbn [Nat.eqb]. unfold shifted. field. lra. }
  unfold ucon_calc. rewrite gamma_defined, lapse_alpha.
  assert (S : sqrt (1 + spatial G (ucon_to_utcon gcon u) (ucon_to_utcon gcon u)) = alpha * u 0%nat).
  { replace (spatial G (ucon_to_utcon gcon u) (ucon_to_utcon gcon u)) with (spatial G (shifted beta u) (shifted beta u))
      by (unfold spatial; rewrite !E by lia; reflexivity).
    rewrite st_split in N. replace (1 + _) with (alpha * u 0%nat * (alpha * u 0%nat)) by lra. apply sqrt_square. nra. }
  rewrite S. eexists. split; [reflexivity|]. intros i Hi. destruct (Nat.eqb_spec i 0) as [->|Z].
  - field. lra.
  - rewrite E, gcon_0i by lia. unfold shifted. field. lra.
Qed.

(** bcon_calc on a normalised velocity *)
Lemma bcon_ok B u : inner G u u = -1 -> u 0%nat <> 0 ->
  let b := bcon B u (lower u G) in
  let Bv := fun i => if Nat.eqb i 0 then 0 else B i in
  inner G b u = 0 /\
  inner G b b = (inner G Bv Bv + inner G Bv u * inner G Bv u) / (u 0%nat * u 0%nat) /\
  (forall m, (1 <= m < 4)%nat -> b m * u 0%nat - b 0%nat * u m = B m).
Proof.
  intros N U0 b Bv.
  set (b0 := B 1%nat * lower u G 1%nat + B 2%nat * lower u G 2%nat + B 3%nat * lower u G 3%nat).
  assert (Eb0 : inner G Bv u = b0).
  { rewrite inner_lower. unfold sigma4, Bv, b0. cbn [Nat.eqb]. ring. }
  assert (Eb : forall i, (i < 4)%nat -> b i = (Bv i + b0 * u i) / u 0%nat).
  { apply four_cases; unfold b, bcon, Bv; cbn [Nat.eqb]; fold b0; [field; exact U0|reflexivity|reflexivity|reflexivity]. }
  assert (L : forall w, inner G b w = (inner G Bv w + b0 * inner G u w) / u 0%nat).
  { intros w. unfold inner, sigma4. rewrite !Eb by lia. field. exact U0. }
  pose proof st_sym as S.
  split; [|split].
  - rewrite L, Eb0, N. field. exact U0.
  - rewrite L. rewrite (inner_sym G Bv b S), (inner_sym G u b S), !L, (inner_sym G u Bv S), Eb0, N. field. exact U0.
  - intros m Hm. rewrite !Eb by lia. unfold Bv. cbn [Nat.eqb]. destruct m; [lia|]. cbn [Nat.eqb]. field. exact U0.
Qed.

(** fixup.c: ut_calc_3vel ignores subluminal velocities. *)
Lemma ut_timelike v : let w := fun i => if Nat.eqb i 0 then 1 else v i in
  inner G w w < 0 -> ut_calc_3vel G gcon v = / alpha.
Proof.
  intros w T. pose proof st_alpha as Ha. pose proof st_sym as S.
  unfold ut_calc_3vel.
  replace (G 0%nat 0%nat + 2 * (G 0%nat 1%nat * v 1%nat + G 0%nat 2%nat * v 2%nat + G 0%nat 3%nat * v 3%nat) + qsq_of G v)
    with (inner G w w).
  - assert (N : 1 / inner G w w < 0).
    { unfold Rdiv. rewrite Rmult_1_l. now apply Rinv_lt_0_compat. }
    assert (P : 0 < / (alpha * alpha)) by (apply Rinv_0_lt_compat; nra).
    rewrite gcon_00, Ropp_involutive, Rltb_true by lra.
    replace (/ (alpha * alpha)) with (/ alpha * / alpha) by (field; lra).
    apply sqrt_square. apply Rlt_le, Rinv_0_lt_compat, Ha.
  - rewrite qsq_spatial. unfold inner, sigma4, spatial, w. cbn [Nat.eqb].
    rewrite (S 1%nat 0%nat), (S 2%nat 0%nat), (S 3%nat 0%nat) by lia. ring.
Qed.

(** Gamma limit *)
Lemma limit_ok U V : limit_gamma G U = (V, true) ->
  (exists f, 0 < f <= 1 /\ forall i, V i = f * U i) /\
  (exists g, mhd_gamma_calc G V = Some g /\ g <= GAMMAMAX /\
     forall g0, mhd_gamma_calc G U = Some g0 -> g = Rmin g0 GAMMAMAX).
Proof.
  unfold limit_gamma. rewrite gamma_defined. set (g := sqrt (1 + spatial G U U)).
  pose proof (gamma_ge1 U) as G1. fold g in G1.
  assert (G2 : g * g = 1 + spatial G U U) by (apply sqrt_sqrt; pose proof (sp_nonneg U); lra).
  destruct (Rltb_spec GAMMAMAX g) as [L|L]; intros E; injection E as <-.
  - unfold GAMMAMAX in *.
    assert (P : 0 < g * g - 1) by nra.
    set (x := (50 * 50 - 1) / (g * g - 1)).
    assert (X0 : 0 < x) by (apply Rdiv_lt_0_compat; lra).
    assert (X1 : x <= 1) by (apply Rmult_le_reg_r with (g * g - 1); [exact P|]; unfold x, Rdiv; rewrite Rmult_assoc, Rinv_l by lra; nra).
    assert (F0 : 0 < sqrt x) by now apply sqrt_lt_R0.
    assert (FF : sqrt x * sqrt x = x) by (apply sqrt_sqrt; lra).
    split.
    + exists (sqrt x). split; [split; [exact F0|]|intros; ring]. rewrite <- sqrt_1. now apply sqrt_le_1_alt.
    + exists 50. rewrite gamma_defined.
      assert (Q : spatial G (fun i => U i * sqrt x) (fun i => U i * sqrt x) = 50 * 50 - 1).
      { transitivity (sqrt x * sqrt x * spatial G U U); [unfold spatial; ring|]. rewrite FF.
        replace (spatial G U U) with (g * g - 1) by lra. unfold x. field. lra. }
      rewrite Q. split; [|split; [lra|]].
      * f_equal. replace (1 + (50 * 50 - 1)) with (50 * 50) by ring. apply sqrt_square. lra.
      * intros g0 E. injection E as <-. rewrite Rmin_right; lra.
  - split; [exists 1; split; [lra|intros; ring]|]. exists g. rewrite gamma_defined. split; [reflexivity|]. split; [lra|].
    intros g0 E. injection E as <-. fold g. rewrite Rmin_left; lra.
Qed.
Lemma limit_flag U : snd (limit_gamma G U) = true.
Proof. unfold limit_gamma. rewrite gamma_defined. destruct (Rltb GAMMAMAX _); reflexivity. Qed.
End ST.
