(** More lemmas about parabolic reconstruction (proofs of C119). *)
From Coq Require Import Reals Bool ZArith List Lia Lra Psatz.
From Verif Require Import RLib XLib IntLib ReconSpec PpmModel PpmSpec PpmProofs.
Import ListNotations.
Open Scope R_scope.

(** ** Exactness *)
Lemma dph0_cubic c0 c1 c2 c3 x :
  dph0 (zone_average c0 c1 c2 c3 0 (x - 3 / 2)) (zone_average c0 c1 c2 c3 0 (x - 1 / 2)) (zone_average c0 c1 c2 c3 0 (x + 1 / 2)) (zone_average c0 c1 c2 c3 0 (x + 3 / 2)) = poly c0 c1 c2 c3 0 x.
Proof. unfold dph0, zone_average, primitive_of, poly. field. Qed.

Lemma lim2_same z : lim2 z z z = z.
Proof.
  destruct (Rtotal_order z 0) as [H|[-> |H]].
  - rewrite <- (Ropp_involutive z). rewrite lim2_neg. f_equal. rewrite lim2_pos by lra. unfold C_lim. rewrite Rmin_right; apply Rmin_case_strong; lra || (intros; rewrite Rmin_right; lra).
  - now apply lim2_0; auto.
  - rewrite lim2_pos by lra. unfold C_lim. rewrite (Rmin_right _ z) by lra. apply Rmin_right. lra.
Qed.
Lemma lim3_same z : lim3 z z z z = z.
Proof.
  assert (P : forall z, 0 < z -> lim3 z z z z = z).
  { intros y H. rewrite lim3_pos by lra. unfold C_lim. rewrite (Rmin_right _ y) by lra. rewrite (Rmin_left (125 / 100 * y) (125 / 100 * y)) by lra. apply Rmin_right. lra. }
  destruct (Rtotal_order z 0) as [H|[-> |H]].
  - rewrite <- (Ropp_involutive z). rewrite lim3_neg. f_equal. apply P. lra.
  - now apply lim3_0; auto.
  - auto.
Qed.
Lemma face_quad m s c : dph (m - 2 * s + 4 * c) (m - s + c) m (m + s + c) = m - s / 2 + c / 6.
Proof.
  rewrite dph_eq. replace (dph0 _ _ _ _) with (m - s / 2 + c / 6) by (unfold dph0; field). destruct (_ || _); [|reflexivity].
  replace (3 * (m - s + c - 2 * (m - s / 2 + c / 6) + m)) with (2 * c) by field.
  replace (d2qc (m - 2 * s + 4 * c) (m - s + c) m) with (2 * c) by (unfold d2qc; ring). replace (d2qc (m - s + c) m (m + s + c)) with (2 * c) by (unfold d2qc; ring).
  rewrite lim2_same. field.
Qed.
Lemma eps12 : 0 < / 10 ^ 12 < 1.
Proof. split; [apply Rinv_0_lt_compat; apply pow_lt; lra|]. rewrite <- Rinv_1. apply Rinv_lt_contravar; [rewrite Rmult_1_l; apply pow_lt; lra|]. apply Rlt_pow_R1; [lra|lia]. Qed.
Lemma ppm_quad m s c :
  Rabs c < Rabs s \/ (s = 0 /\ c = 0) \/
  / 10 ^ 12 * Rmax (Rmax (Rabs (m - s + c)) (Rabs (m - 2 * s + 4 * c))) (Rmax (Rabs m) (Rmax (Rabs (m + s + c)) (Rabs (m + 2 * s + 4 * c)))) < Rabs (2 * c) ->
  ppm (m - 2 * s + 4 * c) (m - s + c) m (m + s + c) (m + 2 * s + 4 * c) = (m - s / 2 + c / 6, m + s / 2 + c / 6).
Proof.
  intros H. rewrite ppm_eq, face_quad. replace (dph (m - s + c) m (m + s + c) (m + 2 * s + 4 * c)) with (m + s / 2 + c / 6).
  2:{ rewrite <- dph_rev. pose proof (face_quad m (- s) c) as F. replace (m - 2 * - s + 4 * c) with (m + 2 * s + 4 * c) in F by ring. replace (m - - s + c) with (m + s + c) in F by ring.
      replace (m + - s + c) with (m - s + c) in F by ring. rewrite F. field. }
  set (l := m - s / 2 + c / 6). set (r := m + s / 2 + c / 6). pose proof eps12. unfold ppm_end. cbv zeta.
  replace (6 * (l - 2 * m + r)) with (2 * c) by (unfold l, r; field). replace (d2qc (m - 2 * s + 4 * c) (m - s + c) m) with (2 * c) by (unfold d2qc; ring).
  replace (d2qc (m - s + c) m (m + s + c)) with (2 * c) by (unfold d2qc; ring). replace (d2qc m (m + s + c) (m + 2 * s + 4 * c)) with (2 * c) by (unfold d2qc; ring). rewrite lim3_same.
  replace (m + s + c - m) with (s + c) by ring. replace (m - (m - s + c)) with (s - c) by ring.
  replace (m - l) with (s / 2 - c / 6) by (unfold l; ring). replace (r - m) with (s / 2 + c / 6) by (unfold r; ring).
  destruct (Rlt_dec (Rabs c) (Rabs s)) as [A|A].
  - assert (Q : c * c < s * s) by (pose proof (Rsqr_lt_abs_1 c s A); unfold Rsqr in *; lra). rewrite !Rleb_false by nra. cbn [orb].
    assert (G : 2 * Rabs (s / 2 + c / 6) > Rabs (s / 2 - c / 6) /\ 2 * Rabs (s / 2 - c / 6) > Rabs (s / 2 + c / 6)).
    { assert (B : (- Rabs s < c < Rabs s)) by (destruct (Rabs_def2 _ _ A); lra). destruct (Rcase_abs s) as [S|S]; [rewrite (Rabs_left s) in B by lra|rewrite (Rabs_right s) in B by lra].
      - rewrite !Rabs_left by lra. lra.
      - rewrite !Rabs_right by lra. lra. }
    rewrite !Rleb_false by lra. reflexivity.
  - destruct H as [H|[[-> ->]|H]]; [contradiction| |].
    + assert (E : l = m /\ r = m) by (unfold l, r; split; lra). destruct E as (-> & ->). replace (0 / 2 - 0 / 6) with 0 by field. replace (0 / 2 + 0 / 6) with 0 by field. replace (0 * 0) with 0 by ring.
      rewrite (Rleb_true 0 0) by lra. cbn [orb]. rewrite !Rmult_0_r, Rminus_0_r, Rplus_0_r. destruct (Rleb _ (1 - _)); reflexivity.
    + rewrite (Rleb_false (Rabs (2 * c))) by exact H.
      assert (c <> 0). { intros ->. replace (2 * 0) with 0 in H by ring. rewrite Rabs_R0 in H. assert (0 <= Rmax (Rmax (Rabs (m - s + 0)) (Rabs (m - 2 * s + 4 * 0))) (Rmax (Rabs m) (Rmax (Rabs (m + s + 0)) (Rabs (m + 2 * s + 4 * 0))))) by (eapply Rle_trans; [apply (Rabs_pos (m - s + 0))|]; eapply Rle_trans; [apply Rmax_l|apply Rmax_l]). nra. }
      replace (2 * c / (2 * c)) with 1 by (field; auto). rewrite (Rleb_false 1) by lra.
      destruct (Rleb_spec ((s / 2 - c / 6) * (s / 2 + c / 6)) 0) as [B|B]; [reflexivity|]. cbn [orb]. rewrite Rleb_true; [reflexivity|].
      assert (s * s <= c * c); [|nra]. apply Rnot_lt_le in A. pose proof (Rsqr_le_abs_1 s c A). unfold Rsqr in *. lra.
Qed.
(** zone averages of a parabola *)
Lemma average_quad c0 c1 c2 x k : zone_average c0 c1 c2 0 0 (x + k) = zone_average c0 c1 c2 0 0 x + k * (c1 + 2 * c2 * x) + k * k * c2.
Proof. unfold zone_average, primitive_of. field. Qed.
Lemma ppm_parabola c0 c1 c2 x : let A := zone_average c0 c1 c2 0 0 in
  Rabs c2 < Rabs (c1 + 2 * c2 * x) \/ (c1 = 0 /\ c2 = 0) \/
  / 10 ^ 12 * Rmax (Rmax (Rabs (A (x - 1))) (Rabs (A (x - 2)))) (Rmax (Rabs (A x)) (Rmax (Rabs (A (x + 1))) (Rabs (A (x + 2))))) < Rabs (2 * c2) ->
  ppm (A (x - 2)) (A (x - 1)) (A x) (A (x + 1)) (A (x + 2)) = (poly c0 c1 c2 0 0 (x - 1 / 2), poly c0 c1 c2 0 0 (x + 1 / 2)).
Proof.
  intros A H. set (s := c1 + 2 * c2 * x) in *. set (m := A x) in *.
  replace (A (x - 2)) with (m - 2 * s + 4 * c2) in * by (unfold m, s, A; replace (x - 2) with (x + -2) by ring; rewrite average_quad; ring).
  replace (A (x - 1)) with (m - s + c2) in * by (unfold m, s, A; replace (x - 1) with (x + -1) by ring; rewrite average_quad; ring).
  replace (A (x + 1)) with (m + s + c2) in * by (unfold m, s, A; rewrite average_quad; ring).
  replace (A (x + 2)) with (m + 2 * s + 4 * c2) in * by (unfold m, s, A; rewrite average_quad; ring).
  rewrite ppm_quad.
  - f_equal; unfold m, s, A, zone_average, primitive_of, poly; field.
  - destruct H as [H|[[H1 H2]|H]]; auto. right; left. unfold s. rewrite H1, H2. split; ring.
Qed.

(** ** para *)
Definition plim (D2a D2aL D2aC D2aR : R) : R :=
  if Reqb (MY_SIGN D2a) (MY_SIGN D2aL) && Reqb (MY_SIGN D2a) (MY_SIGN D2aC) && Reqb (MY_SIGN D2a) (MY_SIGN D2aR)
  then MY_SIGN D2a * MY_MIN (MY_MIN (Rabs D2a) (C_lim * Rabs D2aL)) (MY_MIN (C_lim * Rabs D2aC) (C_lim * Rabs D2aR)) else 0.
Lemma plim_eq D L C U : plim D L C U = lim3 L C U D.
Proof.
  unfold plim, lim3. rewrite !sgn_eq, !MY_MIN_min.
  replace (Rmin (Rmin (Rabs D) (C_lim * Rabs L)) (Rmin (C_lim * Rabs C) (C_lim * Rabs U))) with (Rmin (Rmin (C_lim * Rabs L) (C_lim * Rabs C)) (Rmin (C_lim * Rabs U) (Rabs D))).
  - now destruct (Rltb D 0), (Rltb L 0), (Rltb C 0), (Rltb U 0).
  - generalize (C_lim * Rabs L), (C_lim * Rabs C), (C_lim * Rabs U), (Rabs D). intros a b c d.
    rewrite <- (Rmin_assoc a b). rewrite (Rmin_comm d a). rewrite <- (Rmin_assoc a d). f_equal. rewrite (Rmin_assoc b c d). apply Rmin_comm.
Qed.
Definition slim2 (D L U : R) : R :=
  if Rltb 0 (D * L) && Rltb 0 (D * U) then MY_SIGN D * MY_MIN (MY_MIN (C_lim * Rabs L) (C_lim * Rabs U)) (Rabs D) else 0.
Lemma slim2_neg D L U : slim2 (- D) (- L) (- U) = - slim2 D L U.
Proof.
  unfold slim2. replace (- D * - L) with (D * L) by ring. replace (- D * - U) with (D * U) by ring. rewrite !Rabs_Ropp.
  destruct (Rltb_spec 0 (D * L)); cbn [andb]; [|ring]. destruct (Rltb _ _); [|ring]. rewrite sgn_opp; [ring|]. intros ->. lra.
Qed.
Lemma slim2_bounds D L U : 0 < D -> 0 <= slim2 D L U /\ (0 < slim2 D L U -> slim2 D L U <= C_lim * L /\ slim2 D L U <= C_lim * U).
Proof.
  intros P. unfold slim2. destruct (Rltb_spec 0 (D * L)); cbn [andb]; [|lra]. destruct (Rltb_spec 0 (D * U)); [|lra].
  assert (0 < L) by nra. assert (0 < U) by nra. unfold MY_SIGN. rewrite Rltb_false by lra. rewrite !MY_MIN_min, !Rabs_right by lra. rewrite Rmult_1_l.
  pose proof (Rmin_l (Rmin (C_lim * L) (C_lim * U)) D). pose proof (Rmin_l (C_lim * L) (C_lim * U)). pose proof (Rmin_r (C_lim * L) (C_lim * U)).
  split; [|lra]. unfold C_lim. apply min_pos; [apply min_pos|]; lra.
Qed.
Lemma limited_eq q a b c d : para_limited q a b c d = 5 / 10 * (b + c) - 1 / 3 * slim2 (3 * (b - 2 * q + c)) (a - 2 * b + c) (b - 2 * c + d).
Proof. reflexivity. Qed.
Lemma limited_neg q a b c d : para_limited (- q) (- a) (- b) (- c) (- d) = - para_limited q a b c d.
Proof.
  rewrite !limited_eq. replace (3 * (- b - 2 * - q + - c)) with (- (3 * (b - 2 * q + c))) by ring. replace (- a - 2 * - b + - c) with (- (a - 2 * b + c)) by ring.
  replace (- b - 2 * - c + - d) with (- (b - 2 * c + d)) by ring. rewrite slim2_neg. ring.
Qed.
Lemma limited_low q a b c d : a < b -> b < c -> q <= b -> b < para_limited q a b c d < c.
Proof.
  intros A B Q. rewrite limited_eq. destruct (slim2_bounds (3 * (b - 2 * q + c)) (a - 2 * b + c) (b - 2 * c + d)) as (P & W); [lra|].
  destruct (Rle_lt_or_eq_dec _ _ P) as [P'|P']; [destruct (W P'); unfold C_lim in *; lra|rewrite <- P'; lra].
Qed.
Lemma limited_high q a b c d : b < c -> c < d -> c <= q -> b < para_limited q a b c d < c.
Proof.
  intros A B Q. rewrite limited_eq. destruct (slim2_bounds (- (3 * (b - 2 * q + c))) (- (a - 2 * b + c)) (- (b - 2 * c + d))) as (P & W); [lra|]. rewrite slim2_neg in P, W.
  destruct (Rle_lt_or_eq_dec _ _ P) as [P'|P']; [destruct (W P'); unfold C_lim in *; lra|]. replace (slim2 _ _ _) with 0 by lra. lra.
Qed.
Definition para_end (x1 x2 x3 x4 x5 l r : R) : X * X :=
  if Rleb ((x3 - l) * (r - x3)) 0 || Rleb ((x4 - x3) * (x3 - x2)) 0 then
    let D2a := 6 * (l - 2 * x3 + r) in
    let D2alim := lim3 (x1 - 2 * x2 + x3) (x2 - 2 * x3 + x4) (x3 - 2 * x4 + x5) D2a in
    ((Fin x3 + Fin ((l - x3) * D2alim) / Fin D2a)%X, (Fin x3 + Fin ((r - x3) * D2alim) / Fin D2a)%X)
  else
    let r := if Rleb (2 * Rabs (l - x3)) (Rabs (r - x3)) then x3 - 2 * (l - x3) else r in
    let l := if Rleb (2 * Rabs (r - x3)) (Rabs (l - x3)) then x3 - 2 * (r - x3) else l in
    (Fin l, Fin r).
Definition para_r (x2 x3 x4 x5 : R) : R :=
  let aiph := 7 / 12 * (x3 + x4) - 1 / 12 * (x2 + x5) in
  if Rleb aiph (Rmin x3 x4) || Rleb (Rmax x3 x4) aiph then para_limited aiph x2 x3 x4 x5 else aiph.
Definition para_l (x1 x2 x3 x4 : R) : R :=
  let aimh := 7 / 12 * (x2 + x3) - 1 / 12 * (x1 + x4) in
  if Rltb aimh (Rmin x2 x3) || Rltb (Rmax x2 x3) aimh then para_limited aimh x1 x2 x3 x4 else aimh.
Lemma para_eq x1 x2 x3 x4 x5 : para x1 x2 x3 x4 x5 = para_end x1 x2 x3 x4 x5 (para_l x1 x2 x3 x4) (para_r x2 x3 x4 x5).
Proof. unfold para, para_end, para_l, para_r. cbv zeta. rewrite <- plim_eq. unfold plim. now rewrite !(MY_MIN_min x3), !(MY_MAX_max x3), !(MY_MIN_min x2), !(MY_MAX_max x2). Qed.

Lemma para_up x1 x2 x3 x4 x5 : strict5 true x1 x2 x3 x4 x5 -> exists l r, para x1 x2 x3 x4 x5 = (Fin l, Fin r) /\ good true x2 x3 x4 l r.
Proof.
  intros (O1 & O2 & O3 & O4). cbn [strict] in *. rewrite para_eq.
  assert (RR : x3 < para_r x2 x3 x4 x5 < x4).
  { unfold para_r. rewrite Rmin_left, Rmax_right by lra. destruct (Rleb_spec (7 / 12 * (x3 + x4) - 1 / 12 * (x2 + x5)) x3); cbn [orb]; [now apply limited_low|].
    destruct (Rleb_spec x4 (7 / 12 * (x3 + x4) - 1 / 12 * (x2 + x5))); cbn [orb]; [now apply limited_high|lra]. }
  assert (LL : x2 <= para_l x1 x2 x3 x4 <= x3 /\ (para_l x1 x2 x3 x4 = x3 -> x1 - 2 * x2 + x3 < 0)).
  { unfold para_l. rewrite Rmin_left, Rmax_right by lra. destruct (Rltb_spec (7 / 12 * (x2 + x3) - 1 / 12 * (x1 + x4)) x2); cbn [orb].
    - pose proof (limited_low (7 / 12 * (x2 + x3) - 1 / 12 * (x1 + x4)) x1 x2 x3 x4). split; [lra|]. intros. exfalso. lra.
    - destruct (Rltb_spec x3 (7 / 12 * (x2 + x3) - 1 / 12 * (x1 + x4))); cbn [orb].
      + pose proof (limited_high (7 / 12 * (x2 + x3) - 1 / 12 * (x1 + x4)) x1 x2 x3 x4). split; [lra|]. intros. exfalso. lra.
      + lra. }
  destruct LL as (LL & LE). set (l := para_l x1 x2 x3 x4) in *. set (r := para_r x2 x3 x4 x5) in *. unfold para_end. cbv zeta.
  assert (B : 0 < (x4 - x3) * (x3 - x2)) by (apply Rmult_lt_0_compat; lra). rewrite (Rleb_false _ _ B). rewrite orb_false_r.
  destruct (Req_dec l x3) as [E|E].
  - rewrite E. replace ((x3 - x3) * (r - x3)) with 0 by ring. rewrite Rleb_true by lra. rewrite lim3_mixed by (specialize (LE E); lra).
    rewrite !Rmult_0_r. rewrite !xdiv_fin by lra. cbn [xadd]. exists x3, x3. split; [f_equal; f_equal; field; lra|].
    unfold good. cbn [ordered]. split; [lra|]. split; [lra|]. split; [lra|]. split; [lra|]. intros. rewrite !parabola_flat. lra.
  - assert (A : 0 < (x3 - l) * (r - x3)) by (apply Rmult_lt_0_compat; lra). rewrite (Rleb_false _ _ A).
    rewrite (Rabs_left (l - x3)) by lra. rewrite (Rabs_right (r - x3)) by lra. destruct (Rleb_spec (2 * - (l - x3)) (r - x3)) as [H|H].
    + rewrite (Rabs_right (x3 - 2 * (l - x3) - x3)) by lra. rewrite Rleb_false by lra. eexists _, _. split; [reflexivity|].
      unfold good. cbn [ordered]. split; [lra|]. split; [lra|]. split; [lra|]. split; [lra|]. apply parabola_up; lra.
    + rewrite (Rabs_right (r - x3)) by lra. destruct (Rleb_spec (2 * (r - x3)) (- (l - x3))) as [G|G]; (eexists _, _; split; [reflexivity|]);
      unfold good; cbn [ordered]; (split; [lra|]); (split; [lra|]); (split; [lra|]); (split; [lra|]); apply parabola_up; lra.
Qed.
Lemma para_l_neg a b c d : para_l (- a) (- b) (- c) (- d) = - para_l a b c d.
Proof.
  unfold para_l. cbv zeta. rewrite Rmin_neg, Rmax_neg. replace (7 / 12 * (- b + - c) - 1 / 12 * (- a + - d)) with (- (7 / 12 * (b + c) - 1 / 12 * (a + d))) by ring.
  rewrite !Rltb_swap, limited_neg, orb_comm. now destruct (_ || _).
Qed.
Lemma Rleb_swap a b : Rleb (- a) (- b) = Rleb b a.
Proof. destruct (Rleb_spec (- a) (- b)), (Rleb_spec b a); try reflexivity; exfalso; lra. Qed.
Lemma para_r_neg a b c d : para_r (- a) (- b) (- c) (- d) = - para_r a b c d.
Proof.
  unfold para_r. cbv zeta. rewrite Rmin_neg, Rmax_neg. replace (7 / 12 * (- b + - c) - 1 / 12 * (- a + - d)) with (- (7 / 12 * (b + c) - 1 / 12 * (a + d))) by ring.
  rewrite !Rleb_swap, limited_neg, orb_comm. now destruct (_ || _).
Qed.
Lemma para_end_neg x1 x2 x3 x4 x5 l r a b : para_end x1 x2 x3 x4 x5 l r = (Fin a, Fin b) -> para_end (- x1) (- x2) (- x3) (- x4) (- x5) (- l) (- r) = (Fin (- a), Fin (- b)).
Proof.
  unfold para_end. cbv zeta. replace ((- x3 - - l) * (- r - - x3)) with ((x3 - l) * (r - x3)) by ring. replace ((- x4 - - x3) * (- x3 - - x2)) with ((x4 - x3) * (x3 - x2)) by ring.
  replace (6 * (- l - 2 * - x3 + - r)) with (- (6 * (l - 2 * x3 + r))) by ring. replace (- x1 - 2 * - x2 + - x3) with (- (x1 - 2 * x2 + x3)) by ring.
  replace (- x2 - 2 * - x3 + - x4) with (- (x2 - 2 * x3 + x4)) by ring. replace (- x3 - 2 * - x4 + - x5) with (- (x3 - 2 * x4 + x5)) by ring. rewrite lim3_neg.
  destruct (_ || _).
  - set (D := 6 * (l - 2 * x3 + r)). set (L := lim3 _ _ _ _). replace ((- l - - x3) * - L) with ((l - x3) * L) by ring. replace ((- r - - x3) * - L) with ((r - x3) * L) by ring.
    destruct (Req_dec D 0) as [E|E].
    + rewrite E. cbn [xdiv]. destruct (Reqb_spec 0 0); [|congruence]. unfold inf_by. repeat destruct (Rltb _ _); discriminate.
    + rewrite !xdiv_fin by lra. cbn [xadd]. intros [= <- <-]. f_equal; f_equal; field; auto.
  - intros [= <- <-]. replace (- l - - x3) with (- (l - x3)) by ring. replace (- r - - x3) with (- (r - x3)) by ring. rewrite !Rabs_Ropp.
    destruct (Rleb (2 * Rabs (l - x3)) (Rabs (r - x3))).
    + replace (- x3 - 2 * - (l - x3) - - x3) with (- (x3 - 2 * (l - x3) - x3)) by ring. rewrite !Rabs_Ropp. destruct (Rleb _ _); f_equal; f_equal; ring.
    + replace (- r - - x3) with (- (r - x3)) by ring. rewrite !Rabs_Ropp. destruct (Rleb _ _); f_equal; f_equal; ring.
Qed.
Lemma para_monotone up x1 x2 x3 x4 x5 : strict5 up x1 x2 x3 x4 x5 -> exists l r, para x1 x2 x3 x4 x5 = (Fin l, Fin r) /\ good up x2 x3 x4 l r.
Proof.
  destruct up; [apply para_up|]. intros (O1 & O2 & O3 & O4). cbn [strict] in *.
  destruct (para_up (- x1) (- x2) (- x3) (- x4) (- x5)) as (l & r & E & G1 & G2 & G3 & G4 & G5); [repeat split; cbn [strict]; lra|].
  rewrite para_eq in E. apply para_end_neg in E. rewrite para_l_neg, para_r_neg, !Ropp_involutive in E. rewrite <- para_eq in E.
  exists (- l), (- r). split; [exact E|]. unfold good. cbn [ordered] in *. split; [lra|]. split; [lra|]. split; [lra|]. split; [lra|].
  intros x y X XY Y. specialize (G5 x y X XY Y). rewrite <- (Ropp_involutive x3), !parabola_neg. lra.
Qed.
Lemma para_const c : para c c c c c = (NaN, NaN).
Proof.
  rewrite para_eq. unfold para_l, para_r. cbv zeta. rewrite Rmin_left, Rmax_left by lra. rewrite (Rleb_true _ c) by lra. cbn [orb]. rewrite !Rltb_false by lra. cbn [orb].
  rewrite limited_eq. replace (7 / 12 * (c + c) - 1 / 12 * (c + c)) with c by field. replace (3 * (c - 2 * c + c)) with 0 by ring. unfold slim2. rewrite Rmult_0_l, Rltb_false by lra. cbn [andb].
  replace (5 / 10 * (c + c) - 1 / 3 * 0) with c by field. unfold para_end. cbv zeta. replace ((c - c) * (c - c)) with 0 by ring. rewrite Rleb_true by lra. cbn [orb].
  replace (6 * (c - 2 * c + c)) with 0 by ring. replace (c - c) with 0 by ring. rewrite Rmult_0_l. cbn [xdiv]. destruct (Reqb_spec 0 0); [|congruence]. unfold inf_by. rewrite Rltb_false by lra. reflexivity.
Qed.
(** zones of x^2 next to its minimum *)
Lemma para_square : para (7 / 3) (1 / 3) (1 / 3) (7 / 3) (19 / 3) = (NaN, NaN).
Proof.
  rewrite para_eq. assert (L : para_l (7 / 3) (1 / 3) (1 / 3) (7 / 3) = - (1 / 3)).
  { unfold para_l. cbv zeta. rewrite Rmin_left, Rmax_left by lra. rewrite Rltb_true by lra. cbn [orb]. rewrite limited_eq. unfold slim2. rewrite !Rltb_true by lra. cbn [andb].
    unfold MY_SIGN. rewrite Rltb_false by lra. rewrite !MY_MIN_min, !Rabs_right by lra. unfold C_lim. rewrite (Rmin_left (125 / 100 * _)) by lra. rewrite Rmin_right by lra. lra. }
  assert (R : para_r (1 / 3) (1 / 3) (7 / 3) (19 / 3) = 1).
  { unfold para_r. cbv zeta. rewrite Rmin_left, Rmax_right by lra. rewrite !Rleb_false by lra. cbn [orb]. lra. }
  rewrite L, R. unfold para_end. cbv zeta. rewrite (Rleb_true ((7 / 3 - 1 / 3) * (1 / 3 - 1 / 3))) by lra. rewrite orb_true_r.
  replace (6 * (- (1 / 3) - 2 * (1 / 3) + 1)) with 0 by field. rewrite lim3_0 by auto. rewrite !Rmult_0_r. cbn [xdiv]. destruct (Reqb_spec 0 0); [|congruence]. unfold inf_by. rewrite !Rltb_false by lra. reflexivity.
Qed.
