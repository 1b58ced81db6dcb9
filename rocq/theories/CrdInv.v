(** The covariant Jacobians invert the contravariant ones up to the regularisation. *)
From Coq Require Import Reals Bool List Lia Lra.
From Verif Require Import RLib FluxModel GeomModel FloorProofs CrdModel CrdSpec.
Open Scope R_scope.

Lemma quo x s : 0 < x -> 0 < s -> 0 < x / (x + s) < 1 /\ Rabs (x / (x + s) - 1) <= s / x.
Proof.
  intros X S. assert (A : 0 < x / (x + s)) by (apply Rdiv_lt_0_compat; lra).
  assert (E : x / (x + s) - 1 = - (s / (x + s))) by (field; lra).
  assert (B : 0 < s / (x + s)) by (apply Rdiv_lt_0_compat; lra).
  split; [lra|]. rewrite E, Rabs_Ropp, Rabs_right by lra. unfold Rdiv. apply Rmult_le_compat_l; [lra|]. apply Rinv_le_contravar; lra.
Qed.
Lemma shear dr d1 d2 s : 0 < dr -> 0 < d2 -> 0 < s ->
  Rabs (- d1 / (dr * d2 + s) * dr + 1 / (d2 + s) * d1) <= s * (Rabs d1 * (1 + dr) / (dr * d2 * d2)).
Proof.
  intros R D S. assert (P : 0 < dr * d2) by (apply Rmult_lt_0_compat; auto).
  replace (- d1 / (dr * d2 + s) * dr + 1 / (d2 + s) * d1) with (s * (d1 * (1 - dr) / ((dr * d2 + s) * (d2 + s)))) by (field; lra).
  rewrite Rabs_mult, (Rabs_right s) by lra. apply Rmult_le_compat_l; [lra|].
  assert (Q : 0 < (dr * d2 + s) * (d2 + s)) by (apply Rmult_lt_0_compat; lra). assert (Q' : 0 < dr * d2 * d2) by (apply Rmult_lt_0_compat; lra).
  unfold Rdiv. rewrite !Rabs_mult, (Rabs_right (/ _)) by (apply Rle_ge, Rlt_le, Rinv_0_lt_compat; auto).
  apply Rmult_le_compat; [apply Rmult_le_pos; apply Rabs_pos|apply Rlt_le, Rinv_0_lt_compat; auto| |].
  - apply Rmult_le_compat_l; [apply Rabs_pos|]. apply Rabs_le. lra.
  - apply Rinv_le_contravar; auto. apply Rle_trans with (dr * d2 * (d2 + s)); [apply Rmult_le_compat_l; lra|apply Rmult_le_compat_r; lra].
Qed.

Section Inv.
Variables (hslope poly_xt : R) (poly_alpha : nat) (mks_smooth startx1 : R) (derefine : bool).
Variable X : vec.
Notation d1 := (dthdX1 hslope poly_xt poly_alpha mks_smooth startx1 derefine X).
Notation d2 := (dthdX2 hslope poly_xt poly_alpha mks_smooth startx1 derefine X).
Notation t := (bl_th hslope poly_xt poly_alpha mks_smooth startx1 derefine X).
Notation r := (r_of_X X).
Hypothesis D : 0 < d2.
Let RP : 0 < r. Proof. apply exp_pos. Qed.
Let SP : 0 < SMALL := small_pos.

Ltac zero := match goal with |- Rabs ?e <= _ => replace e with 0 by ring; rewrite Rabs_R0; auto end.
Lemma bl_inv : nearly_inverse (SMALL * (1 / r + 1 / d2 + Rabs d1 * (1 + r) / (r * d2 * d2)))
  (h2bl_cov hslope poly_xt poly_alpha mks_smooth startx1 derefine X) (h2bl_con hslope poly_xt poly_alpha mks_smooth startx1 derefine X).
Proof.
  destruct (quo r SMALL RP SP) as (_ & A). destruct (quo d2 SMALL D SP) as (_ & B). pose proof (shear r d1 d2 SMALL RP D SP) as C.
  set (e1 := 1 / r) in *. set (e2 := 1 / d2). set (e3 := Rabs d1 * (1 + r) / (r * d2 * d2)) in *.
  assert (P1 : 0 < e1) by (apply Rdiv_lt_0_compat; lra). assert (P2 : 0 < e2) by (apply Rdiv_lt_0_compat; lra).
  assert (P3 : 0 <= e3). { unfold e3. apply Rmult_le_pos; [apply Rmult_le_pos; [apply Rabs_pos|lra]|]. apply Rlt_le, Rinv_0_lt_compat. repeat apply Rmult_lt_0_compat; auto. }
  replace (SMALL / r) with (SMALL * e1) in A by (unfold e1; field; lra). replace (SMALL / d2) with (SMALL * e2) in B by (unfold e2; field; lra).
  assert (M : forall e, e <= e1 + e2 + e3 -> SMALL * e <= SMALL * (e1 + e2 + e3)) by (intros; apply Rmult_le_compat_l; lra).
  assert (Z : 0 <= SMALL * (e1 + e2 + e3)) by (apply Rmult_le_pos; lra).
  intros i j I J. destruct i as [|[|[|[|i]]]]; try lia; destruct j as [|[|[|[|j]]]]; try lia; cbn [h2bl_cov h2bl_con Nat.eqb]; try zero; change (drdX1 X) with r.
  - replace (0 * 0 + 1 / (r + SMALL) * r + 0 * d1 + 0 * 0 - 1) with (r / (r + SMALL) - 1) by (field; lra). eapply Rle_trans; [exact A|]. apply M. lra.
  - match goal with |- Rabs ?e <= _ => replace e with (- d1 / (r * d2 + SMALL) * r + 1 / (d2 + SMALL) * d1) by ring end. eapply Rle_trans; [exact C|]. apply M. lra.
  - match goal with |- Rabs ?e <= _ => replace e with (d2 / (d2 + SMALL) - 1) by (unfold Rdiv; ring) end. eapply Rle_trans; [exact B|]. apply M. lra.
Qed.
Hypothesis SN : 0 < sin t.
Let c2s2 x : cos x * cos x = 1 - sin x * sin x. Proof. pose proof (sin2_cos2 x) as E. unfold Rsqr in E. lra. Qed.
Lemma cart_inv : nearly_inverse (SMALL * (1 / r + 1 / (r * sin t)))
  (bl2c_cov hslope poly_xt poly_alpha mks_smooth startx1 derefine X) (bl2c_con hslope poly_xt poly_alpha mks_smooth startx1 derefine X).
Proof.
  assert (RS : 0 < r * sin t) by (apply Rmult_lt_0_compat; auto).
  destruct (quo r SMALL RP SP) as (_ & A). destruct (quo (r * sin t) SMALL RS SP) as (_ & B).
  set (e1 := 1 / r) in *. set (e2 := 1 / (r * sin t)).
  assert (P1 : 0 < e1) by (apply Rdiv_lt_0_compat; lra). assert (P2 : 0 < e2) by (apply Rdiv_lt_0_compat; lra).
  replace (SMALL / r) with (SMALL * e1) in A by (unfold e1; field; lra). replace (SMALL / (r * sin t)) with (SMALL * e2) in B by (unfold e2; field; lra).
  assert (M : forall e, e <= e1 + e2 -> SMALL * e <= SMALL * (e1 + e2)) by (intros; apply Rmult_le_compat_l; lra).
  assert (Z : 0 <= SMALL * (e1 + e2)) by (apply Rmult_le_pos; lra). clearbody e1 e2.
  pose proof (c2s2 t) as T. pose proof (c2s2 (X 3%nat)) as F.
  intros i j I J. destruct i as [|[|[|[|i]]]]; try lia; destruct j as [|[|[|[|j]]]]; try lia; cbn [bl2c_cov bl2c_con Nat.eqb]; try zero;
  set (s := sin t) in *; set (c := cos t) in *; set (sf := sin (X 3%nat)) in *; set (cf := cos (X 3%nat)) in *; set (R := r) in *; clearbody s c sf cf R.
  all: match goal with
    | |- Rabs (?e) <= _ => first
      [ replace e with 0 by (unfold Rdiv; ring [T F]); rewrite Rabs_R0; exact Z
      | replace e with (R / (R + SMALL) - 1) by (unfold Rdiv; ring [T F]); eapply Rle_trans; [exact A|apply M; lra]
      | replace e with (R * s / (R * s + SMALL) - 1) by (unfold Rdiv; ring [T F]); eapply Rle_trans; [exact B|apply M; lra] ]
    end.
Qed.
(** the whole way to Cartesian coordinates *)
Notation bcov := (bl2c_cov hslope poly_xt poly_alpha mks_smooth startx1 derefine X).
Notation bcon := (bl2c_con hslope poly_xt poly_alpha mks_smooth startx1 derefine X).
Notation hcov := (h2bl_cov hslope poly_xt poly_alpha mks_smooth startx1 derefine X).
Notation hcon := (h2bl_con hslope poly_xt poly_alpha mks_smooth startx1 derefine X).
Definition mid (q2 q3 : R) : mat := fun i j => if Nat.eqb i j then match i with 2%nat => q2 | 3%nat => q3 | _ => 1 end else 0.
Lemma cart_prod i j : (i < 4)%nat -> (j < 4)%nat ->
  sum4 (fun k => bcov i k * bcon k j) = mid (r / (r + SMALL)) (r * sin t / (r * sin t + SMALL)) i j.
Proof.
  pose proof (c2s2 t) as T. pose proof (c2s2 (X 3%nat)) as F. unfold sum4, mid.
  intros I J. destruct i as [|[|[|[|i]]]]; try lia; destruct j as [|[|[|[|j]]]]; try lia; cbn [bl2c_cov bl2c_con Nat.eqb];
  set (s := sin t) in *; set (c := cos t) in *; set (sf := sin (X 3%nat)) in *; set (cf := cos (X 3%nat)) in *; set (R := r) in *; clearbody s c sf cf R;
  unfold Rdiv; ring [T F].
Qed.
Lemma assoc (A B C E : mat) i j : sum4 (fun k => sum4 (fun l => A i l * B l k) * sum4 (fun m => C k m * E m j)) =
  sum4 (fun l => A i l * sum4 (fun m => sum4 (fun k => B l k * C k m) * E m j)).
Proof. unfold sum4. ring. Qed.
Lemma all_prod i j : (i < 4)%nat -> (j < 4)%nat ->
  sum4 (fun k => h2c_cov hslope poly_xt poly_alpha mks_smooth startx1 derefine X i k * h2c_con hslope poly_xt poly_alpha mks_smooth startx1 derefine X k j) =
  sum4 (fun l => hcov i l * (mid (r / (r + SMALL)) (r * sin t / (r * sin t + SMALL)) l l * hcon l j)).
Proof.
  intros I J. unfold h2c_cov, h2c_con. rewrite assoc.
  pose (P := fun l m => sum4 (fun k => bcov l k * bcon k m)).
  assert (PE : forall l m, (l < 4)%nat -> (m < 4)%nat -> P l m = mid (r / (r + SMALL)) (r * sin t / (r * sin t + SMALL)) l m) by (intros; apply cart_prod; auto).
  change (sum4 (fun l => hcov i l * sum4 (fun m => P l m * hcon m j)) = sum4 (fun l => hcov i l * (mid (r / (r + SMALL)) (r * sin t / (r * sin t + SMALL)) l l * hcon l j))).
  clearbody P. unfold sum4. rewrite !PE by lia. unfold mid. cbn [Nat.eqb]. ring.
Qed.
Lemma all_inv : nearly_inverse (SMALL * (2 / r + 1 / d2 + Rabs d1 * (1 + r) / (r * d2 * d2) + Rabs d1 / (r * d2) + 1 / (r * sin t)))
  (h2c_cov hslope poly_xt poly_alpha mks_smooth startx1 derefine X) (h2c_con hslope poly_xt poly_alpha mks_smooth startx1 derefine X).
Proof.
  assert (RS : 0 < r * sin t) by (apply Rmult_lt_0_compat; auto).
  destruct (quo r SMALL RP SP) as (Q1 & A). destruct (quo (r * sin t) SMALL RS SP) as (_ & B). destruct (quo d2 SMALL D SP) as (Q2 & C). pose proof (shear r d1 d2 SMALL RP D SP) as H.
  replace (2 / r) with (1 / r + 1 / r) by (field; lra).
  set (e1 := 1 / r) in *. set (e2 := 1 / d2). set (e3 := Rabs d1 * (1 + r) / (r * d2 * d2)) in *. set (e4 := Rabs d1 / (r * d2)). set (e5 := 1 / (r * sin t)).
  assert (RD : 0 < r * d2) by (apply Rmult_lt_0_compat; auto).
  assert (P1 : 0 < e1) by (apply Rdiv_lt_0_compat; lra). assert (P2 : 0 < e2) by (apply Rdiv_lt_0_compat; lra). assert (P5 : 0 < e5) by (apply Rdiv_lt_0_compat; lra).
  assert (P3 : 0 <= e3). { unfold e3. apply Rmult_le_pos; [apply Rmult_le_pos; [apply Rabs_pos|lra]|]. apply Rlt_le, Rinv_0_lt_compat. repeat apply Rmult_lt_0_compat; auto. }
  assert (P4 : 0 <= e4). { apply Rmult_le_pos; [apply Rabs_pos|apply Rlt_le, Rinv_0_lt_compat; auto]. }
  replace (SMALL / r) with (SMALL * e1) in A by (unfold e1; field; lra). replace (SMALL / d2) with (SMALL * e2) in C by (unfold e2; field; lra).
  replace (SMALL / (r * sin t)) with (SMALL * e5) in B by (unfold e5; field; lra).
  assert (M : forall e, e <= e1 + e1 + e2 + e3 + e4 + e5 -> SMALL * e <= SMALL * (e1 + e1 + e2 + e3 + e4 + e5)) by (intros; apply Rmult_le_compat_l; lra).
  assert (Z : 0 <= SMALL * (e1 + e1 + e2 + e3 + e4 + e5)) by (apply Rmult_le_pos; lra).
  assert (F4 : Rabs (1 / (d2 + SMALL) * d1 * (r / (r + SMALL) - 1)) <= SMALL * e4).
  { replace (SMALL * e4) with (/ d2 * Rabs d1 * (SMALL * e1)) by (unfold e4, e1; field; lra). rewrite !Rabs_mult.
    apply Rmult_le_compat; [apply Rmult_le_pos; apply Rabs_pos|apply Rabs_pos| |exact A].
    apply Rmult_le_compat_r; [apply Rabs_pos|]. unfold Rdiv. rewrite Rmult_1_l, Rabs_right by (apply Rle_ge, Rlt_le, Rinv_0_lt_compat; lra). apply Rinv_le_contravar; lra. }
  assert (F2 : Rabs (d2 / (d2 + SMALL) * (r / (r + SMALL)) - 1) <= SMALL * (e1 + e2)).
  { replace (d2 / (d2 + SMALL) * (r / (r + SMALL)) - 1) with (d2 / (d2 + SMALL) * (r / (r + SMALL) - 1) + (d2 / (d2 + SMALL) - 1)) by ring.
    eapply Rle_trans; [apply Rabs_triang|]. rewrite Rmult_plus_distr_l. apply Rplus_le_compat; [|exact C].
    rewrite Rabs_mult, (Rabs_right (d2 / _)) by lra. rewrite <- (Rmult_1_l (SMALL * e1)). apply Rmult_le_compat; [lra|apply Rabs_pos|lra|exact A]. }
  clearbody e1 e2 e3 e4 e5.
  intros i j I J. pose proof (all_prod i j I J) as E. unfold sum4 at 1 in E.
  match goal with |- Rabs (?a - _) <= _ => match type of E with ?b = _ => change a with b end end. rewrite E. unfold sum4, mid. clear E. cbn [Nat.eqb].
  destruct i as [|[|[|[|i]]]]; try lia; destruct j as [|[|[|[|j]]]]; try lia; cbn [h2bl_cov h2bl_con Nat.eqb]; try zero; change (drdX1 X) with r.
  - match goal with |- Rabs ?e <= _ => replace e with (r / (r + SMALL) - 1) by (unfold Rdiv; ring) end. eapply Rle_trans; [exact A|]. apply M. lra.
  - match goal with |- Rabs ?e <= _ => replace e with (- d1 / (r * d2 + SMALL) * r + 1 / (d2 + SMALL) * d1 + 1 / (d2 + SMALL) * d1 * (r / (r + SMALL) - 1)) by ring end.
    eapply Rle_trans; [apply Rabs_triang|]. eapply Rle_trans; [apply Rplus_le_compat; [exact H|exact F4]|]. rewrite <- Rmult_plus_distr_l. apply M. lra.
  - match goal with |- Rabs ?e <= _ => replace e with (d2 / (d2 + SMALL) * (r / (r + SMALL)) - 1) by (unfold Rdiv; ring) end. eapply Rle_trans; [exact F2|]. apply M. lra.
  - match goal with |- Rabs ?e <= _ => replace e with (r * sin t / (r * sin t + SMALL) - 1) by ring end. eapply Rle_trans; [exact B|]. apply M. lra.
Qed.
End Inv.
