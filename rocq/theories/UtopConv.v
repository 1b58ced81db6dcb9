(** Convergence of the inversion's iteration on linear residuals. *)
From Coq Require Import Reals Bool Lia Lra.
From Verif Require Import RLib XLib UtopModel UtopProofs.
Open Scope R_scope.

Definition clamp (w d : R) : R := if Rltb d (2 * w) then (if Rltb (- (5 / 10) * w) d then w + d else w / 2) else 3 * w.
Lemma limited_fin w d : 0 < w -> limited (Fin w) (Fin d) = Fin (clamp w d).
Proof.
  intros H. unfold limited, xmin, xmax, clamp. cbn [xmul xltb xopp].
  destruct (Rltb_spec d (2 * w)); cbn [xltb].
  - destruct (Rltb_spec (- (5 / 10) * w) d); cbn [xadd xmul xopp]; f_equal; lra.
  - rewrite Rltb_true by lra. cbn [xadd]. f_equal. lra.
Qed.
Definition affine (a r : R) : X -> X := fun x => match x with Fin w => Fin (a * (w - r)) | _ => NaN end.

Section Affine.
Variables (a r : R).
Hypothesis Ha : a <> 0.
Notation e := (affine a r).

Lemma secant_step w w1 : w <> w1 ->
  ((Fin w1 - Fin w) * e (Fin w) / (e (Fin w) - e (Fin w1)))%X = Fin (r - w).
Proof.
  intros N. cbn [affine xsub xadd xmul xopp].
  replace (a * (w - r) + - (a * (w1 - r))) with (a * (w - w1)) by ring. rewrite xdiv_fin.
  - f_equal. field. split; [lra|exact Ha].
  - apply Rmult_integral_contrapositive_currified; [exact Ha|lra].
Qed.
Lemma converged_root w : 0 < w -> w = r -> xltb (Fin ERRTOL) (xabs (e (Fin w) / Fin w)) = false.
Proof.
  intros P ->. cbn [affine]. rewrite xdiv_fin by lra. cbn [xabs xltb]. apply Rltb_false.
  replace (a * (r - r) / r) with 0 by (field; lra). rewrite Rabs_R0. unfold ERRTOL. lra.
Qed.
Lemma not_converged w : 0 < w -> xltb (Fin ERRTOL) (xabs (e (Fin w) / Fin w)) = false -> Rabs (a * (w - r)) <= ERRTOL * w.
Proof.
  intros P. cbn [affine]. rewrite xdiv_fin by lra. cbn [xabs xltb].
  destruct (Rltb_spec ERRTOL (Rabs (a * (w - r) / w))) as [|L]; [discriminate|]. intros _.
  unfold Rdiv in L. rewrite Rabs_mult, (Rabs_right (/ w)) in L by (apply Rle_ge, Rlt_le, Rinv_0_lt_compat, P).
  apply Rnot_lt_le in L. apply Rmult_le_compat_r with (r := w) in L; [|lra].
  replace (Rabs (a * (w - r)) * / w * w) with (Rabs (a * (w - r))) in L by (field; lra). exact L.
Qed.

Lemma secant_affine k : forall w w1, 0 < w -> w <> w1 -> 0 < r -> (1 / 2) ^ k * w <= r <= 3 ^ k * w ->
  exists W, secant e (S k) (Fin w) (Fin w1) (e (Fin w)) (e (Fin w1)) = Some (Fin W) /\
    (W = r \/ Rabs (a * (W - r)) <= ERRTOL * W).
Proof.
  induction k as [|k IH]; intros w w1 P N R B.
  - cbn [pow] in B. assert (E : w = r) by lra. cbn [secant]. rewrite converged_root by assumption. eauto.
  - remember (S k) as k' eqn:Hk. cbn [secant]. destruct (xltb (Fin ERRTOL) (xabs (e (Fin w) / Fin w))) eqn:C.
    2:{ exists w. split; [reflexivity|]. right. now apply not_converged. }
    rewrite secant_step by exact N. rewrite limited_fin by exact P. set (w' := clamp w (r - w)).
    assert (CL : (w' = r /\ w' <> w) \/ (w' = w / 2 /\ r <= w / 2) \/ (w' = 3 * w /\ 3 * w <= r)).
    { unfold w', clamp. destruct (Rltb_spec (r - w) (2 * w)); [|right; right; split; lra].
      destruct (Rltb_spec (- (5 / 10) * w) (r - w)); [left|right; left; split; lra].
      split; [ring|]. intros Q. rewrite converged_root in C; [discriminate|exact P|lra]. }
    assert (P' : 0 < w') by (destruct CL as [[-> _]|[[-> _]|[-> _]]]; lra).
    assert (N' : w' <> w) by (destruct CL as [[_ ?]|[[-> _]|[-> _]]]; [assumption|lra|lra]).
    destruct (xltb (xabs (Fin (r - w) / Fin w')) (Fin ERRTOL)) eqn:S.
    + exists w'. split; [reflexivity|]. left.
      destruct CL as [[E _]|CL]; [exact E|exfalso]. rewrite xdiv_fin in S by lra. cbn [xabs xltb] in S.
      destruct (Rltb_spec (Rabs ((r - w) / w')) ERRTOL) as [L|]; [|discriminate].
      unfold Rdiv in L. rewrite Rabs_mult, (Rabs_right (/ w')) in L by (apply Rle_ge, Rlt_le, Rinv_0_lt_compat, P').
      apply Rmult_lt_compat_r with (r := w') in L; [|exact P'].
      replace (Rabs (r - w) * / w' * w') with (Rabs (r - w)) in L by (field; lra).
      assert (T : ERRTOL < 1 / 10) by (unfold ERRTOL; lra).
      destruct CL as [[E1 E2]|[E1 E2]].
      * rewrite Rabs_left1 in L by lra. rewrite E1 in L. nra.
      * rewrite Rabs_right in L by lra. rewrite E1 in L. nra.
    + subst k'. apply IH; try assumption.
      cbn [pow] in B. pose proof (pow_pos2 k). pose proof (pow_pos3 k). pose proof (pow_2 k). pose proof (pow_3 k).
      assert (SQ : forall x, 0 < x -> (1 / 2) ^ k * x <= x <= 3 ^ k * x) by (intros; split; nra).
      destruct CL as [[-> _]|[[-> L]|[-> L]]].
      * now apply SQ.
      * pose proof (SQ (w / 2) ltac:(lra)). split; lra.
      * pose proof (SQ (3 * w) ltac:(lra)). split; lra.
Qed.

Lemma first_step w : 0 < w ->
  solve e (Fin w) = secant e ITERMAX (Fin (clamp w (r - w))) (Fin w) (e (Fin (clamp w (r - w)))) (e (Fin w)).
Proof.
  intros P. unfold solve. cbv zeta. cbn [xsub xopp xadd xmul affine].
  assert (D1 : 0 < DEL) by (unfold DEL; lra).
  set (wm := (1 + - DEL) * w). set (h := w + - wm). assert (Hh : 0 < h) by (unfold h, wm; nra).
  rewrite (xdiv_fin (a * (w + h - r) + - (a * (wm - r)))) by (unfold h in *; lra).
  replace ((a * (w + h - r) + - (a * (wm - r))) / (w + h + - wm)) with a by (unfold h; field; unfold h in Hh; lra).
  rewrite (xdiv_fin (a * (w + h - r) + - (2 * (a * (w - r))) + a * (wm - r))) by nra.
  replace ((a * (w + h - r) + - (2 * (a * (w - r))) + a * (wm - r)) / (h * h)) with 0 by (unfold h; field; unfold h in Hh; lra).
  cbn [xmul]. rewrite Rmult_0_r, (xdiv_fin 0 (a * a)) by (apply Rmult_integral_contrapositive_currified; exact Ha).
  replace (0 / (a * a)) with 0 by (field; exact Ha).
  assert (LIM : xmin (xmax (Fin (- (3 / 10))) (Fin 0)) (Fin (3 / 10)) = Fin 0).
  { unfold xmin, xmax. cbn [xltb]. rewrite (Rltb_false 0 (- (3 / 10))) by lra. cbn [xltb]. now rewrite Rltb_true by lra. }
  rewrite LIM. rewrite xdiv_fin by exact Ha. cbn [xopp xadd]. rewrite xdiv_fin by lra.
  replace (- (a * (w - r)) / a / (1 + - 0)) with (r - w) by (field; exact Ha).
  rewrite limited_fin by exact P. reflexivity.
Qed.
Lemma solve_affine w : 0 < w -> 0 < r -> (1 / 2) ^ 8 * w <= r <= 3 ^ 8 * w ->
  exists W, solve e (Fin w) = Some (Fin W) /\ (W = r \/ Rabs (a * (W - r)) <= ERRTOL * W).
Proof.
  intros P R B. rewrite first_step by exact P.
  assert (CL : clamp w (r - w) = r \/ (clamp w (r - w) = w / 2 /\ r <= w / 2) \/ (clamp w (r - w) = 3 * w /\ 3 * w <= r)).
  { unfold clamp. destruct (Rltb_spec (r - w) (2 * w)); [|right; right; split; lra].
    destruct (Rltb_spec (- (5 / 10) * w) (r - w)); [left; ring|right; left; split; lra]. }
  set (w' := clamp w (r - w)) in *. clearbody w'.
  destruct CL as [E|CL].
  - exists w'. split; [|left; exact E]. unfold ITERMAX. cbn [secant]. rewrite converged_root by lra. reflexivity.
  - change ITERMAX with (S 7). apply secant_affine; cbn [pow] in *; destruct CL as [[-> L]|[-> L]]; lra.
Qed.
(** A root that is not positive cannot be reached: the iteration gives up. *)
Lemma secant_out k : forall w w1, 0 < w -> w <> w1 -> r <= 0 -> ERRTOL < Rabs a ->
  secant e k (Fin w) (Fin w1) (e (Fin w)) (e (Fin w1)) = None.
Proof.
  induction k as [|k IH]; intros w w1 P N R B; [reflexivity|]. cbn [secant].
  assert (C : xltb (Fin ERRTOL) (xabs (e (Fin w) / Fin w)) = true).
  { cbn [affine]. rewrite xdiv_fin by lra. cbn [xabs xltb]. apply Rltb_true.
    replace (a * (w - r) / w) with (a * (1 - r / w)) by (field; lra). rewrite Rabs_mult.
    assert (0 <= - r / w) by (unfold Rdiv; apply Rmult_le_pos; [lra|apply Rlt_le, Rinv_0_lt_compat, P]).
    assert (- r / w = - (r / w)) by (unfold Rdiv; ring).
    rewrite (Rabs_right (1 - r / w)) by lra. pose proof (Rabs_pos a). nra. }
  rewrite C, secant_step by exact N. rewrite limited_fin by exact P.
  assert (E : clamp w (r - w) = w / 2).
  { unfold clamp. rewrite Rltb_true by lra. rewrite Rltb_false by lra. reflexivity. }
  rewrite E. rewrite xdiv_fin by lra. cbn [xabs xltb]. rewrite Rltb_false.
  - apply IH; try assumption; lra.
  - replace ((r - w) / (w / 2)) with (- (2 * (1 - r / w))) by (field; lra). rewrite Rabs_Ropp.
    assert (0 <= - r / w) by (unfold Rdiv; apply Rmult_le_pos; [lra|apply Rlt_le, Rinv_0_lt_compat, P]).
    assert (- r / w = - (r / w)) by (unfold Rdiv; ring).
    rewrite Rabs_right by lra. unfold ERRTOL. lra.
Qed.
Lemma solve_out w : 0 < w -> r <= 0 -> ERRTOL < Rabs a -> solve e (Fin w) = None.
Proof.
  intros P R B. rewrite first_step by exact P.
  assert (E : clamp w (r - w) = w / 2).
  { unfold clamp. rewrite Rltb_true by lra. rewrite Rltb_false by lra. reflexivity. }
  rewrite E. apply secant_out; lra.
Qed.
End Affine.
