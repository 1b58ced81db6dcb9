(** Property theorems: parabolic reconstruction (C119). *)
From Coq Require Import Reals Bool ZArith List Lia Lra.
From Verif Require Import RLib XLib IntLib ReconSpec PpmModel PpmSpec PpmProofs PpmMore PpmArr.
Import ListNotations.
Open Scope R_scope.

(** C119.  From the zone averages of a cubic the value at an interface before limiting is
    that of the cubic. *)
Theorem C119_interface : forall c0 c1 c2 c3 x, let A := zone_average c0 c1 c2 c3 0 in
  dph0 (A (x - 3 / 2)) (A (x - 1 / 2)) (A (x + 1 / 2)) (A (x + 3 / 2)) = poly c0 c1 c2 c3 0 x.
Proof. exact dph0_cubic. Qed.
Print Assumptions C119_interface.
(** Where the averages are monotone, the edge values of reconstruct_lr_ppm lie between
    the zone and its neighbours and the parabola through them is monotone. *)
Theorem C119_monotone : forall up x1 x2 x3 x4 x5 l r, ordered5 up x1 x2 x3 x4 x5 -> ppm x1 x2 x3 x4 x5 = (l, r) -> good up x2 x3 x4 l r.
Proof. exact ppm_monotone. Qed.
Print Assumptions C119_monotone.
(** Whatever the data, the last step only moves the edges towards the average. *)
Theorem C119_limits : forall x1 x2 x3 x4 x5 l r, ppm x1 x2 x3 x4 x5 = (l, r) -> between x3 (dph x1 x2 x3 x4) l /\ between x3 (dph x2 x3 x4 x5) r.
Proof. exact ppm_closer. Qed.
Print Assumptions C119_limits.
(** Parabolas are reproduced, at their extremum too if they are curved by more than the
    threshold for rounding errors. *)
Theorem C119_parabola : forall c0 c1 c2 x, let A := zone_average c0 c1 c2 0 0 in
  Rabs c2 < Rabs (c1 + 2 * c2 * x) \/ (c1 = 0 /\ c2 = 0) \/
  / 10 ^ 12 * Rmax (Rmax (Rabs (A (x - 1))) (Rabs (A (x - 2)))) (Rmax (Rabs (A x)) (Rmax (Rabs (A (x + 1))) (Rabs (A (x + 2))))) < Rabs (2 * c2) ->
  ppm (A (x - 2)) (A (x - 1)) (A x) (A (x + 1)) (A (x + 2)) = (poly c0 c1 c2 0 0 (x - 1 / 2), poly c0 c1 c2 0 0 (x + 1 / 2)).
Proof. exact ppm_parabola. Qed.
Print Assumptions C119_parabola.
(** The reading is the same in either direction of the values. *)
Theorem C119_negation : forall x1 x2 x3 x4 x5 l r, ppm x1 x2 x3 x4 x5 = (l, r) -> ppm (- x1) (- x2) (- x3) (- x4) (- x5) = (- l, - r).
Proof. exact ppm_neg. Qed.
Print Assumptions C119_negation.
(** The first loop reads outside the array exactly if there are fewer than four ghost
    zones; *)
Theorem C119_inside : forall NG N q, (0 <= N)%Z -> (0 <= NG)%Z -> (N + 2 * NG <= Z.of_nat (length q))%Z -> (4 <= NG)%Z ->
  exists out, reconstruct_lr_ppm NG N q = Some out /\ length out = Z.to_nat (N + 2) /\
  forall k, (-1 <= k <= N)%Z -> exists x1 x2 x3 x4 x5, rd q (NG + k - 2) = Some x1 /\ rd q (NG + k - 1) = Some x2 /\ rd q (NG + k) = Some x3 /\
    rd q (NG + k + 1) = Some x4 /\ rd q (NG + k + 2) = Some x5 /\ rd out (k + 1) = Some (ppm x1 x2 x3 x4 x5).
Proof. exact ppm_inside. Qed.
Print Assumptions C119_inside.
(** the code has three (decs.h:65), *)
Theorem C119_outside : forall NG N q, (NG < 4)%Z -> (0 <= N)%Z -> reconstruct_lr_ppm NG N q = None.
Proof. exact ppm_outside. Qed.
Print Assumptions C119_outside.
Theorem C119_inside_refuted : exists N q, (1 <= N)%Z /\ Z.of_nat (length q) = (N + 2 * 3)%Z /\ reconstruct_lr_ppm 3 N q = None.
Proof. exists 1%Z, [0; 0; 0; 0; 0; 0; 0]. split; [lia|]. split; [reflexivity|]. apply ppm_outside; lia. Qed.
Print Assumptions C119_inside_refuted.

(** The other version, para, stays inside the array *)
Theorem C119_para_inside : forall N q, (0 <= N)%Z -> (N + 6 <= Z.of_nat (length q))%Z -> exists out, reconstruct_lr_par 3 N q = Some out /\ length out = Z.to_nat (N + 2) /\
  forall k, (-1 <= k <= N)%Z -> exists x1 x2 x3 x4 x5, rd q (3 + k - 2) = Some x1 /\ rd q (3 + k - 1) = Some x2 /\ rd q (3 + k) = Some x3 /\
    rd q (3 + k + 1) = Some x4 /\ rd q (3 + k + 2) = Some x5 /\ rd out (k + 1) = Some (para x1 x2 x3 x4 x5).
Proof. exact par_inside. Qed.
Print Assumptions C119_para_inside.
(** and does as well on strictly monotone averages; *)
Theorem C119_para_monotone : forall up x1 x2 x3 x4 x5, strict5 up x1 x2 x3 x4 x5 -> exists l r, para x1 x2 x3 x4 x5 = (Fin l, Fin r) /\ good up x2 x3 x4 l r.
Proof. exact para_monotone. Qed.
Print Assumptions C119_para_monotone.
(** but uniform data make it NaN, *)
Theorem C119_para_uniform : forall c, para c c c c c = (NaN, NaN).
Proof. exact para_const. Qed.
Print Assumptions C119_para_uniform.
Theorem C119_para_monotone_refuted : exists x1 x2 x3 x4 x5, ordered5 true x1 x2 x3 x4 x5 /\ para x1 x2 x3 x4 x5 = (NaN, NaN).
Proof. exists 1, 1, 1, 1, 1. split; [repeat split; cbn [ordered]; lra|apply para_const]. Qed.
Print Assumptions C119_para_monotone_refuted.
(** and so does x^2 beside its minimum, which the other version reproduces. *)
Theorem C119_para_parabola_refuted : exists c0 c1 c2 x, let A := zone_average c0 c1 c2 0 0 in
  para (A (x - 2)) (A (x - 1)) (A x) (A (x + 1)) (A (x + 2)) = (NaN, NaN) /\
  ppm (A (x - 2)) (A (x - 1)) (A x) (A (x + 1)) (A (x + 2)) = (poly c0 c1 c2 0 0 (x - 1 / 2), poly c0 c1 c2 0 0 (x + 1 / 2)).
Proof.
  exists 0, 0, 1, (1 / 2). intros A.
  assert (E : A (1 / 2 - 2) = 7 / 3 /\ A (1 / 2 - 1) = 1 / 3 /\ A (1 / 2) = 1 / 3 /\ A (1 / 2 + 1) = 7 / 3 /\ A (1 / 2 + 2) = 19 / 3) by (unfold A, zone_average, primitive_of; repeat split; field).
  pose proof (ppm_parabola 0 0 1 (1 / 2)) as W. cbv zeta in W. fold A in W. destruct E as (E1 & E2 & E3 & E4 & E5). rewrite E1, E2, E3, E4, E5 in *. split; [exact para_square|]. apply W.
  right; right. rewrite !Rabs_right by lra. pose proof eps12. assert (/ 10 ^ 12 <= / 10 ^ 1) by (apply Rinv_le_contravar; [lra|]; apply Rle_pow; [lra|lia]).
  assert (M : forall m, 0 <= m <= 19 / 3 -> / 10 ^ 12 * m < 2 * 1).
  { intros m (M1 & M2). apply Rle_lt_trans with (/ 10 ^ 1 * (19 / 3)); [apply Rmult_le_compat; lra|lra]. }
  apply M. split; [eapply Rle_trans; [|apply Rmax_l]; eapply Rle_trans; [|apply Rmax_l]; lra|]. repeat apply Rmax_lub; lra.
Qed.
Print Assumptions C119_para_parabola_refuted.

(** the parabola of the statements has mean q and the values l and r at the ends; and
    data which the limiters act on *)
Example C119_nonvacuous : (forall q l r, parabola q l r 0 = l /\ parabola q l r 1 = r /\ parabola_primitive q l r 1 - parabola_primitive q l r 0 = q /\
    forall x, derivable_pt_lim (parabola_primitive q l r) x (parabola q l r x)) /\
  ppm 0 0 0 1 1 = (0, 0) /\ ordered5 true 0 0 0 1 1 /\ strict5 false 9 7 4 2 1.
Proof.
  split; [exact parabola_ok|]. split.
  - destruct (ppm 0 0 0 1 1) as (l, r) eqn:E. destruct (C119_monotone true 0 0 0 1 1 l r) as (G1 & G2 & G3 & G4 & G5); [repeat split; cbn [ordered]; lra|exact E|]. cbn [ordered] in *.
    pose proof (G5 0 (1 / 2) ltac:(lra) ltac:(lra) ltac:(lra)) as M. pose proof (G5 (1 / 2) 1 ltac:(lra) ltac:(lra) ltac:(lra)) as M'. pose proof (G5 0 (1 / 3) ltac:(lra) ltac:(lra) ltac:(lra)) as M''.
    unfold parabola in M, M', M''. f_equal; lra.
  - repeat split; cbn [ordered strict]; lra.
Qed.
