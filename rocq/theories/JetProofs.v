From Coq Require Import Reals Bool ZArith Lra Lia.
From Verif Require Import RLib GeomModel FloorModel BinModel DiagModel DiagSpec DiagProofs DiagMore JetModel JetSpec.
Open Scope R_scope.

Lemma dot3_pos u : 0 <= dot3 u u.
Proof. unfold dot3. nra. Qed.
Lemma lorentz_sq u : lorentz u * lorentz u = 1 + dot3 u u.
Proof. unfold lorentz. apply sqrt_sqrt. pose proof (dot3_pos u). lra. Qed.
Lemma lorentz_pos u : 0 < lorentz u.
Proof. unfold lorentz. apply sqrt_lt_R0. pose proof (dot3_pos u). lra. Qed.

Definition flat_ucon (u : v3) : vec := fun j => if Nat.eqb j 0 then lorentz u / 1 else u j - lorentz u * 1 * mink 0 j.
Definition flat_state (p : prims) : state :=
  let u := flat_ucon (vel p) in let v := lower u mink in let b := FluxModel.bcon (mag p) u v in mks u v b (lower b mink).

Lemma flat_get p : get_state mink mink 1 p = Some (flat_state p).
Proof.
  unfold get_state, ucon_calc, mhd_gamma_calc.
  assert (Q : qsq_of mink (vel p) = dot3 (vel p) (vel p)) by (unfold qsq_of, dot3, mink; cbn; ring).
  rewrite Q. pose proof (dot3_pos (vel p)).
  destruct (Rltb_spec (dot3 (vel p) (vel p)) 0); [lra|]. reflexivity.
Qed.

Ltac expand := unfold flat_state, flat_ucon, lower, FluxModel.bcon, dot, sum4, mink, b2, stress, poynting, electric, cross, dot3, velocity; cbn [ucon ucov b_con b_cov vel mag rho uu P_EM Nat.eqb].

Ltac prepare p :=
  pose proof (lorentz_sq (vel p)) as L; pose proof (lorentz_pos (vel p)) as LP;
  expand; unfold dot3 in L; set (l := lorentz (vel p)) in *; clearbody l;
  set (x := vel p 1%nat) in *; set (y := vel p 2%nat) in *; set (z := vel p 3%nat) in *;
  set (a := mag p 1%nat); set (b := mag p 2%nat); set (c := mag p 3%nat); clearbody x y z a b c;
  assert (X : z * z = l * l - 1 - x * x - y * y) by lra;
  assert (Z2 : z ^ 2 = l * l - 1 - x * x - y * y) by (rewrite <- X; ring);
  assert (Z3 : z ^ 3 = z * (l * l - 1 - x * x - y * y)) by (rewrite <- X; ring);
  assert (Z4 : z ^ 4 = (l * l - 1 - x * x - y * y) * (l * l - 1 - x * x - y * y)) by (rewrite <- X; ring).

Lemma flat_bsq p : dot (b_con (flat_state p)) (b_cov (flat_state p)) = b2 (velocity (vel p)) (mag p).
Proof.
  prepare p. apply Rmult_eq_reg_l with (l * l); [|nra]. field_simplify; [|lra|lra].
  rewrite ?Z4, ?Z3, ?Z2. field.
Qed.
Lemma flat_energy p gdet : flux_magnetic gdet (P_EM p) (flat_state (P_EM p)) 1 0 =
  - (poynting (velocity (vel p)) (mag p) 1%nat + FluxModel.SMALL * lorentz (vel p) * vel p 1%nat) * gdet.
Proof.
  unfold flux_magnetic, mhd_magnetic. cbn [Nat.eqb]. rewrite flat_bsq. unfold P_EM at 1 2 3. cbn [rho uu]. rewrite Rabs_R0.
  set (s := FluxModel.SMALL). clearbody s. prepare p. f_equal.
  apply Rmult_eq_reg_l with (l * l); [|nra]. field_simplify; [|lra|lra].
  rewrite ?Z4, ?Z3, ?Z2. field.
Qed.
Lemma flat_momentum p gdet : flux_magnetic gdet (P_EM p) (flat_state (P_EM p)) 1 1 =
  (stress (velocity (vel p)) (mag p) 1%nat + FluxModel.SMALL * (vel p 1%nat * vel p 1%nat)) * gdet.
Proof.
  unfold flux_magnetic, mhd_magnetic. cbn [Nat.eqb]. rewrite flat_bsq. unfold P_EM at 1 2. cbn [rho uu]. rewrite Rabs_R0.
  set (s := FluxModel.SMALL). clearbody s. prepare p. f_equal.
  apply Rmult_eq_reg_l with (l * l); [|nra]. field_simplify; [|lra|lra].
  rewrite ?Z4, ?Z3, ?Z2. field.
Qed.

(** the sum over the shell *)
Lemma jet_sum g jz : (0 < c1 g)%nat -> (5 < n1 g)%nat -> jet_EM_flux g jz = through g jz 5.
Proof.
  intros C N. unfold through. rewrite <- shell_around. set (f := fun i j k => jz i j k * dx2 g * dx3 g).
  replace 5%Z with (5 + NG - NG)%Z by lia. rewrite <- (at_inner g f (5 + NG)) by lia. unfold jet_EM_flux, mpi_sum. apply loop_ext. intros p1 _. apply loop_ext. intros p2 _. apply loop_ext. intros p3 _.
  unfold jet_proc. rewrite (loop_single (n1 g) 5); [|exact N|].
  - change (Z.of_nat 5 + NG =? 5 + NG)%Z with true. rewrite andb_true_r. reflexivity.
  - intros j _ D. replace (Z.of_nat j + NG =? 5 + NG)%Z with false by (symmetry; apply Z.eqb_neq; lia). now rewrite andb_false_r.
Qed.
Lemma jet_thin g jz : (n1 g <= 5)%nat -> jet_EM_flux g jz = 0.
Proof.
  intros N. unfold jet_EM_flux, mpi_sum. apply loop_z. intros p1 _. apply loop_z. intros p2 _. apply loop_z. intros p3 _.
  unfold jet_proc. apply loop_z. intros j J. replace (Z.of_nat j + NG =? 5 + NG)%Z with false by (symmetry; apply Z.eqb_neq; lia). now rewrite andb_false_r.
Qed.
