(** Entropy of the ideal gas; pressure of the polytrope. *)
From Coq Require Import Reals Lra.
From Coquelicot Require Import Coquelicot.
From Verif Require Import RLib EosGModel EosGSpec.
Open Scope R_scope.

Lemma entropy_is gam rho u : 0 < rho -> entropy_rho0_u gam rho u * Rpower rho gam = pressure_rho0_u gam rho u.
Proof.
  intros P. unfold entropy_rho0_u, adiabatic_constant, pressure_rho0_u.
  replace ((gam - 1) * (u * Rpower rho (- gam)) * Rpower rho gam) with ((gam - 1) * u * (Rpower rho (- gam) * Rpower rho gam)) by ring.
  rewrite <- Rpower_plus. replace (- gam + gam) with 0 by ring. rewrite Rpower_O by assumption. ring.
Qed.
Lemma poly_first_law K Gam rho : 1 < Gam -> 0 <= rho ->
  let u r := poly_pressure r K Gam / (Gam - 1) in
  derivable_pt_lim u rho ((u rho + poly_pressure rho K Gam) / (rho + / 10 ^ 20)).
Proof.
  intros G P u. assert (S0 : 0 < / 10 ^ 20) by (apply Rinv_0_lt_compat, pow_lt; lra).
  unfold u, poly_pressure. fold SMALL. change (/ 10 ^ 20) with SMALL in S0. set (s := SMALL) in *. clearbody s.
  apply is_derive_Reals. apply (is_derive_ext_loc (fun r => K * Rpower (r + s) Gam / (Gam - 1))).
  - exists (mkposreal s S0). intros y Y. unfold ball in Y. cbn in Y. unfold AbsRing_ball, abs, minus, plus, opp in Y. cbn in Y. apply Rabs_def2 in Y.
    rewrite Rabs_pos_eq by lra. reflexivity.
  - rewrite Rabs_pos_eq by lra. unfold Rpower. auto_derive; [lra|]. set (e := exp _). field. split; lra.
Qed.
Lemma poly_at K Gam rho : 0 <= rho -> poly_pressure rho K Gam = K * Rpower (rho + / 10 ^ 20) Gam.
Proof.
  intros P. assert (S0 : 0 < / 10 ^ 20) by (apply Rinv_0_lt_compat, pow_lt; lra).
  unfold poly_pressure, SMALL. rewrite Rabs_pos_eq by lra. reflexivity.
Qed.
