(** Concrete tables for the temperature inverse, and the adiabatic index. *)
From Coq Require Import Reals Lra Lia Bool ZArith List.
From Verif Require Import RLib XLib IntLib TabModel TabSpec TabProofs RootModel RootSpec RootProofs InvModel InvSpec InvProofs InvFill.
Import ListNotations.
Open Scope R_scope.

(** le = 10 + lT + 10 Ye on two densities, two temperatures, three electron fractions *)
Definition plane : list R := [10; 10; 11; 11; 20; 20; 21; 21; 30; 30; 31; 31].
Definition plane_f (x y z : R) : R := 10 + y + 10 * z.
Lemma three i (P : Z -> Prop) : (0 <= i < 3)%Z -> P 0%Z -> P 1%Z -> P 2%Z -> P i.
Proof. intros H A B C. assert (Q : (i = 0 \/ i = 1 \/ i = 2)%Z) by lia. destruct Q as [->|[->| ->]]; auto. Qed.
Lemma two i (P : Z -> Prop) : (0 <= i < 2)%Z -> P 0%Z -> P 1%Z -> P i.
Proof. intros H A B. assert (Q : (i = 0 \/ i = 1)%Z) by lia. destruct Q as [->| ->]; auto. Qed.
Lemma plane_rising : rising (ax_n [0; 1]) (ax_n [0; 1]) (ax_n [0; 1; 2]) plane 1 1 1.
Proof.
  intros i j k t0 t1 I J1 J2 K. cbn in I, J2, K. assert (j = 0%Z) by lia. subst j. revert i I. intros i I. revert t0 t1.
  pattern i. apply two; auto; pattern k; apply three; auto; intros t0 t1 A B; cbn in A, B; injection A; injection B; lra.
Qed.
Lemma plane_bounds : Forall (fun v => 10 <= v <= 31) plane.
Proof. unfold plane. repeat (apply Forall_cons; [lra|]). apply Forall_nil. Qed.
Lemma plane_tab : tabulates plane_f [0; 1] [0; 1] [0; 1; 2] plane.
Proof.
  split; [reflexivity|]. intros i j k x y z I J K. pose proof (rd_in _ _ _ I) as I'. pose proof (rd_in _ _ _ J) as J'. pose proof (rd_in _ _ _ K) as K'. cbn in I', J', K'.
  revert x y z I J K. pattern i. apply two; auto; pattern j; apply two; auto; pattern k; apply three; auto; intros x y z I J K; cbn in I, J, K; injection I; injection J; injection K; intros <- <- <-;
  (match goal with |- rd plane ?z = _ => let r := eval hnf in (rd plane z) in change (rd plane z) with r end); unfold plane_f; apply f_equal; lra.
Qed.
Lemma plane_tri : trilinear plane_f.
Proof. exists 10, 0, 1, 10, 0, 0, 0, 0. intros. unfold plane_f. ring. Qed.
Lemma plane_interp lrho lT ye : lrho <> 1 -> EOS_SC_interp [0; 1] [0; 1] [0; 1; 2] lrho lT ye plane = Some (plane_f lrho lT ye).
Proof.
  intros H. apply (interp_exact [0; 1] [0; 1] [0; 1; 2] 1 1 1); auto using even01, even012, TOL_lt1, plane_tab, plane_tri.
Qed.
Lemma ax01 : ax_min [0; 1] = 0 /\ ax_max [0; 1] = 1.
Proof. split; reflexivity. Qed.
Lemma TOL_small : TOL < / 1000000.
Proof. unfold TOL. apply Rinv_lt_contravar; lra. Qed.
Lemma top01 : 3 * TABLE_TOL <= ax_max [0; 1] - 2 * TOL.
Proof. rewrite (proj2 ax01), TT_TOL. pose proof TOL_small. lra. Qed.
(** the two-dimensional bounds at electron fraction 1/2 are those at electron fraction 0 *)
Lemma plane_cols pick : fill_2d [0; 1] [0; 1] [0; 1; 2] pick plane =
  [pick (column [0; 1] [0; 1] plane 0 0); pick (column [0; 1] [0; 1] plane 1 0); pick (column [0; 1] [0; 1] plane 0 1);
   pick (column [0; 1] [0; 1] plane 1 1); pick (column [0; 1] [0; 1] plane 0 2); pick (column [0; 1] [0; 1] plane 1 2)].
Proof. reflexivity. Qed.
Lemma plane_min : tab_le_min_2d [0; 1] [0; 1] [0; 1; 2] plane = [10; 10; 20; 20; 30; 30].
Proof.
  unfold tab_le_min_2d. rewrite plane_cols.
  rewrite !(column_min [0; 1] [0; 1] [0; 1; 2] 1 even01 plane eq_refl 1 1 ltac:(lra) plane_rising) by (cbn; lia). reflexivity.
Qed.
Lemma plane_max : tab_le_max_2d [0; 1] [0; 1] [0; 1; 2] plane = [11; 11; 21; 21; 31; 31].
Proof.
  unfold tab_le_max_2d. rewrite plane_cols.
  rewrite !(column_max [0; 1] [0; 1] [0; 1; 2] 1 even01 plane eq_refl 1 1 ltac:(lra) plane_rising) by (cbn; lia). reflexivity.
Qed.
Lemma half a b c : interp_2d [0; 1] [0; 1; 2] 0 (1 / 2) [a; a; b; b; c; c] = Some a.
Proof.
  destruct (interp_2d_value [0; 1] [0; 1; 2] 1 1 even01 even012 [a; a; b; b; c; c] 0 (1 / 2)) as (i & k & ri & yk & t0 & t1 & t2 & I & K & R1 & R2 & C1 & C2 & T0 & T1 & T2 & V);
    [reflexivity|cbv; lra|cbv [ax_min ax_max nth length Nat.sub]; lra|].
  cbv zeta in V. rewrite V. change (ax_n [0; 1]) with 2%Z in *. change (ax_n [0; 1; 2]) with 3%Z in *.
  assert (i = 0%Z) by lia. subst i. change (rd [0; 1] 0) with (Some 0) in R1. injection R1. intros <-.
  assert (Ck : (k = 0 \/ k = 1)%Z) by lia. destruct Ck as [-> | ->].
  - change (rd [0; 1; 2] 0) with (Some 0) in R2. injection R2. intros <-. unfold entry in *. change (ax_n [0; 1]) with 2%Z in *.
    change (Some a = Some t0) in T0. change (Some a = Some t1) in T1. change (Some b = Some t2) in T2.
    injection T0. injection T1. injection T2. intros <- <- <-. f_equal. field.
  - change (rd [0; 1; 2] 1) with (Some 1) in R2. injection R2. intros <-. lra.
Qed.
Lemma plane_limits : find_min plane = 10 /\ find_max plane = 31.
Proof.
  split; [apply find_min_spec|apply find_max_spec]; cbn; auto 20; intros v H; pose proof plane_bounds as F; apply (proj1 (Forall_forall _ _) F) in H; lra.
Qed.
(** between two electron fractions the temperature is lost *)
Lemma fill_refuted : exists n x u, EOS_SC_get_u_of_T [0; 1] [0; 1] [0; 1; 2] plane 0 0 1 (1 * 1) (pow10 (9 / 10)) (1 / 2) = Some u /\
  (forall j, EOS_SC_fill [0; 1] [0; 1] [0; 1; 2] plane 0 0 1 1 (n + j) 1 u (1 / 2) (9 / 10) = Stored 0 x (1 / 2)) /\ x < 1 / 10.
Proof.
  destruct ax01 as (AM & AX). pose proof TOL_small as TS. pose proof TOL_pos as TP.
  assert (P0 : pow10 0 = 1) by (unfold pow10; rewrite Rmult_0_l; apply exp_0).
  assert (CR : catch_rho [0; 1] 1 = 0).
  { unfold catch_rho. rewrite AM, AX, P0. destruct (Rltb_spec 1 1); [lra|]. destruct (Rleb_spec (pow10 1) 1) as [N|_].
    - pose proof (pow10_lt 0 1 ltac:(lra)). lra.
    - unfold log10. rewrite ln_1. unfold Rdiv. ring. }
  assert (CY : catch_in [0; 1; 2] (1 / 2) = 1 / 2) by (apply catch_in_id; cbv [ax_min ax_max nth length Nat.sub]; lra).
  set (u := e2u 0 (1 * 1) (le2e 0 (159 / 10)) / 1).
  assert (GU : EOS_SC_get_u_of_T [0; 1] [0; 1] [0; 1; 2] plane 0 0 1 (1 * 1) (pow10 (9 / 10)) (1 / 2) = Some u).
  { unfold EOS_SC_get_u_of_T. cbv zeta. rewrite Rmult_1_r, CR, CY, AM, AX.
    destruct (Rltb_spec (pow10 (9 / 10)) (pow10 0)) as [N|_]; [apply pow10_lt_inv in N; lra|].
    destruct (Rltb_spec (pow10 1) (pow10 (9 / 10))) as [N|_]; [apply pow10_lt_inv in N; lra|].
    rewrite log10_pow10, catch_in_id by (rewrite ?AM, ?AX; lra). rewrite plane_interp by lra. unfold u. rewrite Rmult_1_r. do 4 f_equal. unfold plane_f. lra. }
  assert (CE : catch_e plane 0 (u2e 0 (1 * 1) (u * 1)) = 159 / 10).
  { replace (u2e 0 (1 * 1) (u * 1)) with (le2e 0 (159 / 10)) by (unfold u, u2e, e2u; field). unfold catch_e. destruct plane_limits as (-> & ->). unfold le2e.
    destruct (Rltb_spec (pow10 (159 / 10) - 0) (pow10 10 - 0)) as [N|_]; [assert (Q : pow10 (159 / 10) < pow10 10) by lra; apply pow10_lt_inv in Q; lra|].
    destruct (Rleb_spec (pow10 31 - 0) (pow10 (159 / 10) - 0)) as [N|_]; [pose proof (pow10_lt (159 / 10) 31 ltac:(lra)); lra|].
    unfold e2le. replace (pow10 (159 / 10) - 0 + 0) with (pow10 (159 / 10)) by ring. apply log10_pow10. }
  assert (C1 : catch_var_2d [0; 1] [0; 1; 2] 0 (1 / 2) (159 / 10) (tab_le_min_2d [0; 1] [0; 1] [0; 1; 2] plane) (tab_le_max_2d [0; 1] [0; 1] [0; 1; 2] plane) = Some (11 - TOL)).
  { unfold catch_var_2d. rewrite plane_min, plane_max, !half. destruct (Rleb_spec (159 / 10) 10); [lra|]. destruct (Rleb_spec 11 (159 / 10)); [reflexivity|lra]. }
  assert (C2 : catch_var_2d_monotone [0; 1] [0; 1] [0; 1; 2] 0 (1 / 2) (11 - TOL) plane = Some (15 + TOL)).
  { unfold catch_var_2d_monotone. rewrite plane_interp by lra. rewrite AM. unfold plane_f. destruct (Rleb_spec (11 - TOL) (10 + 0 + 10 * (1 / 2))); [f_equal; lra|lra]. }
  assert (FV : forall t, lT_f [0; 1] [0; 1] [0; 1; 2] 0 (1 / 2) plane t = 15 + t).
  { intros t. unfold lT_f. rewrite plane_interp by lra. unfold plane_f. lra. }
  destruct (find_lT_ok [0; 1] [0; 1] [0; 1; 2] 1 1 1 even01 even01 even012 TOL_lt1 TOL_lt1 TOL_lt1 plane eq_refl 1 1 ltac:(lra) plane_rising 10 31 ltac:(lra) plane_bounds ltac:(lra)
    ltac:(lra) (or_introl top01) 0 (1 / 2) (15 + TOL) ltac:(rewrite AM, AX; lra) ltac:(cbv [ax_min ax_max nth length Nat.sub]; lra) ltac:(rewrite FV, AM; lra) ltac:(rewrite FV, AX; lra) (catch_in [0; 1] (9 / 10))) as (n & x & FX & FE).
  exists n, x, u. split; [exact GU|]. split.
  - intros j. unfold EOS_SC_fill. cbv zeta. rewrite CE, CY, Rmult_1_r, CR. destruct (Reqb_spec 1 0); [lra|]. rewrite C1, C2, FX. reflexivity.
  - rewrite FV in FE. assert (A : Rabs (15 + TOL) <= 16) by (apply Rabs_le; lra). pose proof TT_TOL as TT.
    assert (B : Rabs (15 + x - (15 + TOL)) <= / 100).
    { assert (2 * TABLE_TOL * (Rabs (15 + TOL) + 1) <= 2 * TABLE_TOL * 17) by (apply Rmult_le_compat_l; lra). destruct FE; lra. }
    pose proof (Rle_abs (15 + x - (15 + TOL))). lra.
Qed.
Lemma catch_rho_inside (a : axis) r : pow10 (ax_min a) <= r < pow10 (ax_max a) -> catch_rho a r = log10 r.
Proof. intros H. unfold catch_rho. destruct (Rltb_spec r (pow10 (ax_min a))); [lra|]. destruct (Rleb_spec (pow10 (ax_max a)) r); [lra|reflexivity]. Qed.
Lemma pow10_1 : pow10 1 = 10.
Proof. unfold pow10. rewrite Rmult_1_l. apply exp_ln. lra. Qed.
Lemma pow10_0 : pow10 0 = 1.
Proof. unfold pow10. rewrite Rmult_0_l. apply exp_0. Qed.
(** the density passed to the cold floor is in code units *)
Lemma cold_refuted : exists r RU c a, 0 < r /\ 0 < RU /\ pow10 (ax_min [0; 1]) <= r * RU < pow10 (ax_max [0; 1]) /\
  cold_u [0; 1] [0; 1] [0; 1; 2] plane 0 0 1 r 0 = Some c /\ EOS_SC_get_minu [0; 1] [0; 1] [0; 1; 2] plane 0 0 1 (r * RU) 0 = Some a /\ 0 < c /\ c = a / RU /\ RU = 10.
Proof.
  destruct ax01 as (AM & AX). exists (1 / 5), 10. eexists. eexists. split; [lra|]. split; [lra|]. rewrite AM, AX, pow10_0, pow10_1. split; [lra|].
  assert (CY : catch_in [0; 1; 2] 0 = 0) by (apply catch_in_id; cbv [ax_min ax_max nth length Nat.sub]; lra).
  assert (Q : forall s, catch_rho [0; 1] s <> 1). { intros s. pose proof (catch_rho_range [0; 1] 1 s even01 TOL_lt1) as H. rewrite AM, AX in H. lra. }
  unfold cold_u, EOS_SC_get_minu. cbv zeta. rewrite CY, AM, !plane_interp by apply Q. split; [reflexivity|]. split; [reflexivity|].
  unfold e2u, le2e, plane_f. pose proof (pow10_pos (10 + 0 + 10 * 0)). split; [lra|]. split; lra.
Qed.

(** ** The adiabatic index *)
Lemma cs2_range rho P hm1 a b s : 0 < cs2_entry rho P hm1 a b s < 1.
Proof.
  assert (S : 0 < SMALL < / 1000).
  { unfold SMALL. split; [apply Rinv_0_lt_compat, pow_lt; lra|]. apply Rinv_lt_contravar; lra. }
  unfold cs2_entry. cbv zeta. unfold MY_MIN, MY_MAX. repeat match goal with |- context [if Rltb ?a ?b then _ else _] => destruct (Rltb_spec a b) end; lra.
Qed.
Section Gamma.
Variables (rho tmp yes : axis) (dr dt dy : R).
Hypothesis E1 : even rho dr.
Hypothesis E2 : even tmp dt.
Hypothesis E3 : even yes dy.
Hypothesis T1 : TOL < dr.
Hypothesis T2 : TOL < dt.
Hypothesis T3 : TOL < dy.
Variables cs2 lP : list R.
Hypothesis S1 : length cs2 = (length rho * length tmp * length yes)%nat.
Hypothesis S2 : length lP = (length rho * length tmp * length yes)%nat.
Section Pt.
Variables (lrho lT ye : R).
Hypothesis B1 : ax_min rho <= lrho < ax_max rho.
Hypothesis B2 : ax_min tmp <= lT < ax_max tmp.
Hypothesis B3 : ax_min yes <= ye < ax_max yes.
Lemma gamma_range : exists g, EOS_SC_gamma rho tmp yes cs2 lP lrho lT ye = Some g /\ 11 / 10 <= g <= 2.
Proof.
  unfold EOS_SC_gamma. destruct (interp_defined rho tmp yes dr dt dy E1 E2 E3 T1 T2 T3 cs2 lrho lT ye S1 ltac:(lra)) as (c & ->).
  destruct (interp_defined rho tmp yes dr dt dy E1 E2 E3 T1 T2 T3 lP lrho lT ye S2 ltac:(lra)) as (p & ->). cbv zeta. eexists. split; [reflexivity|].
  repeat match goal with |- context [if Rltb ?a ?b then _ else _] => destruct (Rltb_spec a b) end; lra.
Qed.
(** a pressure of at least 1 cm^2/s^2 times the highest density *)
Lemma gamma_stuck : Forall (fun v => 0 <= v <= 1) cs2 -> (exists b, Forall (fun v => ax_max rho <= v <= b) lP) ->
  EOS_SC_gamma rho tmp yes cs2 lP lrho lT ye = Some (11 / 10).
Proof.
  intros F1 (b & F2). unfold EOS_SC_gamma. destruct (interp_bounded rho tmp yes dr dt dy E1 E2 E3 T1 T2 T3 cs2 lrho lT ye 0 1 S1 B1 B2 B3 F1) as (c & -> & C).
  destruct (interp_bounded rho tmp yes dr dt dy E1 E2 E3 T1 T2 T3 lP lrho lT ye (ax_max rho) b S2 B1 B2 B3 F2) as (p & -> & P). cbv zeta.
  assert (Q : pow10 (lrho - p) <= 1). { rewrite <- pow10_0. apply pow10_le. lra. } pose proof (pow10_pos (lrho - p)).
  assert (c * pow10 (lrho - p) <= 1 * 1) by (apply Rmult_le_compat; lra).
  destruct (Rltb_spec (c * pow10 (lrho - p)) (11 / 10)); [|lra]. destruct (Rltb_spec 2 (11 / 10)); [lra|reflexivity].
Qed.
End Pt.
End Gamma.
(** an ideal gas of index 5/3: density 1, specific energy 1e15, in cgs; the index from its
    sound speed is 5/3, what is returned is 11/10 *)
Lemma gamma_refuted : exists e P hm1 dpdrhoe dpderho cs2,
  0 < e /\ P = 2 / 3 * 1 * e /\ hm1 = e + P / 1 /\ dpdrhoe = 2 / 3 * e /\ dpderho = 2 / 3 * 1 /\
  cs2 = cs2_entry 1 P hm1 dpdrhoe dpderho 0 /\ 1 * (cs2 * (hm1 + CL * CL)) / P = 5 / 3 /\
  EOS_SC_gamma [0; 1] [0; 1] [0; 1] (repeat cs2 8) (repeat (log10 P) 8) 0 0 0 = Some (11 / 10).
Proof.
  set (e := 10 ^ 15). set (P := 2 / 3 * 1 * e). exists e, P, (e + P / 1), (2 / 3 * e), (2 / 3 * 1). eexists. split; [apply pow_lt; lra|].
  split; [reflexivity|]. split; [reflexivity|]. split; [reflexivity|]. split; [reflexivity|]. split; [reflexivity|].
  assert (EP : 0 < e) by (apply pow_lt; lra). assert (CP : 1 < CL) by (unfold CL; lra).
  assert (CC : e < CL * CL) by (unfold e, CL; lra).
  assert (H : 0 < e + P / 1 + CL * CL) by (unfold P; lra).
  assert (V : cs2_entry 1 P (e + P / 1) (2 / 3 * e) (2 / 3 * 1) 0 = 10 / 9 * e / (e + P / 1 + CL * CL)).
  { unfold cs2_entry. cbv zeta. replace (e + P / 1 + CL * CL - 0) with (e + P / 1 + CL * CL) by ring.
    replace ((2 / 3 * e + P / (1 * 1) * (2 / 3 * 1)) / (e + P / 1 + CL * CL)) with (10 / 9 * e / (e + P / 1 + CL * CL)) by (unfold P in *; field; lra).
    assert (S : 0 < SMALL <= / 10 ^ 20) by (unfold SMALL; split; [apply Rinv_0_lt_compat, pow_lt; lra|lra]).
    set (D := e + P / 1 + CL * CL) in *. assert (D1 : D <= 10 ^ 21) by (unfold D, P, e, CL; lra). assert (D2 : 20 * e < D) by (unfold D, P, e, CL; lra).
    assert (LOW : 10 * SMALL < 10 / 9 * e / D).
    { apply (Rmult_lt_reg_r D); [auto|]. unfold Rdiv. rewrite (Rmult_assoc _ (/ D)), Rinv_l by lra.
      assert (10 * SMALL * D <= 10 * / 10 ^ 20 * 10 ^ 21) by (apply Rmult_le_compat; lra). replace (10 * / 10 ^ 20 * 10 ^ 21) with 100 in * by (field). unfold e. lra. }
    assert (UP : 10 / 9 * e / D < 1 - 10 * SMALL).
    { apply (Rmult_lt_reg_r D); [auto|]. unfold Rdiv. rewrite (Rmult_assoc _ (/ D)), Rinv_l by lra.
      assert (SMALL < / 1000) by (unfold SMALL; apply Rinv_lt_contravar; lra). assert (99 / 100 * D <= (1 - 10 * SMALL) * D) by (apply Rmult_le_compat_r; lra). lra. }
    unfold MY_MAX, MY_MIN. destruct (Rltb_spec (10 * SMALL) (10 / 9 * e / D)); [|lra]. destruct (Rltb_spec (10 / 9 * e / D) (1 - 10 * SMALL)); [reflexivity|lra]. }
  split.
  - rewrite V. unfold P in *. field. split; lra.
  - destruct ax01 as (AM & AX). pose proof (cs2_range 1 P (e + P / 1) (2 / 3 * e) (2 / 3 * 1) 0) as CR.
    assert (LP : 1 <= log10 P).
    { rewrite <- (log10_pow10 1). unfold log10, Rdiv. apply Rmult_le_compat_r; [left; apply Rinv_0_lt_compat, ln10_pos|]. rewrite pow10_1. left. apply ln_increasing; [lra|]. unfold P, e. lra. }
    apply (gamma_stuck [0; 1] [0; 1] [0; 1] 1 1 1); auto using even01, TOL_lt1; rewrite ?AM, ?AX; try lra.
    + apply Forall_forall. intros v Hv. apply repeat_spec in Hv. subst v. lra.
    + exists (log10 P). apply Forall_forall. intros v Hv. apply repeat_spec in Hv. subst v. lra.
Qed.
