(** Where EOS_SC_pressure_rho0_w and EOS_SC_u_press miss. *)
From Coq Require Import Reals Lra Lia Bool ZArith List.
From Verif Require Import RLib XLib IntLib TabModel TabSpec TabProofs RootModel RootSpec RootProofs InvModel InvSpec InvProofs InvFill InvWit PinvModel PinvProofs PinvMain.
Import ListNotations.
Open Scope R_scope.

(** The secant method solves a line of slope 1 exactly, wherever the solution is. *)
Lemma secant_line f a y xtol ytol g : (forall x, f x = a + x) -> 0 < xtol -> 0 < ytol -> root_secant f y xtol ytol g = Some (y - a).
Proof.
  intros F X Y. assert (ST : forall x, secant_step f y xtol x = Some (y - a)).
  { intros x. unfold secant_step. cbv zeta. rewrite !F. set (dx := Rabs (/ 10 ^ 7 * x) + xtol). pose proof (Rabs_pos (/ 10 ^ 7 * x)). assert (D : 0 < dx) by (unfold dx; lra).
    replace ((a + (x + dx) - (a + (x - dx))) / (2 * dx)) with 1 by (field; lra). destruct (Reqb_spec 1 0); [lra|]. f_equal. field. }
  assert (LP : forall k x, exists z, secant_loop f y xtol k x = Some (z, y - a)).
  { induction k as [|k IH]; intros x; cbn [secant_loop]; rewrite ST; [eauto|]. destruct (Rltb _ _); [apply IH|eauto]. }
  unfold root_secant. destruct (LP 9%nat g) as (z & ->). cbv zeta. rewrite F. replace (a + (y - a) - y) with 0 by ring. rewrite Rabs_R0. unfold Rdiv. rewrite Rmult_0_l, Rabs_R0.
  destruct (Rltb_spec ytol 0); [lra|]. rewrite andb_false_r. reflexivity.
Qed.
(** The wrong bounds of catch_var_2d (C82) put the pressure below the column; no monotone
    catch follows, and the search leaves the table. *)
Lemma u_press_outside : exists P u0 u lT, EOS_SC_pressure_rho0_u [0; 1] [0; 1] [0; 1; 2] plane 1 0 (9 / 10) (1 / 2) = Some P /\
  EOS_SC_get_u_of_T [0; 1] [0; 1] [0; 1; 2] plane 0 0 1 (1 * 1) (pow10 (9 / 10)) (1 / 2) = Some u0 /\
  (forall j, EOS_SC_u_press [0; 1] [0; 1] [0; 1; 2] plane plane 0 0 1 1 j P 1 (1 / 2) (9 / 10) = Got u lT) /\ lT < -3 /\ u < u0 / 10000.
Proof.
  destruct ax01 as (AM & AX). pose proof TOL_small as TS. pose proof TOL_pos as TP. pose proof TT_pos as TT. pose proof TT_TOL as TTT.
  assert (CR : catch_rho [0; 1] 1 = 0).
  { rewrite catch_rho_inside; [unfold log10; rewrite ln_1; unfold Rdiv; ring|]. rewrite AM, AX, pow10_0, pow10_1. lra. }
  assert (CY : catch_in [0; 1; 2] (1 / 2) = 1 / 2) by (apply catch_in_id; cbv [ax_min ax_max nth length Nat.sub]; lra).
  exists (pow10 (159 / 10) / 1), (e2u 0 (1 * 1) (le2e 0 (159 / 10)) / 1), (e2u 0 (1 * 1) (le2e 0 (11 - TOL)) / 1), (-4 - TOL).
  split; [unfold EOS_SC_pressure_rho0_u; rewrite plane_interp by lra; unfold plane_f; do 3 f_equal; lra|]. split.
  { unfold EOS_SC_get_u_of_T. cbv zeta. rewrite Rmult_1_r, CR, CY, AM, AX.
    destruct (Rltb_spec (pow10 (9 / 10)) (pow10 0)) as [N|_]; [apply pow10_lt_inv in N; lra|].
    destruct (Rltb_spec (pow10 1) (pow10 (9 / 10))) as [N|_]; [apply pow10_lt_inv in N; lra|].
    rewrite log10_pow10, catch_in_id by (rewrite ?AM, ?AX; lra). rewrite plane_interp by lra. do 4 f_equal. unfold plane_f. lra. }
  split; [|split; [lra|]].
  - intros j. unfold EOS_SC_u_press. cbv zeta. rewrite CY, Rmult_1_r, CR.
    assert (CP : catch_press plane (pow10 (159 / 10) / 1 * 1) = 159 / 10).
    { replace (pow10 (159 / 10) / 1 * 1) with (pow10 (159 / 10)) by field. unfold catch_press. destruct plane_limits as (-> & ->).
      destruct (Rltb_spec (pow10 (159 / 10)) (pow10 10)) as [N|_]; [apply pow10_lt_inv in N; lra|].
      destruct (Rleb_spec (pow10 31) (pow10 (159 / 10))) as [N|_]; [pose proof (pow10_lt (159 / 10) 31 ltac:(lra)); lra|]. apply log10_pow10. }
    rewrite CP. unfold catch_var_2d.
    change (fill_2d [0; 1] [0; 1] [0; 1; 2] find_min plane) with (tab_le_min_2d [0; 1] [0; 1] [0; 1; 2] plane). change (fill_2d [0; 1] [0; 1] [0; 1; 2] find_max plane) with (tab_le_max_2d [0; 1] [0; 1] [0; 1; 2] plane).
    rewrite plane_min, plane_max, !half. destruct (Rleb_spec (159 / 10) 10); [lra|]. destruct (Rleb_spec 11 (159 / 10)); [|lra].
    assert (FV : forall t, lT_f [0; 1] [0; 1] [0; 1; 2] 0 (1 / 2) plane t = 15 + t).
    { intros t. unfold lT_f. rewrite plane_interp by lra. unfold plane_f. lra. }
    assert (FL : find_lT [0; 1] [0; 1] [0; 1; 2] j 0 (catch_in [0; 1] (9 / 10)) (1 / 2) plane (11 - TOL) = Success (-4 - TOL)).
    { unfold find_lT, find_root. rewrite AM, AX, !FV.
      assert (FAR : forall v, 14 < v < 17 -> ~ Rabs (v - (11 - TOL)) / (Rabs v + TABLE_TOL) < TABLE_TOL).
      { intros v V N. rewrite !Rabs_right in N by lra. apply (Rmult_lt_compat_r (v + TABLE_TOL)) in N; [|lra]. unfold Rdiv in N. rewrite Rmult_assoc, Rinv_l in N by lra.
        assert (TABLE_TOL * (v + TABLE_TOL) <= / 100 * 18) by (apply Rmult_le_compat; lra). lra. }
      destruct (Rltb_spec (Rabs (15 + (1 - 2 * TOL) - (11 - TOL)) / (Rabs (15 + (1 - 2 * TOL)) + TABLE_TOL)) TABLE_TOL) as [N|_]; [exfalso; revert N; apply FAR; lra|].
      destruct (Rltb_spec (Rabs (15 + 0 - (11 - TOL)) / (Rabs (15 + 0) + TABLE_TOL)) TABLE_TOL) as [N|_]; [exfalso; revert N; apply FAR; lra|].
      rewrite (secant_line _ 15 (11 - TOL) _ _ _ FV) by lra. f_equal. lra. }
    rewrite FL, plane_interp by lra. unfold plane_f. replace (10 + (-4 - TOL) + 10 * (1 / 2)) with (11 - TOL) by lra. reflexivity.
  - unfold e2u, le2e. assert (P4 : pow10 4 = 10000).
    { replace 4 with (1 + 1 + 1 + 1) by lra. unfold pow10. rewrite !Rmult_plus_distr_r, !exp_plus, !Rmult_1_l, exp_ln by lra. lra. }
    assert (Q : pow10 (11 - TOL) * pow10 4 < pow10 (159 / 10)).
    { unfold pow10 at 1 2. rewrite <- exp_plus, <- Rmult_plus_distr_r. change (pow10 (11 - TOL + 4) < pow10 (159 / 10)). apply pow10_lt. lra. }
    rewrite P4 in Q. lra.
Qed.

(** ** Between two temperatures of the table *)
Lemma pow10_plus a b : pow10 (a + b) = pow10 a * pow10 b.
Proof. unfold pow10. now rewrite Rmult_plus_distr_r, exp_plus. Qed.
Lemma pow10_n2 : pow10 2 = 100.
Proof. replace 2 with (1 + 1) by lra. rewrite pow10_plus, pow10_1. lra. Qed.
Lemma pow10_n4 : pow10 4 = 10000.
Proof. replace 4 with (2 + 2) by lra. rewrite pow10_plus, pow10_n2. lra. Qed.
Lemma log10_of x a : pow10 a = x -> log10 x = a.
Proof. intros <-. apply log10_pow10. Qed.
Lemma log10_lt x y : 0 < x -> x < y -> log10 x < log10 y.
Proof. intros X H. unfold log10, Rdiv. apply Rmult_lt_compat_r; [apply Rinv_0_lt_compat, ln10_pos|]. now apply ln_increasing. Qed.
Definition l99 : R := log10 99.
Definition l9900 : R := log10 9900.
Lemma l99_val : pow10 l99 = 99.
Proof. apply pow10_log10. lra. Qed.
Lemma l9900_val : pow10 l9900 = 9900.
Proof. apply pow10_log10. lra. Qed.
Lemma l99_b : 1 < l99 < 2.
Proof. split; apply pow10_lt_inv; rewrite l99_val, ?pow10_1, ?pow10_n2; lra. Qed.
Lemma l9900_b : 3 < l9900 < 4.
Proof. split; apply pow10_lt_inv; rewrite l9900_val; [replace 3 with (2 + 1) by lra; rewrite pow10_plus, pow10_n2, pow10_1|rewrite pow10_n4]; lra. Qed.
(** energy nearly constant, pressure rising by 9900 *)
Definition dle : list R := [l99; l99; 2; 2; l99; l99; 2; 2].
Definition dlP : list R := [0; 1; l9900; 1 + l9900; 0; 1; l9900; 1 + l9900].
Definition dlw : list R := [2; 3; 4; 5; 2; 3; 4; 5].
Lemma dw_val : tab_wmrho [0; 1] dle dlP 0 0 = [100; 1000; 10000; 100000; 100; 1000; 10000; 100000].
Proof.
  unfold tab_wmrho. change (length dle) with 8%nat. cbn [seq map]. unfold wmrho_entry, at_elem, lrho_of, dle, dlP. cbv zeta.
  change (length [0; 1]) with 2%nat. cbn [Nat.modulo Nat.divmod Nat.sub fst snd nth]. unfold e2u, le2e.
  rewrite !pow10_plus, !pow10_0, !pow10_1, !pow10_n2, !l99_val, !l9900_val. repeat (apply f_equal2; [lra|]). reflexivity.
Qed.
Lemma dshift : w_shift [0; 1] dle dlP 0 0 = 0.
Proof.
  unfold w_shift, shift_of. rewrite dw_val. assert (Q : find_min [100; 1000; 10000; 100000; 100; 1000; 10000; 100000] = 100).
  { apply find_min_spec; [now left|]. intros v H. repeat destruct H as [<-|H]; [lra..|destruct H]. }
  rewrite Q. destruct (Rleb_spec 100 0); [lra|reflexivity].
Qed.
Lemma dlw_val : tab_lwmrho [0; 1] dle dlP 0 0 = dlw.
Proof.
  unfold tab_lwmrho. rewrite dw_val. cbn [map]. unfold w2lw. rewrite dshift, !Rplus_0_r.
  rewrite (log10_of 100 2 pow10_n2), (log10_of 10000 4 pow10_n4), (log10_of 1000 3), (log10_of 100000 5); [reflexivity| |].
  - replace 5 with (4 + 1) by lra. rewrite pow10_plus, pow10_n4, pow10_1. lra.
  - replace 3 with (2 + 1) by lra. rewrite pow10_plus, pow10_n2, pow10_1. lra.
Qed.
Lemma cube_tab (f : R -> R -> R -> R) a b c d : f 0 0 0 = a -> f 1 0 0 = b -> f 0 1 0 = c -> f 1 1 0 = d -> (forall x y z, f x y z = f x y 0) ->
  tabulates f [0; 1] [0; 1] [0; 1] [a; b; c; d; a; b; c; d].
Proof.
  intros A B C D Z. split; [reflexivity|]. intros i j k x y z I J K. pose proof (rd_in _ _ _ I) as I'. pose proof (rd_in _ _ _ J) as J'. pose proof (rd_in _ _ _ K) as K'. cbn in I', J', K'.
  rewrite Z. revert x y z I J K. pattern i. apply two; auto; pattern j; apply two; auto; pattern k; apply two; auto; intros x y z I J K; cbn in I, J, K; injection I; injection J; injection K; intros <- <- <-;
  (match goal with |- rd ?l ?z = _ => let r := eval hnf in (rd l z) in change (rd l z) with r end); congruence.
Qed.
Lemma cube_interp f tab lrho lT : tabulates f [0; 1] [0; 1] [0; 1] tab -> trilinear f -> lrho <> 1 -> EOS_SC_interp [0; 1] [0; 1] [0; 1] lrho lT 0 tab = Some (f lrho lT 0).
Proof. intros T Q H. apply (interp_exact [0; 1] [0; 1] [0; 1] 1 1 1); auto using even01, TOL_lt1. Qed.
Lemma dlw_interp lT : EOS_SC_interp [0; 1] [0; 1] [0; 1] 0 lT 0 dlw = Some (2 + 2 * lT).
Proof.
  rewrite (cube_interp (fun x y z => 2 + x + 2 * y) dlw); [f_equal; ring|apply cube_tab; intros; lra| |lra]. exists 2, 1, 2, 0, 0, 0, 0, 0. intros. ring.
Qed.
Lemma dlP_interp lT : EOS_SC_interp [0; 1] [0; 1] [0; 1] 0 lT 0 dlP = Some (l9900 * lT).
Proof.
  rewrite (cube_interp (fun x y z => x + l9900 * y) dlP); [f_equal; ring|apply cube_tab; intros; lra| |lra]. exists 0, 1, l9900, 0, 0, 0, 0, 0. intros. ring.
Qed.
Lemma dle_interp lT : EOS_SC_interp [0; 1] [0; 1] [0; 1] 0 lT 0 dle = Some (l99 + (2 - l99) * lT).
Proof.
  rewrite (cube_interp (fun x y z => l99 + (2 - l99) * y) dle); [f_equal; ring|apply cube_tab; intros; lra| |lra]. exists l99, 0, (2 - l99), 0, 0, 0, 0, 0. intros. ring.
Qed.
Lemma cube_rising a b c d m L : m * 1 <= c - a <= L * 1 -> m * 1 <= d - b <= L * 1 -> rising (ax_n [0; 1]) (ax_n [0; 1]) (ax_n [0; 1]) [a; b; c; d; a; b; c; d] 1 m L.
Proof.
  intros A B i j k t0 t1 I J1 J2 K. cbn in I, J2, K. assert (j = 0%Z) by lia. subst j. revert i I. intros i I. revert t0 t1.
  pattern i. apply two; auto; pattern k; apply two; auto; intros t0 t1 P Q; cbn in P, Q; injection P; injection Q; intros <- <-; assumption.
Qed.
Lemma dlw_bounds : Forall (fun v => 2 <= v <= 5) dlw.
Proof. unfold dlw. repeat (apply Forall_cons; [lra|]). apply Forall_nil. Qed.
(** halfway between the two temperatures *)
Lemma press_between : exists u P n p lT, EOS_SC_get_u_of_T [0; 1] [0; 1] [0; 1] dle 0 0 1 (1 * 1) (pow10 (1 / 2)) 0 = Some u /\
  EOS_SC_pressure_rho0_u [0; 1] [0; 1] [0; 1] dlP 1 0 (1 / 2) 0 = Some P /\
  (forall f, EOS_SC_pressure_rho0_w [0; 1] [0; 1] [0; 1] dle dlP 0 0 1 1 (n + f) 1 (1 + u + P) 0 (1 / 2) = Got p lT) /\ lT < 1 / 3 /\ p < P / 4.
Proof.
  destruct ax01 as (AM & AX). pose proof TOL_small as TS. pose proof TOL_pos as TP. pose proof TT_TOL as TTT. pose proof l99_b as LB. pose proof l9900_b as LC.
  assert (CR : catch_rho [0; 1] 1 = 0).
  { rewrite catch_rho_inside; [unfold log10; rewrite ln_1; unfold Rdiv; ring|]. rewrite AM, AX, pow10_0, pow10_1. lra. }
  assert (CY : catch_in [0; 1] 0 = 0) by (apply catch_in_id; rewrite AM, AX; lra).
  set (u := pow10 (l99 + (2 - l99) * (1 / 2))). set (P := pow10 (l9900 * (1 / 2))).
  assert (UB : 50 < u < 100).
  { unfold u. split; [|rewrite <- pow10_n2; apply pow10_lt; lra]. apply Rlt_trans with 99; [lra|]. rewrite <- l99_val. apply pow10_lt. lra. }
  assert (PP : P * P = 9900) by (unfold P; rewrite <- pow10_plus, <- l9900_val; f_equal; field).
  assert (P0 : 0 < P) by apply pow10_pos.
  assert (PB : 90 < P < 100).
  { split; apply Rnot_le_lt; intros N; [assert (P * P <= 90 * 90) by (apply Rmult_le_compat; lra); lra|assert (100 * 100 <= P * P) by (apply Rmult_le_compat; lra); lra]. }
  set (lw := log10 (u + P)).
  assert (LW : 2 < lw < 5 / 2).
  { split; apply pow10_lt_inv; unfold lw; rewrite pow10_log10 by lra; [rewrite pow10_n2; lra|].
    assert (Q : pow10 (5 / 2) * pow10 (5 / 2) = 100000) by (rewrite <- pow10_plus; replace (5 / 2 + 5 / 2) with (4 + 1) by lra; rewrite pow10_plus, pow10_n4, pow10_1; lra).
    pose proof (pow10_pos (5 / 2)). apply Rnot_le_lt. intros N. assert (pow10 (5 / 2) * pow10 (5 / 2) <= 200 * 200) by (apply Rmult_le_compat; lra). lra. }
  assert (CW : catch_w [0; 1] dle dlP 0 0 (u + P) = lw).
  { unfold catch_w. rewrite dw_val, dlw_val.
    assert (A : find_min [100; 1000; 10000; 100000; 100; 1000; 10000; 100000] = 100).
    { apply find_min_spec; [now left|]. intros v H. repeat destruct H as [<-|H]; [lra..|destruct H]. }
    assert (B : find_max [100; 1000; 10000; 100000; 100; 1000; 10000; 100000] = 100000).
    { apply find_max_spec; [right; right; right; now left|]. intros v H. repeat destruct H as [<-|H]; [lra..|destruct H]. }
    rewrite A, B. destruct (Rltb_spec (u + P) 100); [lra|]. destruct (Rleb_spec 100000 (u + P)); [lra|]. unfold w2lw. rewrite dshift, Rplus_0_r. reflexivity. }
  assert (RI : rising (ax_n [0; 1]) (ax_n [0; 1]) (ax_n [0; 1]) dlw 1 2 2) by (apply cube_rising; lra).
  destruct (search_near [0; 1] [0; 1] [0; 1] 1 1 1 even01 even01 even01 TOL_lt1 ltac:(lra) TOL_lt1 dlw eq_refl 2 2 2 5 ltac:(lra) RI ltac:(lra) dlw_bounds ltac:(lra) (or_introl top01)
    0 0 0 ((lw - 2) / 2) lw (1 / 2) ltac:(rewrite AM, AX; lra) eq_refl ltac:(reflexivity) ltac:(rewrite AM, AX; lra)) as (lv1 & n & x & C1 & C2 & FX & NR).
  { unfold lT_f. rewrite dlw_interp. lra. }
  exists u, P, n, (pow10 (l9900 * x) / 1), x.
  assert (XB : x < 1 / 4 + / 1000).
  { unfold near in NR. pose proof (Rle_abs (x - (lw - 2) / 2)). lra. }
  split; [|split; [|split; [|split]]].
  - unfold EOS_SC_get_u_of_T. cbv zeta. rewrite Rmult_1_r, CR, CY, AM, AX.
    destruct (Rltb_spec (pow10 (1 / 2)) (pow10 0)) as [N|_]; [apply pow10_lt_inv in N; lra|].
    destruct (Rltb_spec (pow10 1) (pow10 (1 / 2))) as [N|_]; [apply pow10_lt_inv in N; lra|].
    rewrite log10_pow10, catch_in_id by (rewrite ?AM, ?AX; lra). rewrite dle_interp. f_equal. unfold e2u, le2e, u. field.
  - unfold EOS_SC_pressure_rho0_u. rewrite dlP_interp. f_equal. unfold P. field.
  - intros f. unfold EOS_SC_pressure_rho0_w. cbv zeta. rewrite dlw_val, CY, Rmult_1_r, CR. replace ((1 + u + P - 1) * 1) with (u + P) by ring. rewrite CW, C1, C2, FX, dlP_interp. reflexivity.
  - lra.
  - assert (X4 : l9900 * x <= 1 + 1 / 250).
    { destruct (Rle_lt_dec x 0); [assert (l9900 * x <= 0); [|lra]; replace 0 with (l9900 * 0) by ring; apply Rmult_le_compat_l; lra|].
      apply Rle_trans with (4 * x); [apply Rmult_le_compat_r; lra|lra]. }
    assert (Q : pow10 (l9900 * x) <= pow10 (1 + 1 / 4)) by (apply pow10_le; lra). rewrite pow10_plus, pow10_1 in Q.
    assert (Q2 : pow10 (1 / 4) < 2).
    { apply Rnot_le_lt. intros N. assert (Q3 : pow10 (1 / 4) * pow10 (1 / 4) * (pow10 (1 / 4) * pow10 (1 / 4)) = 10).
      { rewrite <- !pow10_plus. rewrite <- pow10_1. f_equal. lra. }
      assert (2 * 2 <= pow10 (1 / 4) * pow10 (1 / 4)) by (apply Rmult_le_compat; lra).
      assert (4 * 4 <= pow10 (1 / 4) * pow10 (1 / 4) * (pow10 (1 / 4) * pow10 (1 / 4))) by (apply Rmult_le_compat; lra). lra. }
    lra.
Qed.
