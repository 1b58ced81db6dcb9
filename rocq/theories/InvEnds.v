(** Energies below and above those of the table. *)
From Coq Require Import Reals Lra Lia Bool ZArith List.
From Verif Require Import RLib XLib IntLib TabModel TabSpec TabProofs RootModel RootSpec RootProofs InvModel InvSpec InvProofs InvFill.
Import ListNotations.
Open Scope R_scope.

Section Ends.
Variables (rho tmp yes : axis) (dr dt dy : R).
Hypothesis E1 : even rho dr.
Hypothesis E2 : even tmp dt.
Hypothesis E3 : even yes dy.
Hypothesis T1 : TOL < dr.
Hypothesis T2 : 2 * TOL < dt.
Hypothesis T3 : TOL < dy.
Variable tab : list R.
Hypothesis SZ : length tab = (length rho * length tmp * length yes)%nat.
Variables (m L lo hi : R).
Hypothesis M : TOL < m * dt.
Hypothesis RI : rising (ax_n rho) (ax_n tmp) (ax_n yes) tab dt m L.
Hypothesis LO : 0 < lo.
Hypothesis BD : Forall (fun v => lo <= v <= hi) tab.
Hypothesis SL : L <= 50 * lo.
Hypothesis TOP : 3 * TABLE_TOL <= ax_max tmp - 2 * TOL \/ ax_max tmp - 2 * TOL <= - TABLE_TOL.
Variables (e_shift u_shift RHO_unit U_unit : R).
Hypothesis RU : 0 < RHO_unit.
Hypothesis UU : 0 < U_unit.
Local Notation f lrho ye := (lT_f rho tmp yes lrho ye tab).
Let T2' : TOL < dt := T2' dt T2.
Let MP : 0 < m := m_pos dt T2 m M.
Let err := (TOL + 2 * TABLE_TOL * (L + hi + 2)) / m.

Lemma top_bound lrho y : ax_min rho <= lrho < ax_max rho -> ax_min yes <= y < ax_max yes -> lo <= f lrho y (ax_max tmp) <= find_max tab /\ f lrho y (ax_max tmp) <= hi.
Proof.
  intros B1 B3. pose proof (ends rho tmp yes dr dt dy E1 E2 E3 T1 T2' T3 tab SZ lrho y) as EN.
  destruct (interp_levels rho tmp yes dr dt dy E1 E2 E3 T1 T2' T3 tab SZ lrho y B1 B3) as (i & k & ri & yk & I & K & R1 & R3 & X1 & X3 & _).
  destruct (EN i k ri yk B1 B3 R1 R3 X1 X3) as (_ & EM). rewrite EM. destruct E1 as (_ & _ & D1 & _), E3 as (_ & _ & D3 & _).
  assert (Q : forall a b, Forall (fun v => a <= v <= b) tab -> a <= level rho tmp tab i k ((lrho - ri) / dr) ((y - yk) / dy) (ax_n tmp - 1) <= b).
  { intros a b F. assert (AT : forall i' k', (0 <= i' < ax_n rho)%Z -> (0 <= k' < ax_n yes)%Z -> a <= at3 rho tmp tab i' (ax_n tmp - 1) k' <= b).
    { intros i' k' I' K'. pose proof (at3_rd rho tmp yes tab SZ i' (ax_n tmp - 1) k' I' ltac:(destruct E2 as (N2 & _); unfold ax_n; lia) K') as RA.
      unfold rd in RA. destruct (Z.ltb _ 0); [discriminate|]. apply nth_error_In in RA. apply (proj1 (Forall_forall _ _) F _ RA). }
    unfold level. repeat apply conv_bound; try (apply frac_in; lra); apply AT; lia. }
  pose proof (Q _ _ BD). pose proof (Q _ _ (find_bounds tab (tab_some rho tmp yes dr dt dy E1 E2 E3 tab SZ))). lra.
Qed.
(** a search for a value next to that of the temperature t *)
Lemma search_to lrho y lv t guess : ax_min rho <= lrho < ax_max rho -> ax_min yes <= y < ax_max yes -> ax_min tmp <= t <= ax_max tmp ->
  Rabs (lv - f lrho y t) <= TOL -> f lrho y (ax_min tmp) <= lv < f lrho y (ax_max tmp) ->
  exists n x, (forall j, find_lT rho tmp yes (n + j) lrho guess y tab lv = Success x) /\ near err x t.
Proof.
  intros B1 B3 B2 C2 C3. pose proof (grow rho tmp yes dr dt dy E1 E2 E3 T1 T2 T3 tab SZ m L RI lrho y B1 B3) as G.
  destruct (find_lT_ok rho tmp yes dr dt dy E1 E2 E3 T1 T2' T3 tab SZ m L MP RI lo hi LO BD SL T2 TOP lrho y lv B1 B3 (proj1 C3) (proj2 C3) guess) as (n & x & FX & FE).
  exists n, x. split; [exact FX|]. unfold near. eapply Rle_trans; [apply (grow_inj (f lrho y) m L MP G)|]. pose proof (rates _ m L G) as ML.
  pose proof (ax_lt tmp dt E2) as AL. pose proof TOL_pos as TP. pose proof TT_pos as TT.
  pose proof (value_bound rho tmp yes dr dt dy E1 E2 E3 T1 T2 T3 tab SZ lrho y (ax_min tmp) B1 ltac:(lra) B3 lo hi BD) as F0. pose proof (top_bound lrho y B1 B3) as F1.
  unfold err, Rdiv. apply Rmult_le_compat_r; [left; now apply Rinv_0_lt_compat|].
  replace (f lrho y x - f lrho y t) with (f lrho y x - lv + (lv - f lrho y t)) by ring. eapply Rle_trans; [apply Rabs_triang|].
  assert (A1 : Rabs lv <= hi + 1) by (apply Rabs_le; lra).
  assert (A2 : 2 * TABLE_TOL * (Rabs lv + 1) <= 2 * TABLE_TOL * (L + hi + 2)) by (apply Rmult_le_compat_l; lra).
  assert (A3 : 2 * L * TABLE_TOL <= 2 * TABLE_TOL * (L + hi + 2)).
  { replace (2 * L * TABLE_TOL) with (2 * TABLE_TOL * L) by ring. apply Rmult_le_compat_l; lra. }
  destruct FE; lra.
Qed.
Local Notation fill := (EOS_SC_fill rho tmp yes tab e_shift u_shift RHO_unit U_unit).
(** what a log energy below the bottom of the column, or above its top, comes to *)
Lemma fill_low r u k y guess : 0 < r -> rd yes k = Some y -> (k + 1 < ax_n yes)%Z ->
  catch_e tab e_shift (u2e u_shift (r * RHO_unit) (u * U_unit)) <= f (catch_rho rho (r * RHO_unit)) y (ax_min tmp) ->
  exists n lT, (forall j, fill (n + j)%nat r u y guess = Stored (catch_rho rho (r * RHO_unit)) lT y) /\ near err lT (ax_min tmp).
Proof.
  intros HR K K1 H. assert (RP : 0 < r * RHO_unit) by now apply Rmult_lt_0_compat. pose proof (catch_rho_range rho dr (r * RHO_unit) E1 T1) as B1.
  set (lrho := catch_rho rho (r * RHO_unit)) in *. set (le := catch_e tab e_shift (u2e u_shift (r * RHO_unit) (u * U_unit))) in *.
  destruct (bounds_node rho tmp yes dr dt dy E1 E2 E3 T1 T2' T3 tab SZ m L MP RI lrho k y B1 K K1) as (N1 & N2 & B3).
  pose proof (end_gap rho tmp yes dr dt dy E1 E2 E3 T1 T2 T3 tab SZ m L M RI lrho y B1 B3) as GAP. pose proof TOL_pos as TP. pose proof (ax_lt tmp dt E2) as AL.
  pose proof (value rho tmp yes dr dt dy E1 E2 E3 T1 T2 T3 tab SZ lrho y) as V.
  destruct (search_to lrho y (f lrho y (ax_min tmp) + TOL) (ax_min tmp) (catch_in tmp guess) B1 B3 ltac:(lra)) as (n & x & FX & NR); [rewrite Rabs_right; lra|lra|].
  exists n, x. split; [|exact NR]. intros j. unfold EOS_SC_fill. cbv zeta. fold lrho. rewrite (catch_in_id yes y B3). destruct (Reqb_spec (r * RHO_unit) 0); [lra|]. fold le.
  unfold catch_var_2d, tab_le_min_2d, tab_le_max_2d. rewrite N1. destruct (Rleb_spec le (f lrho y (ax_min tmp))); [|lra].
  unfold catch_var_2d_monotone. rewrite !V by auto. destruct (Rleb_spec (f lrho y (ax_min tmp) + TOL) (f lrho y (ax_min tmp))); [lra|].
  destruct (Rleb_spec (f lrho y (ax_max tmp)) (f lrho y (ax_min tmp) + TOL)); [lra|]. rewrite FX. reflexivity.
Qed.
Lemma fill_high r u k y guess : 0 < r -> rd yes k = Some y -> (k + 1 < ax_n yes)%Z ->
  f (catch_rho rho (r * RHO_unit)) y (ax_max tmp) - TOL <= catch_e tab e_shift (u2e u_shift (r * RHO_unit) (u * U_unit)) ->
  exists n lT, (forall j, fill (n + j)%nat r u y guess = Stored (catch_rho rho (r * RHO_unit)) lT y) /\ near err lT (ax_max tmp).
Proof.
  intros HR K K1 H. assert (RP : 0 < r * RHO_unit) by now apply Rmult_lt_0_compat. pose proof (catch_rho_range rho dr (r * RHO_unit) E1 T1) as B1.
  set (lrho := catch_rho rho (r * RHO_unit)) in *. set (le := catch_e tab e_shift (u2e u_shift (r * RHO_unit) (u * U_unit))) in *.
  destruct (bounds_node rho tmp yes dr dt dy E1 E2 E3 T1 T2' T3 tab SZ m L MP RI lrho k y B1 K K1) as (N1 & N2 & B3).
  pose proof (end_gap rho tmp yes dr dt dy E1 E2 E3 T1 T2 T3 tab SZ m L M RI lrho y B1 B3) as GAP. pose proof TOL_pos as TP. pose proof (ax_lt tmp dt E2) as AL.
  pose proof (value rho tmp yes dr dt dy E1 E2 E3 T1 T2 T3 tab SZ lrho y) as V.
  set (fmax := f lrho y (ax_max tmp)) in *. set (lv := if Rleb fmax le then fmax - TOL else le).
  assert (LV : fmax - TOL <= lv < fmax) by (unfold lv; destruct (Rleb_spec fmax le); lra).
  destruct (search_to lrho y lv (ax_max tmp) (catch_in tmp guess) B1 B3 ltac:(lra)) as (n & x & FX & NR); [fold fmax; apply Rabs_le; lra|fold fmax; lra|].
  exists n, x. split; [|exact NR]. intros j. unfold EOS_SC_fill. cbv zeta. fold lrho. rewrite (catch_in_id yes y B3). destruct (Reqb_spec (r * RHO_unit) 0); [lra|]. fold le.
  assert (C1 : catch_var_2d rho yes lrho y le (tab_le_min_2d rho tmp yes tab) (tab_le_max_2d rho tmp yes tab) = Some lv).
  { unfold catch_var_2d, tab_le_min_2d, tab_le_max_2d. rewrite N1, N2. fold fmax. unfold lv. destruct (Rleb_spec le (f lrho y (ax_min tmp))); [lra|]. destruct (Rleb_spec fmax le); reflexivity. }
  rewrite C1. unfold catch_var_2d_monotone. rewrite !V by auto. fold fmax. destruct (Rleb_spec lv (f lrho y (ax_min tmp))); [lra|].
  destruct (Rleb_spec fmax lv); [lra|]. rewrite FX. reflexivity.
Qed.
(** an energy below that of the coldest gas; above that of the hottest *)
Lemma fill_cold r u a k y guess : 0 < r -> rd yes k = Some y -> (k + 1 < ax_n yes)%Z ->
  EOS_SC_get_minu rho tmp yes tab e_shift u_shift U_unit (r * RHO_unit) y = Some a -> u <= a ->
  exists n lT, (forall j, fill (n + j)%nat r u y guess = Stored (catch_rho rho (r * RHO_unit)) lT y) /\ near err lT (ax_min tmp).
Proof.
  intros HR K K1 A UA. apply (fill_low r u k y guess HR K K1). assert (RP : 0 < r * RHO_unit) by now apply Rmult_lt_0_compat. pose proof (catch_rho_range rho dr (r * RHO_unit) E1 T1) as B1.
  set (lrho := catch_rho rho (r * RHO_unit)) in *.
  destruct (bounds_node rho tmp yes dr dt dy E1 E2 E3 T1 T2' T3 tab SZ m L MP RI lrho k y B1 K K1) as (N1 & N2 & B3).
  pose proof (value rho tmp yes dr dt dy E1 E2 E3 T1 T2 T3 tab SZ lrho y (ax_min tmp) B1) as V. pose proof (ax_lt tmp dt E2) as AL.
  unfold EOS_SC_get_minu in A. cbv zeta in A. rewrite (catch_in_id yes y B3) in A. fold lrho in A. rewrite V in A. injection A as A. set (fmin := f lrho y (ax_min tmp)) in *.
  assert (EE : u2e u_shift (r * RHO_unit) (u * U_unit) <= le2e e_shift fmin).
  { unfold u2e. apply (Rmult_le_reg_r (r * RHO_unit)); [auto|]. unfold Rdiv. rewrite Rmult_assoc, Rinv_l by lra.
    assert (u * U_unit <= a * U_unit) by (apply Rmult_le_compat_r; lra). rewrite <- A in H. unfold e2u in H.
    replace ((le2e e_shift fmin * (r * RHO_unit) + u_shift) / U_unit * U_unit) with (le2e e_shift fmin * (r * RHO_unit) + u_shift) in H by (field; lra). lra. }
  set (e := u2e u_shift (r * RHO_unit) (u * U_unit)) in *.
  pose proof (value_bound rho tmp yes dr dt dy E1 E2 E3 T1 T2 T3 tab SZ lrho y (ax_min tmp) B1 ltac:(pose proof TOL_pos; lra) B3 _ _ (find_bounds tab (tab_some rho tmp yes dr dt dy E1 E2 E3 tab SZ))) as FB. fold fmin in FB.
  unfold catch_e. destruct (Rltb_spec e (le2e e_shift (find_min tab))) as [|N]; [lra|].
  destruct (Rleb_spec (le2e e_shift (find_max tab)) e) as [N2'|N2'].
  - unfold le2e in *. assert (P : pow10 (find_max tab) <= pow10 fmin) by lra. destruct (Rle_lt_dec (find_max tab) fmin) as [|Q]; [pose proof TOL_pos; lra|]. apply pow10_lt in Q. lra.
  - unfold le2e in *. unfold e2le. pose proof (pow10_pos (find_min tab)). assert (Q : 0 < e + e_shift) by lra.
    apply Rnot_lt_le. intros X. apply pow10_lt in X. rewrite pow10_log10 in X by auto. lra.
Qed.
Lemma fill_hot r u lmax k y guess : 0 < r -> rd yes k = Some y -> (k + 1 < ax_n yes)%Z ->
  EOS_SC_interp rho tmp yes (catch_rho rho (r * RHO_unit)) (ax_max tmp) y tab = Some lmax -> (pow10 lmax - e_shift) * (r * RHO_unit) + u_shift <= u * U_unit ->
  exists n lT, (forall j, fill (n + j)%nat r u y guess = Stored (catch_rho rho (r * RHO_unit)) lT y) /\ near err lT (ax_max tmp).
Proof.
  intros HR K K1 A UA. apply (fill_high r u k y guess HR K K1). assert (RP : 0 < r * RHO_unit) by now apply Rmult_lt_0_compat. pose proof (catch_rho_range rho dr (r * RHO_unit) E1 T1) as B1.
  set (lrho := catch_rho rho (r * RHO_unit)) in *.
  destruct (bounds_node rho tmp yes dr dt dy E1 E2 E3 T1 T2' T3 tab SZ m L MP RI lrho k y B1 K K1) as (N1 & N2 & B3).
  unfold lT_f. rewrite A. pose proof (top_bound lrho y B1 B3) as (F1 & _). unfold lT_f in F1. rewrite A in F1.
  assert (EE : pow10 lmax - e_shift <= u2e u_shift (r * RHO_unit) (u * U_unit)).
  { unfold u2e. apply (Rmult_le_reg_r (r * RHO_unit)); [auto|]. unfold Rdiv. rewrite Rmult_assoc, Rinv_l by lra. lra. }
  set (e := u2e u_shift (r * RHO_unit) (u * U_unit)) in *. pose proof TOL_pos. pose proof (pow10_pos lmax).
  assert (FM : find_min tab <= lmax).
  { assert (H1 := fill_2d_length). clear H1. pose proof (ax_lt tmp dt E2) as AL.
    pose proof (value_bound rho tmp yes dr dt dy E1 E2 E3 T1 T2 T3 tab SZ lrho y (ax_min tmp) B1 ltac:(lra) B3 _ _ (find_bounds tab (tab_some rho tmp yes dr dt dy E1 E2 E3 tab SZ))) as FB.
    pose proof (end_gap rho tmp yes dr dt dy E1 E2 E3 T1 T2 T3 tab SZ m L M RI lrho y B1 B3) as GAP. unfold lT_f in GAP at 2. rewrite A in GAP. lra. }
  unfold catch_e, le2e. destruct (Rltb_spec e (pow10 (find_min tab) - e_shift)) as [N|N].
  - pose proof (pow10_le _ _ FM). lra.
  - destruct (Rleb_spec (pow10 (find_max tab) - e_shift) e); [lra|]. unfold e2le.
    assert (lmax <= log10 (e + e_shift)); [|lra]. apply Rnot_lt_le. intros X. apply pow10_lt in X. rewrite pow10_log10 in X by lra. lra.
Qed.
End Ends.
