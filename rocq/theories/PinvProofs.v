(** The searches of EOS_SC_pressure_rho0_w and EOS_SC_u_press. *)
From Coq Require Import Reals Lra Lia Bool ZArith List.
From Verif Require Import RLib XLib IntLib TabModel TabSpec TabProofs RootModel RootSpec RootProofs InvModel InvSpec InvProofs InvFill PinvModel.
Import ListNotations.
Open Scope R_scope.

(** ** Shifts and logarithms *)
Lemma shift_pos tab : tab <> [] -> Forall (fun w => 0 < w + shift_of tab) tab.
Proof.
  intros H. pose proof (find_bounds tab H) as B. apply Forall_forall. intros w W. apply (proj1 (Forall_forall _ _) B) in W.
  unfold shift_of. pose proof SMALL_pos. destruct (Rleb_spec (find_min tab) 0); lra.
Qed.
Lemma log10_le x y : 0 < x -> x <= y -> log10 x <= log10 y.
Proof.
  intros X [H| ->]; [|lra]. left. unfold log10, Rdiv. apply Rmult_lt_compat_r; [apply Rinv_0_lt_compat, ln10_pos|]. now apply ln_increasing.
Qed.
Lemma find_min_in l : l <> [] -> In (find_min l) l.
Proof. intros H. destruct (minmax_list l H) as (a & b & E & A & B & F). unfold find_min. now rewrite E. Qed.
Lemma find_max_in l : l <> [] -> In (find_max l) l.
Proof. intros H. destruct (minmax_list l H) as (a & b & E & A & B & F). unfold find_max. now rewrite E. Qed.

(** ** One search, at an electron fraction of the table *)
Section Search.
Variables (rho tmp yes : axis) (dr dt dy : R).
Hypothesis E1 : even rho dr.
Hypothesis E2 : even tmp dt.
Hypothesis E3 : even yes dy.
Hypothesis T1 : TOL < dr.
Hypothesis T2 : 2 * TOL < dt.
Hypothesis T3 : TOL < dy.
Variable tab : list R.
Hypothesis SZ : length tab = (length rho * length tmp * length yes)%nat.
Variables (m L lo hi : R).
Hypothesis M : TOL < m * dt.
Hypothesis RI : rising (ax_n rho) (ax_n tmp) (ax_n yes) tab dt m L.
Hypothesis LO : 0 < lo.
Hypothesis BD : Forall (fun v => lo <= v <= hi) tab.
Hypothesis SL : L <= 50 * lo.
Hypothesis TOP : 3 * TABLE_TOL <= ax_max tmp - 2 * TOL \/ ax_max tmp - 2 * TOL <= - TABLE_TOL.
Local Notation f lrho ye := (lT_f rho tmp yes lrho ye tab).
Let T2' : TOL < dt := T2' dt T2.
Let MP : 0 < m := m_pos dt T2 m M.

Lemma search_near lrho k ye lT0 lv guess : ax_min rho <= lrho < ax_max rho -> rd yes k = Some ye -> (k + 1 < ax_n yes)%Z ->
  ax_min tmp <= lT0 < ax_max tmp -> f lrho ye lT0 - TOL <= lv <= f lrho ye lT0 ->
  exists lv1 n x, catch_var_2d rho yes lrho ye lv (fill_2d rho tmp yes find_min tab) (fill_2d rho tmp yes find_max tab) = Some lv1 /\
    catch_var_2d_monotone rho tmp yes lrho ye lv1 tab = Some lv1 /\
    (forall j, find_lT rho tmp yes (n + j) lrho (catch_in tmp guess) ye tab lv1 = Success x) /\
    near ((TOL + 2 * TABLE_TOL * (L + hi + 2)) / m) x lT0.
Proof.
  intros B1 R3 K1 B2 CE. set (le0 := f lrho ye lT0) in *.
  destruct (bounds_node rho tmp yes dr dt dy E1 E2 E3 T1 T2' T3 tab SZ m L MP RI lrho k ye B1 R3 K1) as (N1 & N2 & B3).
  pose proof (end_gap rho tmp yes dr dt dy E1 E2 E3 T1 T2 T3 tab SZ m L M RI lrho ye B1 B3) as GAP. pose proof TOL_pos as TP.
  pose proof (grow rho tmp yes dr dt dy E1 E2 E3 T1 T2 T3 tab SZ m L RI lrho ye B1 B3) as G.
  pose proof (G (ax_min tmp) lT0 ltac:(lra)) as G0. pose proof (G lT0 (ax_max tmp) ltac:(lra)) as G1. fold le0 in G0, G1.
  assert (0 <= m * (lT0 - ax_min tmp)) by (apply Rmult_le_pos; lra). assert (0 < m * (ax_max tmp - lT0)) by (apply Rmult_lt_0_compat; lra).
  pose proof (value rho tmp yes dr dt dy E1 E2 E3 T1 T2 T3 tab SZ lrho ye) as V.
  set (fmin := f lrho ye (ax_min tmp)) in *. set (fmax := f lrho ye (ax_max tmp)) in *.
  assert (exists lv1, catch_var_2d rho yes lrho ye lv (fill_2d rho tmp yes find_min tab) (fill_2d rho tmp yes find_max tab) = Some lv1 /\ Rabs (lv1 - le0) <= TOL /\ fmin < lv1 < fmax) as (lv1 & C1 & C2 & C3).
  { unfold catch_var_2d. rewrite N1, N2. destruct (Rleb_spec lv fmin).
    - exists (fmin + TOL). split; [reflexivity|]. split; [apply Rabs_le; lra|lra].
    - destruct (Rleb_spec fmax lv); [lra|]. exists lv. split; [reflexivity|]. split; [apply Rabs_le; lra|lra]. }
  assert (C4 : catch_var_2d_monotone rho tmp yes lrho ye lv1 tab = Some lv1).
  { unfold catch_var_2d_monotone. rewrite !V by auto. fold fmin. fold fmax. destruct (Rleb_spec lv1 fmin); [lra|]. destruct (Rleb_spec fmax lv1); [lra|reflexivity]. }
  destruct (find_lT_ok rho tmp yes dr dt dy E1 E2 E3 T1 T2' T3 tab SZ m L MP RI lo hi LO BD SL T2 TOP lrho ye lv1 B1 B3 ltac:(fold fmin; lra) ltac:(fold fmax; lra) (catch_in tmp guess)) as (n & x & FX & FE).
  exists lv1, n, x. split; [exact C1|]. split; [exact C4|]. split; [exact FX|].
  unfold near. eapply Rle_trans; [apply (grow_inj (f lrho ye) m L MP G)|]. fold le0. pose proof (rates _ m L G) as ML.
  pose proof (lo_hi rho tmp yes dr dt dy E1 E2 E3 tab SZ lo hi BD) as LH.
  pose proof (value_bound rho tmp yes dr dt dy E1 E2 E3 T1 T2 T3 tab SZ lrho ye lT0 B1 B2 B3 lo hi BD) as VB. fold le0 in VB. pose proof TT_pos as TT.
  unfold Rdiv. apply Rmult_le_compat_r; [left; now apply Rinv_0_lt_compat|].
  replace (f lrho ye x - le0) with (f lrho ye x - lv1 + (lv1 - le0)) by ring. eapply Rle_trans; [apply Rabs_triang|].
  assert (A1 : Rabs lv1 <= hi + 1).
  { assert (TOL < 1) by apply TOL_lt1. revert C2. unfold Rabs. destruct (Rcase_abs (lv1 - le0)), (Rcase_abs lv1); lra. }
  assert (A2 : 2 * TABLE_TOL * (Rabs lv1 + 1) <= 2 * TABLE_TOL * (L + hi + 2)) by (apply Rmult_le_compat_l; lra).
  assert (A3 : 2 * L * TABLE_TOL <= 2 * TABLE_TOL * (L + hi + 2)).
  { replace (2 * L * TABLE_TOL) with (2 * TABLE_TOL * L) by ring. apply Rmult_le_compat_l; lra. }
  destruct FE; lra.
Qed.
(** with the monotone catch, any value and any electron fraction *)
Lemma search_any lrho ye lv guess : ax_min rho <= lrho < ax_max rho -> ax_min yes <= ye < ax_max yes ->
  exists lv1 lv2 n x, catch_var_2d rho yes lrho ye lv (fill_2d rho tmp yes find_min tab) (fill_2d rho tmp yes find_max tab) = Some lv1 /\
    catch_var_2d_monotone rho tmp yes lrho ye lv1 tab = Some lv2 /\
    (forall j, find_lT rho tmp yes (n + j) lrho (catch_in tmp guess) ye tab lv2 = Success x).
Proof.
  intros B1 B3. pose proof (end_gap rho tmp yes dr dt dy E1 E2 E3 T1 T2 T3 tab SZ m L M RI lrho ye B1 B3) as GAP. pose proof TOL_pos as TP.
  pose proof (value rho tmp yes dr dt dy E1 E2 E3 T1 T2 T3 tab SZ lrho ye) as V.
  set (fmin := f lrho ye (ax_min tmp)) in *. set (fmax := f lrho ye (ax_max tmp)) in *.
  assert (exists lv1, catch_var_2d rho yes lrho ye lv (fill_2d rho tmp yes find_min tab) (fill_2d rho tmp yes find_max tab) = Some lv1) as (lv1 & C1).
  { destruct (interp_2d_value rho yes dr dy E1 E3 (fill_2d rho tmp yes find_min tab) lrho ye (fill_2d_length _ _ _ _ _) B1 B3) as (? & ? & ? & ? & ? & ? & ? & _ & _ & _ & _ & _ & _ & _ & _ & _ & V1).
    destruct (interp_2d_value rho yes dr dy E1 E3 (fill_2d rho tmp yes find_max tab) lrho ye (fill_2d_length _ _ _ _ _) B1 B3) as (? & ? & ? & ? & ? & ? & ? & _ & _ & _ & _ & _ & _ & _ & _ & _ & V2).
    cbv zeta in V1, V2. unfold catch_var_2d. rewrite V1, V2. destruct (Rleb _ _); [eauto|]. destruct (Rleb _ _); eauto. }
  assert (exists lv2, catch_var_2d_monotone rho tmp yes lrho ye lv1 tab = Some lv2 /\ fmin < lv2 < fmax) as (lv2 & C2 & C3).
  { unfold catch_var_2d_monotone. rewrite !V by auto. fold fmin. fold fmax. destruct (Rleb_spec lv1 fmin); [exists (fmin + TOL); split; [reflexivity|lra]|].
    destruct (Rleb_spec fmax lv1); [exists (fmax - TOL); split; [reflexivity|lra]|]. exists lv1. split; [reflexivity|lra]. }
  destruct (find_lT_ok rho tmp yes dr dt dy E1 E2 E3 T1 T2' T3 tab SZ m L MP RI lo hi LO BD SL T2 TOP lrho ye lv2 B1 B3 ltac:(fold fmin; lra) ltac:(fold fmax; lra) (catch_in tmp guess)) as (n & x & FX & FE).
  exists lv1, lv2, n, x. auto.
Qed.
(** without it, at an electron fraction of the table *)
Lemma search_node lrho k ye lv guess : ax_min rho <= lrho < ax_max rho -> rd yes k = Some ye -> (k + 1 < ax_n yes)%Z ->
  exists lv1 n x, catch_var_2d rho yes lrho ye lv (fill_2d rho tmp yes find_min tab) (fill_2d rho tmp yes find_max tab) = Some lv1 /\
    (forall j, find_lT rho tmp yes (n + j) lrho (catch_in tmp guess) ye tab lv1 = Success x).
Proof.
  intros B1 R3 K1.
  destruct (bounds_node rho tmp yes dr dt dy E1 E2 E3 T1 T2' T3 tab SZ m L MP RI lrho k ye B1 R3 K1) as (N1 & N2 & B3).
  pose proof (end_gap rho tmp yes dr dt dy E1 E2 E3 T1 T2 T3 tab SZ m L M RI lrho ye B1 B3) as GAP. pose proof TOL_pos as TP.
  set (fmin := f lrho ye (ax_min tmp)) in *. set (fmax := f lrho ye (ax_max tmp)) in *.
  assert (exists lv1, catch_var_2d rho yes lrho ye lv (fill_2d rho tmp yes find_min tab) (fill_2d rho tmp yes find_max tab) = Some lv1 /\ fmin < lv1 < fmax) as (lv1 & C1 & C3).
  { unfold catch_var_2d. rewrite N1, N2. destruct (Rleb_spec lv fmin); [exists (fmin + TOL); split; [reflexivity|lra]|].
    destruct (Rleb_spec fmax lv); [exists (fmax - TOL); split; [reflexivity|lra]|]. exists lv. split; [reflexivity|lra]. }
  destruct (find_lT_ok rho tmp yes dr dt dy E1 E2 E3 T1 T2' T3 tab SZ m L MP RI lo hi LO BD SL T2 TOP lrho ye lv1 B1 B3 ltac:(fold fmin; lra) ltac:(fold fmax; lra) (catch_in tmp guess)) as (n & x & FX & FE).
  exists lv1, n, x. auto.
Qed.
End Search.

(** the interpolation at a point of the table is the entry *)
Lemma interp_node (rho tmp yes : axis) dr dt dy tab i j k r t y : even rho dr -> even tmp dt -> even yes dy -> TOL < dr -> TOL < dt -> TOL < dy ->
  length tab = (length rho * length tmp * length yes)%nat -> rd rho i = Some r -> rd tmp j = Some t -> rd yes k = Some y ->
  (i + 1 < ax_n rho)%Z -> (j + 1 < ax_n tmp)%Z -> (k + 1 < ax_n yes)%Z ->
  EOS_SC_interp rho tmp yes r t y tab = rd tab (EOS_ELEM rho tmp i j k) /\ ax_min rho <= r < ax_max rho /\ ax_min tmp <= t < ax_max tmp /\ ax_min yes <= y < ax_max yes.
Proof.
  intros E1 E2 E3 T1 T2 T3 SZ I J K I1 J1 K1.
  assert (IN : forall (a : axis) d n x, even a d -> rd a n = Some x -> (n + 1 < ax_n a)%Z -> (0 <= n)%Z /\ x = ax_min a + IZR n * d /\ ax_min a <= x < ax_max a).
  { intros a d n x EV RD N1. pose proof (rd_in _ _ _ RD) as NB. pose proof (ax_max_spec a d EV) as AM. destruct EV as (_ & _ & D & U). pose proof (U n ltac:(unfold ax_n in *; lia)) as V.
    rewrite Z.sub_0_r, RD in V. injection V as V. split; [lia|]. assert (X : x = ax_min a + IZR n * d) by (rewrite V; reflexivity). split; [exact X|].
    rewrite AM, X. assert (0 <= IZR n) by (apply (IZR_le 0); lia). assert (IZR n < IZR (ax_n a - 1)) by (apply IZR_lt; lia).
    assert (0 <= IZR n * d) by (apply Rmult_le_pos; lra). assert (IZR n * d < IZR (ax_n a - 1) * d) by (apply Rmult_lt_compat_r; lra). lra. }
  destruct (IN rho dr i r E1 I I1) as (I0 & IR & B1). destruct (IN tmp dt j t E2 J J1) as (J0 & JR & B2). destruct (IN yes dy k y E3 K K1) as (K0 & KR & B3).
  split; [|auto].
  assert (D1 : 0 < dr) by (destruct E1 as (_ & _ & D & _); auto). assert (D2 : 0 < dt) by (destruct E2 as (_ & _ & D & _); auto). assert (D3 : 0 < dy) by (destruct E3 as (_ & _ & D & _); auto).
  destruct (interp_levels rho tmp yes dr dt dy E1 E2 E3 T1 T2 T3 tab SZ r y B1 B3) as (i' & k' & ri & yk & II & KK & RI' & RK' & C1 & C3 & H).
  assert (i' = i) by (eapply (cell_unique rho dr i' i ri r r); eauto; lra). assert (k' = k) by (eapply (cell_unique yes dy k' k yk y y); eauto; lra). subst i' k'.
  rewrite I in RI'. injection RI' as <-. rewrite K in RK'. injection RK' as <-.
  destruct (H t) as (j' & (A1 & A2 & A3 & A4) & V).
  assert (j' = j).
  { assert (Q : forall p q, IZR p * dt < (IZR q + 1) * dt -> (p <= q)%Z).
    { intros p q Hq. apply Rmult_lt_reg_r in Hq; [|auto]. rewrite <- plus_IZR in Hq. apply lt_IZR in Hq. lia. }
    assert (j <= j')%Z by (destruct A4 as [A4|A4]; [lia|apply Q; lra]). assert (j' <= j)%Z by (destruct A3 as [A3|A3]; [lia|apply Q; lra]). lia. }
  subst j'. rewrite V, (at3_rd rho tmp yes tab SZ i j k) by lia. f_equal. rewrite JR at 1. rewrite seg_left by auto. unfold level.
  replace ((r - r) / dr) with 0 by (field; lra). replace ((y - y) / dy) with 0 by (field; lra). ring.
Qed.
