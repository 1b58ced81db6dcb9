(** Enthalpies and pressures below and above those of the table. *)
From Coq Require Import Reals Lra Lia Bool ZArith List.
From Verif Require Import RLib XLib IntLib TabModel TabSpec TabProofs RootModel RootSpec RootProofs InvModel InvSpec InvProofs InvFill InvEnds PinvModel PinvProofs PinvMain.
Import ListNotations.
Open Scope R_scope.

Section Ends.
Variables (rho tmp yes : axis) (dr dt dy : R).
Hypothesis E1 : even rho dr.
Hypothesis E2 : even tmp dt.
Hypothesis E3 : even yes dy.
Hypothesis T1 : TOL < dr.
Hypothesis T2 : 2 * TOL < dt.
Hypothesis T3 : TOL < dy.
Hypothesis TOP : 3 * TABLE_TOL <= ax_max tmp - 2 * TOL \/ ax_max tmp - 2 * TOL <= - TABLE_TOL.
Let T2' : TOL < dt := T2' dt T2.

Section Search.
Variable tab : list R.
Hypothesis SZ : length tab = (length rho * length tmp * length yes)%nat.
Variables (m L lo hi : R).
Hypothesis M : TOL < m * dt.
Hypothesis RI : rising (ax_n rho) (ax_n tmp) (ax_n yes) tab dt m L.
Hypothesis LO : 0 < lo.
Hypothesis BD : Forall (fun v => lo <= v <= hi) tab.
Hypothesis SL : L <= 50 * lo.
Local Notation f lrho ye := (lT_f rho tmp yes lrho ye tab).
Let MP : 0 < m := m_pos dt T2 m M.
Local Notation err := ((TOL + 2 * TABLE_TOL * (L + hi + 2)) / m).
Local Notation found lrho y lv guess t := (exists lv1 n x,
  catch_var_2d rho yes lrho y lv (fill_2d rho tmp yes find_min tab) (fill_2d rho tmp yes find_max tab) = Some lv1 /\
  catch_var_2d_monotone rho tmp yes lrho y lv1 tab = Some lv1 /\
  (forall j, find_lT rho tmp yes (n + j) lrho (catch_in tmp guess) y tab lv1 = Success x) /\ near err x t).

Lemma search_low lrho k y lv guess : ax_min rho <= lrho < ax_max rho -> rd yes k = Some y -> (k + 1 < ax_n yes)%Z ->
  lv <= f lrho y (ax_min tmp) -> found lrho y lv guess (ax_min tmp).
Proof.
  intros B1 K K1 H.
  destruct (bounds_node rho tmp yes dr dt dy E1 E2 E3 T1 T2' T3 tab SZ m L MP RI lrho k y B1 K K1) as (N1 & N2 & B3).
  pose proof (end_gap rho tmp yes dr dt dy E1 E2 E3 T1 T2 T3 tab SZ m L M RI lrho y B1 B3) as GAP. pose proof TOL_pos as TP. pose proof (ax_lt tmp dt E2) as AL.
  pose proof (value rho tmp yes dr dt dy E1 E2 E3 T1 T2 T3 tab SZ lrho y) as V.
  destruct (search_to rho tmp yes dr dt dy E1 E2 E3 T1 T2 T3 tab SZ m L lo hi M RI LO BD SL TOP lrho y (f lrho y (ax_min tmp) + TOL) (ax_min tmp) (catch_in tmp guess) B1 B3 ltac:(lra)) as (n & x & FX & NR); [rewrite Rabs_right; lra|lra|].
  exists (f lrho y (ax_min tmp) + TOL), n, x. split; [|split; [|split; [exact FX|exact NR]]].
  - unfold catch_var_2d. rewrite N1. destruct (Rleb_spec lv (f lrho y (ax_min tmp))); [reflexivity|lra].
  - unfold catch_var_2d_monotone. rewrite !V by auto. destruct (Rleb_spec (f lrho y (ax_min tmp) + TOL) (f lrho y (ax_min tmp))); [lra|].
    destruct (Rleb_spec (f lrho y (ax_max tmp)) (f lrho y (ax_min tmp) + TOL)); [lra|reflexivity].
Qed.
Lemma search_high lrho k y lv guess : ax_min rho <= lrho < ax_max rho -> rd yes k = Some y -> (k + 1 < ax_n yes)%Z ->
  f lrho y (ax_max tmp) - TOL <= lv -> found lrho y lv guess (ax_max tmp).
Proof.
  intros B1 K K1 H.
  destruct (bounds_node rho tmp yes dr dt dy E1 E2 E3 T1 T2' T3 tab SZ m L MP RI lrho k y B1 K K1) as (N1 & N2 & B3).
  pose proof (end_gap rho tmp yes dr dt dy E1 E2 E3 T1 T2 T3 tab SZ m L M RI lrho y B1 B3) as GAP. pose proof TOL_pos as TP. pose proof (ax_lt tmp dt E2) as AL.
  pose proof (value rho tmp yes dr dt dy E1 E2 E3 T1 T2 T3 tab SZ lrho y) as V.
  set (fmax := f lrho y (ax_max tmp)) in *. set (v := if Rleb fmax lv then fmax - TOL else lv).
  assert (LV : fmax - TOL <= v < fmax) by (unfold v; destruct (Rleb_spec fmax lv); lra).
  destruct (search_to rho tmp yes dr dt dy E1 E2 E3 T1 T2 T3 tab SZ m L lo hi M RI LO BD SL TOP lrho y v (ax_max tmp) (catch_in tmp guess) B1 B3 ltac:(lra)) as (n & x & FX & NR); [fold fmax; apply Rabs_le; lra|fold fmax; lra|].
  exists v, n, x. split; [|split; [|split; [exact FX|exact NR]]].
  - unfold catch_var_2d. rewrite N1, N2. fold fmax. unfold v. destruct (Rleb_spec lv (f lrho y (ax_min tmp))); [lra|]. destruct (Rleb_spec fmax lv); reflexivity.
  - unfold catch_var_2d_monotone. rewrite !V by auto. fold fmax. destruct (Rleb_spec v (f lrho y (ax_min tmp))); [lra|].
    destruct (Rleb_spec fmax v); [lra|reflexivity].
Qed.
End Search.

Variables (tab_le tab_lP : list R) (e_shift u_shift RHO_unit U_unit : R).
Hypothesis S1 : length tab_le = (length rho * length tmp * length yes)%nat.
Hypothesis S2 : length tab_lP = (length rho * length tmp * length yes)%nat.
Local Notation wtab := (tab_wmrho rho tab_le tab_lP e_shift u_shift).
Local Notation lwtab := (tab_lwmrho rho tab_le tab_lP e_shift u_shift).
Local Notation ws := (w_shift rho tab_le tab_lP e_shift u_shift).

Section W.
Variables (m L lo hi : R).
Hypothesis M : TOL < m * dt.
Hypothesis RI : rising (ax_n rho) (ax_n tmp) (ax_n yes) lwtab dt m L.
Hypothesis LO : 0 < lo.
Hypothesis BD : Forall (fun v => lo <= v <= hi) lwtab.
Hypothesis SL : L <= 50 * lo.
Local Notation press_w := (EOS_SC_pressure_rho0_w rho tmp yes tab_le tab_lP e_shift u_shift RHO_unit U_unit).
Let SW := lwtab_length rho tmp yes tab_le tab_lP e_shift u_shift S1.
Let LS := le_some rho tmp yes dr dt dy E1 E2 E3 tab_le S1.
Let WS := wtab_some rho tmp yes dr dt dy E1 E2 E3 tab_le tab_lP e_shift u_shift S1.

Lemma pow_min : pow10 (find_min lwtab) = find_min wtab + ws.
Proof.
  rewrite (lw_min rho tmp yes dr dt dy E1 E2 E3 tab_le tab_lP e_shift u_shift S1). unfold w2lw. apply pow10_log10.
  apply (wtab_pos rho tmp yes dr dt dy E1 E2 E3 tab_le tab_lP e_shift u_shift S1), find_min_in, WS.
Qed.
Lemma pow_max : pow10 (find_max lwtab) = find_max wtab + ws.
Proof.
  rewrite (lw_max rho tmp yes dr dt dy E1 E2 E3 tab_le tab_lP e_shift u_shift S1). unfold w2lw. apply pow10_log10.
  apply (wtab_pos rho tmp yes dr dt dy E1 E2 E3 tab_le tab_lP e_shift u_shift S1), find_max_in, WS.
Qed.
Lemma press_cold r w lmin k y guess : rd yes k = Some y -> (k + 1 < ax_n yes)%Z ->
  EOS_SC_interp rho tmp yes (catch_rho rho (r * RHO_unit)) (ax_min tmp) y lwtab = Some lmin -> (w - r) * U_unit + ws <= pow10 lmin ->
  exists n p lT, (forall j, press_w (n + j)%nat r w y guess = Got p lT) /\ near ((TOL + 2 * TABLE_TOL * (L + hi + 2)) / m) lT (ax_min tmp).
Proof.
  intros K K1 A H. pose proof (catch_rho_range rho dr (r * RHO_unit) E1 T1) as B1. set (lrho := catch_rho rho (r * RHO_unit)) in *.
  destruct (bounds_node rho tmp yes dr dt dy E1 E2 E3 T1 T2' T3 lwtab SW m L (m_pos dt T2 m M) RI lrho k y B1 K K1) as (_ & _ & B3). pose proof TOL_pos as TP. pose proof (ax_lt tmp dt E2) as AL.
  assert (FV : lT_f rho tmp yes lrho y lwtab (ax_min tmp) = lmin) by (unfold lT_f; now rewrite A).
  pose proof (value_bound rho tmp yes dr dt dy E1 E2 E3 T1 T2 T3 lwtab SW lrho y (ax_min tmp) B1 ltac:(lra) B3 _ _ (find_bounds lwtab (tab_some rho tmp yes dr dt dy E1 E2 E3 lwtab SW))) as FB. rewrite FV in FB.
  set (x := (w - r) * U_unit) in *.
  assert (CW : catch_w rho tab_le tab_lP e_shift u_shift x <= lmin).
  { unfold catch_w. destruct (Rltb_spec x (find_min wtab)) as [|N]; [lra|]. pose proof pow_min as PM. pose proof pow_max as PX. pose proof (pow10_pos (find_min lwtab)) as PP. destruct (Rleb_spec (find_max wtab) x) as [Q|Q].
    - assert (Z : pow10 (find_max lwtab) <= pow10 lmin) by lra. destruct (Rle_lt_dec (find_max lwtab) lmin) as [|Z']; [lra|]. apply pow10_lt in Z'. lra.
    - unfold w2lw. apply Rnot_lt_le. intros Z. apply pow10_lt in Z. rewrite pow10_log10 in Z by lra. lra. }
  destruct (search_low lwtab SW m L lo hi M RI LO BD SL lrho k y (catch_w rho tab_le tab_lP e_shift u_shift x) guess B1 K K1 ltac:(rewrite FV; exact CW)) as (lv1 & n & z & C1 & C2 & FX & NR).
  destruct (interp_defined rho tmp yes dr dt dy E1 E2 E3 T1 T2' T3 tab_lP lrho z y S2 ltac:(lra)) as (lp & P).
  exists n, (pow10 lp / U_unit), z. split; [|exact NR]. intros j. unfold EOS_SC_pressure_rho0_w. cbv zeta. fold lrho x. rewrite (catch_in_id yes y B3), C1, C2, FX, P. reflexivity.
Qed.
Lemma press_hot r w lmax k y guess : rd yes k = Some y -> (k + 1 < ax_n yes)%Z ->
  EOS_SC_interp rho tmp yes (catch_rho rho (r * RHO_unit)) (ax_max tmp) y lwtab = Some lmax -> pow10 lmax <= (w - r) * U_unit + ws ->
  exists n p lT, (forall j, press_w (n + j)%nat r w y guess = Got p lT) /\ near ((TOL + 2 * TABLE_TOL * (L + hi + 2)) / m) lT (ax_max tmp).
Proof.
  intros K K1 A H. pose proof (catch_rho_range rho dr (r * RHO_unit) E1 T1) as B1. set (lrho := catch_rho rho (r * RHO_unit)) in *.
  destruct (bounds_node rho tmp yes dr dt dy E1 E2 E3 T1 T2' T3 lwtab SW m L (m_pos dt T2 m M) RI lrho k y B1 K K1) as (_ & _ & B3). pose proof TOL_pos as TP. pose proof (ax_lt tmp dt E2) as AL.
  assert (FV : lT_f rho tmp yes lrho y lwtab (ax_max tmp) = lmax) by (unfold lT_f; now rewrite A).
  pose proof (top_bound rho tmp yes dr dt dy E1 E2 E3 T1 T2 T3 lwtab SW lo hi BD lrho y B1 B3) as (F1 & _).
  pose proof (value_bound rho tmp yes dr dt dy E1 E2 E3 T1 T2 T3 lwtab SW lrho y (ax_min tmp) B1 ltac:(lra) B3 _ _ (find_bounds lwtab (tab_some rho tmp yes dr dt dy E1 E2 E3 lwtab SW))) as FB.
  pose proof (end_gap rho tmp yes dr dt dy E1 E2 E3 T1 T2 T3 lwtab SW m L M RI lrho y B1 B3) as GAP. rewrite FV in F1, GAP.
  set (x := (w - r) * U_unit) in *.
  assert (CW : lmax - TOL <= catch_w rho tab_le tab_lP e_shift u_shift x).
  { pose proof pow_min as PM. pose proof pow_max as PX. pose proof (pow10_pos (find_min lwtab)) as PP. unfold catch_w. destruct (Rltb_spec x (find_min wtab)) as [N|N].
    - pose proof (pow10_le (find_min lwtab) lmax ltac:(lra)). lra.
    - destruct (Rleb_spec (find_max wtab) x) as [Q|Q]; [lra|]. unfold w2lw.
      assert (lmax <= log10 (x + ws)); [|lra]. apply Rnot_lt_le. intros Z. apply pow10_lt in Z. rewrite pow10_log10 in Z by (pose proof (pow10_pos lmax); lra). lra. }
  destruct (search_high lwtab SW m L lo hi M RI LO BD SL lrho k y (catch_w rho tab_le tab_lP e_shift u_shift x) guess B1 K K1 ltac:(rewrite FV; exact CW)) as (lv1 & n & z & C1 & C2 & FX & NR).
  destruct (interp_defined rho tmp yes dr dt dy E1 E2 E3 T1 T2' T3 tab_lP lrho z y S2 ltac:(lra)) as (lp & P).
  exists n, (pow10 lp / U_unit), z. split; [|exact NR]. intros j. unfold EOS_SC_pressure_rho0_w. cbv zeta. fold lrho x. rewrite (catch_in_id yes y B3), C1, C2, FX, P. reflexivity.
Qed.
End W.

Section U.
Variables (m L lo hi : R).
Hypothesis M : TOL < m * dt.
Hypothesis RI : rising (ax_n rho) (ax_n tmp) (ax_n yes) tab_lP dt m L.
Hypothesis LO : 0 < lo.
Hypothesis BD : Forall (fun v => lo <= v <= hi) tab_lP.
Hypothesis SL : L <= 50 * lo.
Local Notation u_press := (EOS_SC_u_press rho tmp yes tab_le tab_lP e_shift u_shift RHO_unit U_unit).
Lemma u_cold press r lmin k y guess : rd yes k = Some y -> (k + 1 < ax_n yes)%Z ->
  EOS_SC_interp rho tmp yes (catch_rho rho (r * RHO_unit)) (ax_min tmp) y tab_lP = Some lmin -> press * U_unit <= pow10 lmin ->
  exists n u lT, (forall j, u_press (n + j)%nat press r y guess = Got u lT) /\ near ((TOL + 2 * TABLE_TOL * (L + hi + 2)) / m) lT (ax_min tmp).
Proof.
  intros K K1 A H. pose proof (catch_rho_range rho dr (r * RHO_unit) E1 T1) as B1. set (lrho := catch_rho rho (r * RHO_unit)) in *.
  destruct (bounds_node rho tmp yes dr dt dy E1 E2 E3 T1 T2' T3 tab_lP S2 m L (m_pos dt T2 m M) RI lrho k y B1 K K1) as (_ & _ & B3). pose proof TOL_pos as TP. pose proof (ax_lt tmp dt E2) as AL.
  assert (FV : lT_f rho tmp yes lrho y tab_lP (ax_min tmp) = lmin) by (unfold lT_f; now rewrite A).
  pose proof (value_bound rho tmp yes dr dt dy E1 E2 E3 T1 T2 T3 tab_lP S2 lrho y (ax_min tmp) B1 ltac:(lra) B3 _ _ (find_bounds tab_lP (tab_some rho tmp yes dr dt dy E1 E2 E3 tab_lP S2))) as FB. rewrite FV in FB.
  set (x := press * U_unit) in *.
  assert (CW : catch_press tab_lP x <= lmin).
  { unfold catch_press. destruct (Rltb_spec x (pow10 (find_min tab_lP))) as [|N]; [lra|]. pose proof (pow10_pos (find_min tab_lP)) as PP. destruct (Rleb_spec (pow10 (find_max tab_lP)) x) as [Q|Q].
    - destruct (Rle_lt_dec (find_max tab_lP) lmin) as [|Z']; [lra|]. apply pow10_lt in Z'. lra.
    - apply Rnot_lt_le. intros Z. apply pow10_lt in Z. rewrite pow10_log10 in Z by lra. lra. }
  destruct (search_low tab_lP S2 m L lo hi M RI LO BD SL lrho k y (catch_press tab_lP x) guess B1 K K1 ltac:(rewrite FV; exact CW)) as (lv1 & n & z & C1 & C2 & FX & NR).
  destruct (interp_defined rho tmp yes dr dt dy E1 E2 E3 T1 T2' T3 tab_le lrho z y S1 ltac:(lra)) as (le & P).
  exists n. eexists. exists z. split; [|exact NR]. intros j. unfold EOS_SC_u_press. cbv zeta. fold lrho x. rewrite (catch_in_id yes y B3), C1, FX, P. reflexivity.
Qed.
Lemma u_hot press r lmax k y guess : rd yes k = Some y -> (k + 1 < ax_n yes)%Z ->
  EOS_SC_interp rho tmp yes (catch_rho rho (r * RHO_unit)) (ax_max tmp) y tab_lP = Some lmax -> pow10 lmax <= press * U_unit ->
  exists n u lT, (forall j, u_press (n + j)%nat press r y guess = Got u lT) /\ near ((TOL + 2 * TABLE_TOL * (L + hi + 2)) / m) lT (ax_max tmp).
Proof.
  intros K K1 A H. pose proof (catch_rho_range rho dr (r * RHO_unit) E1 T1) as B1. set (lrho := catch_rho rho (r * RHO_unit)) in *.
  destruct (bounds_node rho tmp yes dr dt dy E1 E2 E3 T1 T2' T3 tab_lP S2 m L (m_pos dt T2 m M) RI lrho k y B1 K K1) as (_ & _ & B3). pose proof TOL_pos as TP. pose proof (ax_lt tmp dt E2) as AL.
  assert (FV : lT_f rho tmp yes lrho y tab_lP (ax_max tmp) = lmax) by (unfold lT_f; now rewrite A).
  pose proof (top_bound rho tmp yes dr dt dy E1 E2 E3 T1 T2 T3 tab_lP S2 lo hi BD lrho y B1 B3) as (F1 & _).
  pose proof (value_bound rho tmp yes dr dt dy E1 E2 E3 T1 T2 T3 tab_lP S2 lrho y (ax_min tmp) B1 ltac:(lra) B3 _ _ (find_bounds tab_lP (tab_some rho tmp yes dr dt dy E1 E2 E3 tab_lP S2))) as FB.
  pose proof (end_gap rho tmp yes dr dt dy E1 E2 E3 T1 T2 T3 tab_lP S2 m L M RI lrho y B1 B3) as GAP. rewrite FV in F1, GAP.
  set (x := press * U_unit) in *.
  assert (CW : lmax - TOL <= catch_press tab_lP x).
  { unfold catch_press. destruct (Rltb_spec x (pow10 (find_min tab_lP))) as [N|N].
    - pose proof (pow10_le (find_min tab_lP) lmax ltac:(lra)). lra.
    - destruct (Rleb_spec (pow10 (find_max tab_lP)) x) as [Q|Q]; [lra|].
      assert (lmax <= log10 x); [|lra]. apply Rnot_lt_le. intros Z. apply pow10_lt in Z. rewrite pow10_log10 in Z by (pose proof (pow10_pos lmax); lra). lra. }
  destruct (search_high tab_lP S2 m L lo hi M RI LO BD SL lrho k y (catch_press tab_lP x) guess B1 K K1 ltac:(rewrite FV; exact CW)) as (lv1 & n & z & C1 & C2 & FX & NR).
  destruct (interp_defined rho tmp yes dr dt dy E1 E2 E3 T1 T2' T3 tab_le lrho z y S1 ltac:(lra)) as (le & P).
  exists n. eexists. exists z. split; [|exact NR]. intros j. unfold EOS_SC_u_press. cbv zeta. fold lrho x. rewrite (catch_in_id yes y B3), C1, FX, P. reflexivity.
Qed.
End U.
End Ends.
