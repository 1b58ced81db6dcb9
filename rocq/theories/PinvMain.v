(** EOS_SC_pressure_rho0_w and EOS_SC_u_press. *)
From Coq Require Import Reals Lra Lia Bool ZArith List.
From Verif Require Import RLib XLib IntLib TabModel TabSpec TabProofs RootModel RootSpec RootProofs InvModel InvSpec InvProofs InvFill PinvModel PinvProofs.
Import ListNotations.
Open Scope R_scope.

Section Main.
Variables (rho tmp yes : axis) (dr dt dy : R).
Hypothesis E1 : even rho dr.
Hypothesis E2 : even tmp dt.
Hypothesis E3 : even yes dy.
Hypothesis T1 : TOL < dr.
Hypothesis T2 : 2 * TOL < dt.
Hypothesis T3 : TOL < dy.
Variables (tab_le tab_lP : list R) (e_shift u_shift RHO_unit U_unit : R).
Hypothesis S1 : length tab_le = (length rho * length tmp * length yes)%nat.
Hypothesis S2 : length tab_lP = (length rho * length tmp * length yes)%nat.
Hypothesis RU : 0 < RHO_unit.
Hypothesis UU : 0 < U_unit.
Hypothesis TOP : 3 * TABLE_TOL <= ax_max tmp - 2 * TOL \/ ax_max tmp - 2 * TOL <= - TABLE_TOL.
Local Notation wtab := (tab_wmrho rho tab_le tab_lP e_shift u_shift).
Local Notation lwtab := (tab_lwmrho rho tab_le tab_lP e_shift u_shift).
Local Notation ws := (w_shift rho tab_le tab_lP e_shift u_shift).
Let T2' : TOL < dt := T2' dt T2.

Lemma wtab_length : length wtab = length tab_le.
Proof. unfold tab_wmrho. now rewrite map_length, seq_length. Qed.
Lemma lwtab_length : length lwtab = (length rho * length tmp * length yes)%nat.
Proof. unfold tab_lwmrho. now rewrite map_length, wtab_length. Qed.
Lemma le_some : tab_le <> [].
Proof. apply (tab_some rho tmp yes dr dt dy E1 E2 E3 tab_le S1). Qed.
Lemma wtab_some : wtab <> [].
Proof. intros Q. pose proof wtab_length as W. rewrite Q in W. pose proof le_some. destruct tab_le; [congruence|discriminate]. Qed.
Lemma wtab_pos w : In w wtab -> 0 < w + ws.
Proof. intros H. apply (proj1 (Forall_forall _ _) (shift_pos wtab wtab_some) w H). Qed.
Lemma wtab_at e : (e < length tab_le)%nat -> nth_error wtab e = Some (wmrho_entry rho tab_le tab_lP e_shift u_shift e).
Proof.
  intros H. unfold tab_wmrho. rewrite nth_error_map, (nth_error_nth' (seq 0 (length tab_le)) 0%nat) by (rewrite seq_length; lia).
  rewrite seq_nth by lia. reflexivity.
Qed.
(** every log in the tables is the log of a positive number *)
Lemma logs_w e : (e < length tab_le)%nat -> exists lw, nth_error lwtab e = Some lw /\ 0 < wmrho_entry rho tab_le tab_lP e_shift u_shift e + ws /\
  pow10 lw = wmrho_entry rho tab_le tab_lP e_shift u_shift e + ws.
Proof.
  intros H. pose proof (wtab_at e H) as W. exists (w2lw rho tab_le tab_lP e_shift u_shift (wmrho_entry rho tab_le tab_lP e_shift u_shift e)).
  unfold tab_lwmrho. rewrite nth_error_map, W. split; [reflexivity|]. assert (P := wtab_pos _ (nth_error_In _ _ W)). split; [exact P|].
  unfold w2lw. now apply pow10_log10.
Qed.
(** the least and greatest log are the logs of the least and greatest *)
Lemma lw_min : find_min lwtab = w2lw rho tab_le tab_lP e_shift u_shift (find_min wtab).
Proof.
  pose proof (find_min_in wtab wtab_some) as I. apply find_min_spec; [unfold tab_lwmrho; now apply in_map|].
  intros v V. unfold tab_lwmrho in V. apply in_map_iff in V. destruct V as (w & <- & W). apply log10_le; [now apply wtab_pos|].
  apply Rplus_le_compat_r. apply (proj1 (Forall_forall _ _) (find_bounds wtab wtab_some)) in W. lra.
Qed.
Lemma lw_max : find_max lwtab = w2lw rho tab_le tab_lP e_shift u_shift (find_max wtab).
Proof.
  pose proof (find_max_in wtab wtab_some) as I. apply find_max_spec; [unfold tab_lwmrho; now apply in_map|].
  intros v V. unfold tab_lwmrho in V. apply in_map_iff in V. destruct V as (w & <- & W). apply log10_le; [now apply wtab_pos|].
  apply Rplus_le_compat_r. apply (proj1 (Forall_forall _ _) (find_bounds wtab wtab_some)) in W. lra.
Qed.
(** catch_w of an enthalpy between the least and the greatest *)
Lemma catch_w_near w : find_min wtab <= w <= find_max wtab ->
  w2lw rho tab_le tab_lP e_shift u_shift w - TOL <= catch_w rho tab_le tab_lP e_shift u_shift w <= w2lw rho tab_le tab_lP e_shift u_shift w.
Proof.
  intros B. pose proof TOL_pos. unfold catch_w. destruct (Rltb_spec w (find_min wtab)); [lra|].
  destruct (Rleb_spec (find_max wtab) w); [|lra]. rewrite lw_max. replace w with (find_max wtab) by lra. lra.
Qed.
Lemma catch_press_near p : find_min tab_lP <= p <= find_max tab_lP -> p - TOL <= catch_press tab_lP (pow10 p) <= p.
Proof.
  intros B. pose proof TOL_pos. unfold catch_press. destruct (Rltb_spec (pow10 p) (pow10 (find_min tab_lP))) as [N|_]; [apply pow10_lt_inv in N; lra|].
  destruct (Rleb_spec (pow10 (find_max tab_lP)) (pow10 p)) as [N|N].
  - assert (p = find_max tab_lP). { apply Rle_antisym; [lra|]. apply Rnot_lt_le. intros Q. apply pow10_lt in Q. lra. } lra.
  - rewrite log10_pow10. lra.
Qed.

Section W.
Variables (m L lo hi : R).
Hypothesis M : TOL < m * dt.
Hypothesis RI : rising (ax_n rho) (ax_n tmp) (ax_n yes) lwtab dt m L.
Hypothesis LO : 0 < lo.
Hypothesis BD : Forall (fun v => lo <= v <= hi) lwtab.
Hypothesis SL : L <= 50 * lo.
Local Notation press_w := (EOS_SC_pressure_rho0_w rho tmp yes tab_le tab_lP e_shift u_shift RHO_unit U_unit).
(** every enthalpy is given a positive pressure *)
Lemma press_total r w ye guess : exists n p lT, (forall j, press_w (n + j)%nat r w ye guess = Got p lT) /\ 0 < p.
Proof.
  pose proof (catch_rho_range rho dr (r * RHO_unit) E1 T1) as B1. pose proof (catch_in_range yes dy ye E3 T3) as B3.
  destruct (search_any rho tmp yes dr dt dy E1 E2 E3 T1 T2 T3 lwtab lwtab_length m L lo hi M RI LO BD SL TOP _ _
    (catch_w rho tab_le tab_lP e_shift u_shift ((w - r) * U_unit)) guess B1 B3) as (lv1 & lv2 & n & x & C1 & C2 & FX).
  destruct (interp_defined rho tmp yes dr dt dy E1 E2 E3 T1 T2' T3 tab_lP (catch_rho rho (r * RHO_unit)) x (catch_in yes ye) S2 ltac:(lra)) as (lp & P).
  exists n, (pow10 lp / U_unit), x. split.
  - intros j. unfold EOS_SC_pressure_rho0_w. cbv zeta. rewrite C1, C2, FX, P. reflexivity.
  - apply Rmult_lt_0_compat; [apply pow10_pos|now apply Rinv_0_lt_compat].
Qed.
(** at a point of the table the pressure is that of the table *)
Variables (mP LP : R).
Hypothesis MP : 0 < mP.
Hypothesis RP : rising (ax_n rho) (ax_n tmp) (ax_n yes) tab_lP dt mP LP.
Lemma elem_of i j k : (0 <= i < ax_n rho)%Z -> (0 <= j < ax_n tmp)%Z -> (0 <= k < ax_n yes)%Z ->
  (Z.to_nat (EOS_ELEM rho tmp i j k) < length tab_le)%nat /\ (0 <= EOS_ELEM rho tmp i j k)%Z /\ Nat.modulo (Z.to_nat (EOS_ELEM rho tmp i j k)) (length rho) = Z.to_nat i.
Proof.
  intros I J K. pose proof (elem_in (ax_n rho) (ax_n tmp) (ax_n yes) i j k I J K) as EI. unfold EOS_ELEM. split; [rewrite S1; unfold ax_n in *; lia|]. split; [unfold ax_n in *; lia|].
  apply Nat2Z.inj. rewrite Nat2Z.inj_mod, Z2Nat.id by (unfold ax_n in *; lia). rewrite Z2Nat.id by lia. unfold ax_n in *.
  rewrite Z.add_comm, Z.mul_comm, Z.mod_add by lia. apply Z.mod_small. lia.
Qed.
Lemma press_node r i j k lr lt y guess : rd rho i = Some lr -> rd tmp j = Some lt -> rd yes k = Some y ->
  (i + 1 < ax_n rho)%Z -> (j + 1 < ax_n tmp)%Z -> (k + 1 < ax_n yes)%Z -> r * RHO_unit = pow10 lr ->
  exists u P n p lT, EOS_SC_get_u_of_T rho tmp yes tab_le e_shift u_shift U_unit (r * RHO_unit) (pow10 lt) y = Some u /\
    EOS_SC_pressure_rho0_u rho tmp yes tab_lP U_unit lr lt y = Some P /\
    (forall f, press_w (n + f)%nat r (r + u + P) y guess = Got p lT) /\
    near ((TOL + 2 * TABLE_TOL * (L + hi + 2)) / m) lT lt /\ near (LP * ((TOL + 2 * TABLE_TOL * (L + hi + 2)) / m)) (log10 p) (log10 P).
Proof.
  intros I J K I1 J1 K1 HR.
  pose proof (interp_node rho tmp yes dr dt dy) as NODE.
  destruct (NODE tab_le i j k lr lt y E1 E2 E3 T1 T2' T3 S1 I J K I1 J1 K1) as (NE & B1 & B2 & B3).
  destruct (NODE tab_lP i j k lr lt y E1 E2 E3 T1 T2' T3 S2 I J K I1 J1 K1) as (NP & _).
  destruct (NODE lwtab i j k lr lt y E1 E2 E3 T1 T2' T3 lwtab_length I J K I1 J1 K1) as (NW & _).
  pose proof (rd_in _ _ _ I) as I0. pose proof (rd_in _ _ _ J) as J0. pose proof (rd_in _ _ _ K) as K0.
  destruct (elem_of i j k) as (EL & E0 & EM); [unfold ax_n in *; lia..|]. set (e := EOS_ELEM rho tmp i j k) in *.
  assert (RDN : forall tab, length tab = (length rho * length tmp * length yes)%nat -> rd tab e = Some (nth (Z.to_nat e) tab 0)).
  { intros tab ST. unfold rd. destruct (Z.ltb_spec e 0); [lia|]. apply nth_error_nth'. lia. }
  rewrite (RDN tab_le S1) in NE. rewrite (RDN tab_lP S2) in NP.
  destruct (logs_w (Z.to_nat e) EL) as (lw & LW1 & LW2 & LW3).
  assert (NW' : EOS_SC_interp rho tmp yes lr lt y lwtab = Some lw). { rewrite NW. unfold rd. destruct (Z.ltb_spec e 0); [lia|exact LW1]. } clear NW.
  assert (CR : catch_rho rho (r * RHO_unit) = lr).
  { rewrite HR. unfold catch_rho. destruct (Rltb_spec (pow10 lr) (pow10 (ax_min rho))) as [N|_]; [apply pow10_lt_inv in N; lra|].
    destruct (Rleb_spec (pow10 (ax_max rho)) (pow10 lr)) as [N|_]; [pose proof (pow10_lt lr (ax_max rho)); lra|]. apply log10_pow10. }
  assert (CY : catch_in yes y = y) by now apply catch_in_id.
  assert (UT : used_lT tmp (pow10 lt) = lt).
  { rewrite used_id; [apply log10_pow10|]. split; [apply pow10_le|apply pow10_lt]; lra. }
  set (u := e2u u_shift (pow10 lr) (le2e e_shift (nth (Z.to_nat e) tab_le 0)) / U_unit). set (P := pow10 (nth (Z.to_nat e) tab_lP 0) / U_unit).
  assert (GU : EOS_SC_get_u_of_T rho tmp yes tab_le e_shift u_shift U_unit (r * RHO_unit) (pow10 lt) y = Some u).
  { unfold EOS_SC_get_u_of_T. rewrite CY, CR. change (catch_in tmp (log10 (if Rltb (pow10 (ax_max tmp)) (if Rltb (pow10 lt) (pow10 (ax_min tmp)) then pow10 (ax_min tmp) else pow10 lt)
      then pow10 (ax_max tmp) else if Rltb (pow10 lt) (pow10 (ax_min tmp)) then pow10 (ax_min tmp) else pow10 lt))) with (used_lT tmp (pow10 lt)). rewrite UT, NE, HR. reflexivity. }
  assert (GP : EOS_SC_pressure_rho0_u rho tmp yes tab_lP U_unit lr lt y = Some P) by (unfold EOS_SC_pressure_rho0_u; rewrite NP; reflexivity).
  set (w0 := wmrho_entry rho tab_le tab_lP e_shift u_shift (Z.to_nat e)) in *.
  assert (W0 : (r + u + P - r) * U_unit = w0).
  { unfold w0, wmrho_entry, u, P, lrho_of, at_elem. cbv zeta. rewrite EM. rewrite (rd_nth rho i lr I). field. lra. }
  assert (WI : In w0 wtab) by (apply (nth_error_In _ (Z.to_nat e)); now apply wtab_at).
  assert (WB : find_min wtab <= w0 <= find_max wtab) by (apply (proj1 (Forall_forall _ _) (find_bounds wtab wtab_some) _ WI)).
  pose proof (catch_w_near w0 WB) as CW.
  assert (W2 : w2lw rho tab_le tab_lP e_shift u_shift w0 = lw) by (unfold w2lw; rewrite <- LW3; apply log10_pow10).
  rewrite W2 in CW.
  assert (FV : lT_f rho tmp yes lr y lwtab lt = lw) by (unfold lT_f; now rewrite NW').
  destruct (search_near rho tmp yes dr dt dy E1 E2 E3 T1 T2 T3 lwtab lwtab_length m L lo hi M RI LO BD SL TOP lr k y lt
    (catch_w rho tab_le tab_lP e_shift u_shift w0) guess B1 K K1 B2 ltac:(rewrite FV; exact CW)) as (lv1 & n & x & C1 & C2 & FX & NR).
  pose proof (lT_f_value rho tmp yes dr dt dy E1 E2 E3 T1 T2' T3 tab_lP S2 lr y) as VP.
  exists u, P, n, (pow10 (lT_f rho tmp yes lr y tab_lP x) / U_unit), x. split; [exact GU|]. split; [exact GP|]. split.
  - intros f. unfold EOS_SC_pressure_rho0_w. cbv zeta. rewrite W0, CR, CY, C1, C2, FX, VP by auto. reflexivity.
  - split; [exact NR|]. unfold near in *.
    assert (LOG : forall a, log10 (pow10 a / U_unit) = a - log10 U_unit).
    { intros a. unfold log10, Rdiv at 2. rewrite ln_mult by (auto using pow10_pos, Rinv_0_lt_compat). rewrite ln_Rinv by auto.
      change (ln (pow10 a)) with (ln (pow10 a)). replace (ln (pow10 a)) with (a * ln 10) by (unfold pow10; now rewrite ln_exp). field. apply Rgt_not_eq, ln10_pos. }
    unfold P. rewrite !LOG. replace (nth (Z.to_nat e) tab_lP 0) with (lT_f rho tmp yes lr y tab_lP lt) by (unfold lT_f; now rewrite NP).
    replace (_ - _ - (_ - _)) with (lT_f rho tmp yes lr y tab_lP x - lT_f rho tmp yes lr y tab_lP lt) by ring.
    pose proof (table_grows rho tmp yes dr dt dy E1 E2 E3 T1 T2' T3 tab_lP S2 mP LP RP lr y B1 B3) as G.
    pose proof (rates _ _ _ G) as ML. pose proof (grow_abs _ mP LP MP G x lt) as GA. eapply Rle_trans; [apply GA|]. apply Rmult_le_compat_l; lra.
Qed.
End W.

Section U.
Variables (m L lo hi : R).
Hypothesis M : TOL < m * dt.
Hypothesis RI : rising (ax_n rho) (ax_n tmp) (ax_n yes) tab_lP dt m L.
Hypothesis LO : 0 < lo.
Hypothesis BD : Forall (fun v => lo <= v <= hi) tab_lP.
Hypothesis SL : L <= 50 * lo.
Local Notation u_press := (EOS_SC_u_press rho tmp yes tab_le tab_lP e_shift u_shift RHO_unit U_unit).
Lemma u_total press r k y guess : rd yes k = Some y -> (k + 1 < ax_n yes)%Z -> exists n u lT, forall j, u_press (n + j)%nat press r y guess = Got u lT.
Proof.
  intros K K1. pose proof (catch_rho_range rho dr (r * RHO_unit) E1 T1) as B1.
  destruct (bounds_node rho tmp yes dr dt dy E1 E2 E3 T1 T2' T3 tab_lP S2 m L (m_pos dt T2 m M) RI _ k y B1 K K1) as (_ & _ & B3).
  destruct (search_node rho tmp yes dr dt dy E1 E2 E3 T1 T2 T3 tab_lP S2 m L lo hi M RI LO BD SL TOP _ k y
    (catch_press tab_lP (press * U_unit)) guess B1 K K1) as (lv1 & n & x & C1 & FX).
  destruct (interp_defined rho tmp yes dr dt dy E1 E2 E3 T1 T2' T3 tab_le (catch_rho rho (r * RHO_unit)) x y S1 ltac:(lra)) as (le & P).
  exists n. eexists. exists x. intros j. unfold EOS_SC_u_press. cbv zeta. rewrite (catch_in_id yes y B3), C1, FX, P. reflexivity.
Qed.
Variables (mE LE : R).
Hypothesis ME : 0 < mE.
Hypothesis RE : rising (ax_n rho) (ax_n tmp) (ax_n yes) tab_le dt mE LE.
Lemma u_near r lT0 k y guess : 0 < r -> rd yes k = Some y -> (k + 1 < ax_n yes)%Z -> ax_min tmp <= lT0 < ax_max tmp ->
  exists P u0 n u lT, EOS_SC_pressure_rho0_u rho tmp yes tab_lP U_unit (catch_rho rho (r * RHO_unit)) lT0 y = Some P /\
    EOS_SC_get_u_of_T rho tmp yes tab_le e_shift u_shift U_unit (r * RHO_unit) (pow10 lT0) y = Some u0 /\
    (forall j, u_press (n + j)%nat P r y guess = Got u lT) /\ near ((TOL + 2 * TABLE_TOL * (L + hi + 2)) / m) lT lT0 /\
    near (LE * ((TOL + 2 * TABLE_TOL * (L + hi + 2)) / m)) (log10 ((u * U_unit - u_shift) / (r * RHO_unit) + e_shift)) (log10 ((u0 * U_unit - u_shift) / (r * RHO_unit) + e_shift)).
Proof.
  intros HR K K1 B2. pose proof (catch_rho_range rho dr (r * RHO_unit) E1 T1) as B1. set (lrho := catch_rho rho (r * RHO_unit)) in *.
  assert (RP : 0 < r * RHO_unit) by now apply Rmult_lt_0_compat.
  destruct (bounds_node rho tmp yes dr dt dy E1 E2 E3 T1 T2' T3 tab_lP S2 m L (m_pos dt T2 m M) RI lrho k y B1 K K1) as (_ & _ & B3).
  pose proof (lT_f_value rho tmp yes dr dt dy E1 E2 E3 T1 T2' T3 tab_lP S2 lrho y) as VP.
  pose proof (lT_f_value rho tmp yes dr dt dy E1 E2 E3 T1 T2' T3 tab_le S1 lrho y) as VE.
  set (lp := lT_f rho tmp yes lrho y tab_lP lT0).
  assert (CY : catch_in yes y = y) by now apply catch_in_id.
  assert (LPB : find_min tab_lP <= lp <= find_max tab_lP).
  { apply (value_bound rho tmp yes dr dt dy E1 E2 E3 T1 T2 T3 tab_lP S2 lrho y lT0 B1 B2 B3). apply find_bounds. apply (tab_some rho tmp yes dr dt dy E1 E2 E3 tab_lP S2). }
  pose proof (catch_press_near lp LPB) as CP.
  destruct (search_near rho tmp yes dr dt dy E1 E2 E3 T1 T2 T3 tab_lP S2 m L lo hi M RI LO BD SL TOP lrho k y lT0
    (catch_press tab_lP (pow10 lp)) guess B1 K K1 B2 CP) as (lv1 & n & x & C1 & _ & FX & NR).
  exists (pow10 lp / U_unit). eexists. exists n. eexists. exists x. split; [unfold EOS_SC_pressure_rho0_u; rewrite VP by auto; reflexivity|]. split.
  { unfold EOS_SC_get_u_of_T. rewrite CY. fold lrho. change (catch_in tmp (log10 (if Rltb (pow10 (ax_max tmp)) (if Rltb (pow10 lT0) (pow10 (ax_min tmp)) then pow10 (ax_min tmp) else pow10 lT0)
      then pow10 (ax_max tmp) else if Rltb (pow10 lT0) (pow10 (ax_min tmp)) then pow10 (ax_min tmp) else pow10 lT0))) with (used_lT tmp (pow10 lT0)).
    rewrite used_id, log10_pow10 by (split; [apply pow10_le|apply pow10_lt]; lra). rewrite VE by auto. reflexivity. }
  split; [|split; [exact NR|]].
  - intros j. unfold EOS_SC_u_press. cbv zeta. fold lrho. rewrite CY. replace (pow10 lp / U_unit * U_unit) with (pow10 lp) by (field; lra).
    rewrite C1, FX, VE by auto. reflexivity.
  - assert (LOG : forall a, log10 ((e2u u_shift (r * RHO_unit) (le2e e_shift a) / U_unit * U_unit - u_shift) / (r * RHO_unit) + e_shift) = a).
    { intros a. rewrite <- (log10_pow10 a) at 2. f_equal. unfold e2u, le2e. field. split; lra. }
    rewrite !LOG. pose proof (table_grows rho tmp yes dr dt dy E1 E2 E3 T1 T2' T3 tab_le S1 mE LE RE lrho y B1 B3) as G.
    unfold near in *. pose proof (rates _ _ _ G) as ML. pose proof (grow_abs _ mE LE ME G x lT0) as GA. eapply Rle_trans; [apply GA|]. apply Rmult_le_compat_l; lra.
Qed.
End U.
End Main.
