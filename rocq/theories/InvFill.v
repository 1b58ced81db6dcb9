(** EOS_SC_fill undoes EOS_SC_get_u_of_T. *)
From Coq Require Import Reals Lra Lia Bool ZArith List.
From Verif Require Import RLib XLib IntLib TabModel TabSpec TabProofs RootModel RootSpec RootProofs InvModel InvSpec InvProofs.
Import ListNotations.
Open Scope R_scope.

Lemma ln10_pos : 0 < ln 10.
Proof. rewrite <- ln_1. apply ln_increasing; lra. Qed.
Lemma pow10_pos x : 0 < pow10 x.
Proof. apply exp_pos. Qed.
Lemma pow10_lt x y : x < y -> pow10 x < pow10 y.
Proof. intros H. apply exp_increasing, Rmult_lt_compat_r; auto using ln10_pos. Qed.
Lemma pow10_le x y : x <= y -> pow10 x <= pow10 y.
Proof. intros [H| ->]; [left; now apply pow10_lt|right; reflexivity]. Qed.
Lemma pow10_lt_inv x y : pow10 x < pow10 y -> x < y.
Proof. intros H. apply Rnot_le_lt. intros N. apply pow10_le in N. lra. Qed.
Lemma log10_pow10 x : log10 (pow10 x) = x.
Proof. unfold log10, pow10. rewrite ln_exp. field. apply Rgt_not_eq, ln10_pos. Qed.
Lemma pow10_log10 x : 0 < x -> pow10 (log10 x) = x.
Proof. intros H. unfold log10, pow10. replace (ln x / ln 10 * ln 10) with (ln x) by (field; apply Rgt_not_eq, ln10_pos). now apply exp_ln. Qed.

Lemma catch_in_range a d x : even a d -> TOL < d -> ax_min a <= catch_in a x < ax_max a.
Proof.
  intros E T. pose proof (ax_lt a d E). pose proof TOL_pos. unfold catch_in.
  destruct (Rltb_spec x (ax_min a)); [lra|]. destruct (Rleb_spec (ax_max a) x); lra.
Qed.
Lemma catch_in_id a x : ax_min a <= x < ax_max a -> catch_in a x = x.
Proof. intros H. unfold catch_in. destruct (Rltb_spec x (ax_min a)); [lra|]. destruct (Rleb_spec (ax_max a) x); lra. Qed.
Lemma catch_rho_range a d r : even a d -> TOL < d -> ax_min a <= catch_rho a r < ax_max a.
Proof.
  intros E T. pose proof (ax_lt a d E). pose proof TOL_pos. unfold catch_rho.
  destruct (Rltb_spec r (pow10 (ax_min a))) as [|A]; [lra|]. destruct (Rleb_spec (pow10 (ax_max a)) r) as [|B]; [lra|].
  pose proof (pow10_pos (ax_min a)). assert (P : 0 < r) by lra. rewrite <- (pow10_log10 r P) in A, B. split.
  - apply Rnot_lt_le. intros N. apply pow10_lt in N. lra.
  - apply pow10_lt_inv. lra.
Qed.

Lemma find_min_spec l lo : In lo l -> (forall v, In v l -> lo <= v) -> find_min l = lo.
Proof.
  intros I H. destruct (minmax_list l) as (a & b & E & A & B & F); [intros ->; contradiction|]. unfold find_min. rewrite E.
  apply Rle_antisym; [|now apply H]. apply (proj1 (Forall_forall _ _) F lo I).
Qed.
Lemma find_max_spec l hi : In hi l -> (forall v, In v l -> v <= hi) -> find_max l = hi.
Proof.
  intros I H. destruct (minmax_list l) as (a & b & E & A & B & F); [intros ->; contradiction|]. unfold find_max. rewrite E.
  apply Rle_antisym; [now apply H|]. apply (proj1 (Forall_forall _ _) F hi I).
Qed.
Lemma find_bounds l : l <> [] -> Forall (fun v => find_min l <= v <= find_max l) l.
Proof. intros H. destruct (minmax_list l H) as (a & b & E & A & B & F). unfold find_min, find_max. rewrite E. exact F. Qed.

Lemma cell_unique a d i j x y r : even a d -> rd a i = Some x -> rd a j = Some y -> x <= r < x + d -> y <= r < y + d -> i = j.
Proof.
  intros (_ & _ & D & U) I J A B. pose proof (U i (rd_in _ _ _ I)) as V. pose proof (U j (rd_in _ _ _ J)) as W.
  rewrite V in I. rewrite W in J. injection I. injection J. rewrite !Z.sub_0_r. intros EJ EI.
  assert (K : forall p q, IZR p * d < (IZR q + 1) * d -> (p <= q)%Z).
  { intros p q H. apply Rmult_lt_reg_r in H; [|auto]. rewrite <- plus_IZR in H. apply lt_IZR in H. lia. }
  assert (i <= j)%Z by (apply K; lra). assert (j <= i)%Z by (apply K; lra). lia.
Qed.

Section Node.
Variables (rho tmp yes : axis) (dr dt dy : R).
Hypothesis E1 : even rho dr.
Hypothesis E2 : even tmp dt.
Hypothesis E3 : even yes dy.
Hypothesis T1 : TOL < dr.
Hypothesis T2 : TOL < dt.
Hypothesis T3 : TOL < dy.
Variable tab : list R.
Hypothesis SZ : length tab = (length rho * length tmp * length yes)%nat.
Variables (m L : R).
Hypothesis M : 0 < m.
Hypothesis RI : rising (ax_n rho) (ax_n tmp) (ax_n yes) tab dt m L.
Local Notation at3 := (at3 rho tmp tab).

Lemma column_at i k j : (0 <= j < ax_n tmp)%Z -> nth_error (column rho tmp tab i k) (Z.to_nat j) = Some (at3 i j k).
Proof.
  intros J. unfold column. unfold ax_n in J. rewrite nth_error_map.
  rewrite (nth_error_nth' (seq 0 (length tmp)) 0%nat) by (rewrite seq_length; lia). rewrite seq_nth by lia. cbn [option_map].
  unfold InvProofs.at3. rewrite Nat.add_0_l, Z2Nat.id by lia. reflexivity.
Qed.
Lemma column_in i k v : In v (column rho tmp tab i k) -> exists j, (0 <= j < ax_n tmp)%Z /\ v = at3 i j k.
Proof.
  intros H. unfold column in H. apply in_map_iff in H. destruct H as (j & H & J). apply in_seq in J. exists (Z.of_nat j).
  unfold ax_n. split; [lia|]. rewrite <- H. reflexivity.
Qed.
Lemma column_grows i k j j' : (0 <= i < ax_n rho)%Z -> (0 <= k < ax_n yes)%Z -> (0 <= j)%Z -> (j <= j')%Z -> (j' < ax_n tmp)%Z -> at3 i j k <= at3 i j' k.
Proof.
  intros I K J JJ J'. destruct E2 as (_ & _ & D & _).
  pose proof (chain (fun j => at3 i j k) (ax_n tmp) dt m L) as C. specialize (C ltac:(
    intros q Q1 Q2; apply (RI i q k); auto; apply (at3_rd rho tmp yes tab SZ); lia) j (j' - j)%Z J ltac:(lia) ltac:(lia)).
  cbv beta in C. replace (j + (j' - j))%Z with j' in C by lia. assert (0 <= IZR (j' - j)) by (apply (IZR_le 0); lia).
  assert (0 <= m * (IZR (j' - j) * dt)) by (repeat apply Rmult_le_pos; lra). lra.
Qed.
Lemma tmp_n : (2 <= ax_n tmp)%Z.
Proof. destruct E2 as (N & _). unfold ax_n. lia. Qed.
Lemma column_min i k : (0 <= i < ax_n rho)%Z -> (0 <= k < ax_n yes)%Z -> find_min (column rho tmp tab i k) = at3 i 0 k.
Proof.
  intros I K. pose proof tmp_n. apply find_min_spec.
  - apply (nth_error_In _ (Z.to_nat 0)). apply column_at. lia.
  - intros v V. destruct (column_in i k v V) as (j & J & ->). apply column_grows; lia.
Qed.
Lemma column_max i k : (0 <= i < ax_n rho)%Z -> (0 <= k < ax_n yes)%Z -> find_max (column rho tmp tab i k) = at3 i (ax_n tmp - 1) k.
Proof.
  intros I K. pose proof tmp_n. apply find_max_spec.
  - apply (nth_error_In _ (Z.to_nat (ax_n tmp - 1))). apply column_at. lia.
  - intros v V. destruct (column_in i k v V) as (j & J & ->). apply column_grows; lia.
Qed.
Lemma fill_2d_at pick i k : (0 <= i < ax_n rho)%Z -> (0 <= k < ax_n yes)%Z ->
  rd (fill_2d rho tmp yes pick tab) (ax_n rho * k + i) = Some (pick (column rho tmp tab i k)).
Proof.
  intros I K. unfold ax_n in *. assert (P : (0 <= Z.of_nat (length rho) * k + i < Z.of_nat (length rho * length yes))%Z).
  { rewrite Nat2Z.inj_mul. split; [assert (0 <= Z.of_nat (length rho) * k)%Z by (apply Z.mul_nonneg_nonneg; lia); lia|].
    assert (Z.of_nat (length rho) * (k + 1) <= Z.of_nat (length rho) * Z.of_nat (length yes))%Z by (apply Z.mul_le_mono_nonneg_l; lia). lia. }
  unfold rd. destruct (Z.ltb_spec (Z.of_nat (length rho) * k + i) 0) as [|_]; [lia|]. unfold fill_2d. rewrite nth_error_map.
  rewrite (nth_error_nth' (seq 0 (length rho * length yes)) 0%nat) by (rewrite seq_length; lia). rewrite seq_nth by lia. cbn [option_map].
  rewrite Nat.add_0_l. rewrite Nat2Z.inj_mod, Nat2Z.inj_div, Z2Nat.id by lia.
  rewrite (Z.mul_comm _ k), Z.add_comm, Z.mod_add, Z.div_add by lia. rewrite Z.mod_small, Z.div_small by lia. reflexivity.
Qed.
Lemma fill_2d_length pick : length (fill_2d rho tmp yes pick tab) = (length rho * length yes)%nat.
Proof. unfold fill_2d. now rewrite map_length, seq_length. Qed.

(** the interpolation at the ends of the temperatures *)
Lemma ends lrho Ye i k ri yk : ax_min rho <= lrho < ax_max rho -> ax_min yes <= Ye < ax_max yes ->
  rd rho i = Some ri -> rd yes k = Some yk -> ri <= lrho < ri + dr -> yk <= Ye < yk + dy ->
  lT_f rho tmp yes lrho Ye tab (ax_min tmp) = level rho tmp tab i k ((lrho - ri) / dr) ((Ye - yk) / dy) 0 /\
  lT_f rho tmp yes lrho Ye tab (ax_max tmp) = level rho tmp tab i k ((lrho - ri) / dr) ((Ye - yk) / dy) (ax_n tmp - 1).
Proof.
  intros B1 B3 R1 R3 C1 C3.
  destruct (interp_levels rho tmp yes dr dt dy E1 E2 E3 T1 T2 T3 tab SZ lrho Ye B1 B3) as (i' & k' & ri' & yk' & I & K & R1' & R3' & C1' & C3' & H).
  assert (i' = i) by (eapply (cell_unique rho dr); eauto). assert (k' = k) by (eapply (cell_unique yes dy); eauto). subst i' k'.
  assert (ri' = ri) by congruence. assert (yk' = yk) by congruence. subst ri' yk'.
  pose proof (ax_max_spec tmp dt E2) as W. destruct E2 as (_ & _ & D & _). pose proof tmp_n as N. split.
  - destruct (H (ax_min tmp)) as (j & (J1 & J2 & J3 & J4) & V). unfold lT_f. rewrite V.
    assert (j = 0%Z) as ->. { destruct J3 as [|J3]; [auto|]. assert (IZR j * dt <= 0 * dt) as Q by lra. apply Rmult_le_reg_r in Q; [|auto]. apply (le_IZR j 0) in Q. lia. }
    unfold seg. change (IZR 0) with 0. field. lra.
  - destruct (H (ax_max tmp)) as (j & (J1 & J2 & J3 & J4) & V). unfold lT_f. rewrite V.
    assert (j = (ax_n tmp - 2)%Z) as ->.
    { destruct J4 as [|J4]; [lia|]. assert (Q : IZR (ax_n tmp - 1) * dt < (IZR j + 1) * dt) by lra. apply Rmult_lt_reg_r in Q; [|auto].
      rewrite <- plus_IZR in Q. apply lt_IZR in Q. lia. }
    replace (ax_max tmp) with (ax_min tmp + (IZR (ax_n tmp - 2) + 1) * dt) by (rewrite W, !minus_IZR; ring).
    rewrite seg_right by auto. f_equal. lia.
Qed.
(** the bounds used by catch_var_2d are those of the temperature range, at an electron
    fraction of the table *)
Lemma bounds_node lrho k yk : ax_min rho <= lrho < ax_max rho -> rd yes k = Some yk -> (k + 1 < ax_n yes)%Z ->
  interp_2d rho yes lrho yk (fill_2d rho tmp yes find_min tab) = Some (lT_f rho tmp yes lrho yk tab (ax_min tmp)) /\
  interp_2d rho yes lrho yk (fill_2d rho tmp yes find_max tab) = Some (lT_f rho tmp yes lrho yk tab (ax_max tmp)) /\ ax_min yes <= yk < ax_max yes.
Proof.
  intros B1 R3 K1. pose proof (rd_in _ _ _ R3) as K0.
  assert (B3 : ax_min yes <= yk < ax_max yes).
  { destruct E3 as (_ & _ & D & U). pose proof (U k K0) as V. rewrite V in R3. injection R3. rewrite Z.sub_0_r. intros <-.
    rewrite (ax_max_spec yes dy E3). unfold ax_min. assert (0 <= IZR k) by (apply (IZR_le 0); lia).
    assert (IZR k < IZR (ax_n yes - 1)) by (apply IZR_lt; lia).
    assert (0 <= IZR k * dy) by (apply Rmult_le_pos; lra). assert (IZR k * dy < IZR (ax_n yes - 1) * dy) by (apply Rmult_lt_compat_r; lra). lra. }
  assert (Dy : 0 < dy) by (destruct E3 as (_ & _ & D & _); exact D).
  assert (Q : forall pick, exists i ri, (0 <= i /\ i + 1 < ax_n rho)%Z /\ rd rho i = Some ri /\ ri <= lrho < ri + dr /\
     interp_2d rho yes lrho yk (fill_2d rho tmp yes pick tab) = Some ((1 - (lrho - ri) / dr) * pick (column rho tmp tab i k) + (lrho - ri) / dr * pick (column rho tmp tab (i + 1) k))).
  { intros pick. destruct (interp_2d_node rho yes dr dy E1 E3 (fill_2d rho tmp yes pick tab) lrho k yk (fill_2d_length pick) B1 R3 K1)
      as (i & ri & t0 & t1 & I & R1 & C1 & A0 & A1 & V). exists i, ri. split; [auto|]. split; [auto|]. split; [auto|]. rewrite V.
    unfold entry in A0, A1. rewrite fill_2d_at in A0, A1 by (unfold ax_n in *; lia). injection A0. injection A1. intros <- <-. reflexivity. }
  split; [|split; [|exact B3]].
  - destruct (Q find_min) as (i & ri & I & R1 & C1 & V). rewrite V.
    destruct (ends lrho yk i k ri yk B1 B3 R1 R3 C1 ltac:(lra)) as (X & _). rewrite X. f_equal. rewrite !column_min by (unfold ax_n in *; lia).
    unfold level. replace ((yk - yk) / dy) with 0 by (field; lra). ring.
  - destruct (Q find_max) as (i & ri & I & R1 & C1 & V). rewrite V.
    destruct (ends lrho yk i k ri yk B1 B3 R1 R3 C1 ltac:(lra)) as (_ & X). rewrite X. f_equal. rewrite !column_max by (unfold ax_n in *; lia).
    unfold level. replace ((yk - yk) / dy) with 0 by (field; lra). ring.
Qed.
End Node.

Section Fill.
Variables (rho tmp yes : axis) (dr dt dy : R).
Hypothesis E1 : even rho dr.
Hypothesis E2 : even tmp dt.
Hypothesis E3 : even yes dy.
Hypothesis T1 : TOL < dr.
Hypothesis T2 : 2 * TOL < dt.
Hypothesis T3 : TOL < dy.
Variable tab : list R.
Hypothesis SZ : length tab = (length rho * length tmp * length yes)%nat.
Variables (m L lo hi : R).
Hypothesis M : TOL < m * dt.
Hypothesis RI : rising (ax_n rho) (ax_n tmp) (ax_n yes) tab dt m L.
Hypothesis LO : 0 < lo.
Hypothesis BD : Forall (fun v => lo <= v <= hi) tab.
Hypothesis SL : L <= 50 * lo.
Hypothesis TOP : 3 * TABLE_TOL <= ax_max tmp - 2 * TOL \/ ax_max tmp - 2 * TOL <= - TABLE_TOL.
Variables (e_shift u_shift RHO_unit U_unit : R).
Hypothesis RU : 0 < RHO_unit.
Hypothesis UU : 0 < U_unit.
Lemma dt_pos : 0 < dt.
Proof. pose proof TOL_pos. lra. Qed.
Lemma m_pos : 0 < m.
Proof. pose proof TOL_pos. pose proof dt_pos. apply Rnot_le_lt. intros N. assert (m * dt <= 0 * dt) by (apply Rmult_le_compat_r; lra). lra. Qed.
Lemma T2' : TOL < dt.
Proof. pose proof TOL_pos. lra. Qed.
Local Notation f lrho ye := (lT_f rho tmp yes lrho ye tab).
Lemma grow lrho ye : ax_min rho <= lrho < ax_max rho -> ax_min yes <= ye < ax_max yes -> grows m L (f lrho ye).
Proof. intros. apply (table_grows rho tmp yes dr dt dy); auto using T2', m_pos. Qed.
Lemma value lrho ye lT : ax_min rho <= lrho < ax_max rho -> EOS_SC_interp rho tmp yes lrho lT ye tab = Some (f lrho ye lT).
Proof. intros. apply (lT_f_value rho tmp yes dr dt dy); auto using T2'. Qed.
Lemma end_gap lrho ye : ax_min rho <= lrho < ax_max rho -> ax_min yes <= ye < ax_max yes -> f lrho ye (ax_min tmp) + TOL < f lrho ye (ax_max tmp).
Proof.
  intros B1 B3. pose proof (ax_lt tmp dt E2). pose proof dt_pos. pose proof m_pos. pose proof (grow lrho ye B1 B3 (ax_min tmp) (ax_max tmp) ltac:(lra)) as G.
  assert (m * dt <= m * (ax_max tmp - ax_min tmp)) by (apply Rmult_le_compat_l; lra). lra.
Qed.
(** the temperature get_u_of_T uses *)
Definition used_lT (T : R) : R :=
  catch_in tmp (log10 (let T' := if Rltb T (pow10 (ax_min tmp)) then pow10 (ax_min tmp) else T in if Rltb (pow10 (ax_max tmp)) T' then pow10 (ax_max tmp) else T')).
Lemma used_range T : ax_min tmp <= used_lT T < ax_max tmp.
Proof. apply (catch_in_range tmp dt); auto using T2'. Qed.
Lemma used_id T : pow10 (ax_min tmp) <= T < pow10 (ax_max tmp) -> used_lT T = log10 T.
Proof.
  intros H. unfold used_lT. cbv zeta. destruct (Rltb_spec T (pow10 (ax_min tmp))); [lra|]. destruct (Rltb_spec (pow10 (ax_max tmp)) T); [lra|].
  pose proof (pow10_pos (ax_min tmp)). assert (P : 0 < T) by lra. apply catch_in_id. rewrite <- (pow10_log10 T P) in H. split.
  - apply Rnot_lt_le. intros N. apply pow10_lt in N. lra.
  - apply pow10_lt_inv. lra.
Qed.
Lemma value_bound lrho ye lT : ax_min rho <= lrho < ax_max rho -> ax_min tmp <= lT < ax_max tmp -> ax_min yes <= ye < ax_max yes ->
  forall a b, Forall (fun v => a <= v <= b) tab -> a <= f lrho ye lT <= b.
Proof.
  intros B1 B2 B3 a b F. destruct (interp_bounded rho tmp yes dr dt dy E1 E2 E3 T1 T2' T3 tab lrho lT ye a b SZ B1 B2 B3 F) as (v & V & H).
  rewrite (value lrho ye lT B1) in V. injection V. intros ->. exact H.
Qed.
Lemma tab_some : tab <> [].
Proof.
  intros Q. pose proof SZ as S. rewrite Q in S. cbn in S. destruct E1 as (N1 & _), E2 as (N2 & _), E3 as (N3 & _). symmetry in S. apply Nat.eq_mul_0 in S. destruct S as [S|S]; [apply Nat.eq_mul_0 in S|]; lia.
Qed.
(** catch_e moves the log energy of a point of the table by at most TOL, downwards *)
Lemma catch_e_near lrho ye lT : ax_min rho <= lrho < ax_max rho -> ax_min tmp <= lT < ax_max tmp -> ax_min yes <= ye < ax_max yes ->
  f lrho ye lT - TOL <= catch_e tab e_shift (le2e e_shift (f lrho ye lT)) <= f lrho ye lT.
Proof.
  intros B1 B2 B3. pose proof (value_bound lrho ye lT B1 B2 B3 _ _ (find_bounds tab tab_some)) as Q. set (v := f lrho ye lT) in *.
  pose proof TOL_pos. unfold catch_e, le2e. destruct (Rltb_spec (pow10 v - e_shift) (pow10 (find_min tab) - e_shift)) as [A|A].
  - exfalso. assert (P : pow10 v < pow10 (find_min tab)) by lra. apply pow10_lt_inv in P. lra.
  - destruct (Rleb_spec (pow10 (find_max tab) - e_shift) (pow10 v - e_shift)) as [B|B].
    + assert (v = find_max tab). { apply Rle_antisym; [lra|]. apply Rnot_lt_le. intros N. apply pow10_lt in N. lra. } lra.
    + unfold e2le. replace (pow10 v - e_shift + e_shift) with (pow10 v) by ring. rewrite log10_pow10. lra.
Qed.
Lemma lo_hi : lo <= hi.
Proof. destruct (minmax_list tab tab_some) as (a & b & _ & A & _). pose proof (proj1 (Forall_forall _ _) BD a A). lra. Qed.
(** EOS_SC_fill after EOS_SC_get_u_of_T, at an electron fraction of the table *)
Lemma fill_node r T k ye guess : 0 < r -> rd yes k = Some ye -> (k + 1 < ax_n yes)%Z ->
  exists u n lT, EOS_SC_get_u_of_T rho tmp yes tab e_shift u_shift U_unit (r * RHO_unit) T ye = Some u /\
    (forall j, EOS_SC_fill rho tmp yes tab e_shift u_shift RHO_unit U_unit (n + j) r u ye guess = Stored (catch_rho rho (r * RHO_unit)) lT ye) /\
    near ((TOL + 2 * TABLE_TOL * (L + hi + 2)) / m) lT (used_lT T).
Proof.
  intros HR R3 K1. assert (RP : 0 < r * RHO_unit) by now apply Rmult_lt_0_compat.
  pose proof (catch_rho_range rho dr (r * RHO_unit) E1 T1) as B1. set (lrho := catch_rho rho (r * RHO_unit)) in *.
  pose proof (used_range T) as B2. pose proof (value lrho ye (used_lT T) B1) as V. pose proof m_pos as MP.
  destruct (bounds_node rho tmp yes dr dt dy E1 E2 E3 T1 T2' T3 tab SZ m L MP RI lrho k ye B1 R3 K1) as (N1 & N2 & B3).
  assert (CY : catch_in yes ye = ye) by now apply catch_in_id.
  set (le0 := f lrho ye (used_lT T)) in *. set (u := e2u u_shift (r * RHO_unit) (le2e e_shift le0) / U_unit).
  assert (GU : EOS_SC_get_u_of_T rho tmp yes tab e_shift u_shift U_unit (r * RHO_unit) T ye = Some u).
  { unfold EOS_SC_get_u_of_T. rewrite CY. fold lrho. change (catch_in tmp (log10 (if Rltb (pow10 (ax_max tmp)) (if Rltb T (pow10 (ax_min tmp)) then pow10 (ax_min tmp) else T)
      then pow10 (ax_max tmp) else if Rltb T (pow10 (ax_min tmp)) then pow10 (ax_min tmp) else T))) with (used_lT T). rewrite V. reflexivity. }
  assert (GE : u2e u_shift (r * RHO_unit) (u * U_unit) = le2e e_shift le0).
  { unfold u, u2e, e2u. field. split; lra. }
  pose proof (catch_e_near lrho ye (used_lT T) B1 B2 B3) as CE. fold le0 in CE.
  set (le := catch_e tab e_shift (le2e e_shift le0)) in *.
  pose proof (end_gap lrho ye B1 B3) as GAP. pose proof TOL_pos as TP.
  pose proof (grow lrho ye B1 B3) as G. pose proof (G (ax_min tmp) (used_lT T) ltac:(lra)) as G0. pose proof (G (used_lT T) (ax_max tmp) ltac:(lra)) as G1. fold le0 in G0, G1.
  assert (0 <= m * (used_lT T - ax_min tmp)) by (apply Rmult_le_pos; lra). assert (0 < m * (ax_max tmp - used_lT T)) by (apply Rmult_lt_0_compat; lra).
  set (fmin := f lrho ye (ax_min tmp)) in *. set (fmax := f lrho ye (ax_max tmp)) in *.
  assert (exists le1, catch_var_2d rho yes lrho ye le (tab_le_min_2d rho tmp yes tab) (tab_le_max_2d rho tmp yes tab) = Some le1 /\ Rabs (le1 - le0) <= TOL /\ fmin < le1 < fmax) as (le1 & C1 & C2 & C3).
  { unfold catch_var_2d, tab_le_min_2d, tab_le_max_2d. rewrite N1, N2. destruct (Rleb_spec le fmin).
    - exists (fmin + TOL). split; [reflexivity|]. split; [apply Rabs_le; lra|lra].
    - destruct (Rleb_spec fmax le); [lra|]. exists le. split; [reflexivity|]. split; [apply Rabs_le; lra|lra]. }
  assert (C4 : catch_var_2d_monotone rho tmp yes lrho ye le1 tab = Some le1).
  { unfold catch_var_2d_monotone. rewrite !(value lrho ye) by auto. fold fmin. fold fmax. destruct (Rleb_spec le1 fmin); [lra|]. destruct (Rleb_spec fmax le1); [lra|reflexivity]. }
  destruct (find_lT_ok rho tmp yes dr dt dy E1 E2 E3 T1 T2' T3 tab SZ m L MP RI lo hi LO BD SL T2 TOP lrho ye le1 B1 B3 ltac:(fold fmin; lra) ltac:(fold fmax; lra) (catch_in tmp guess)) as (n & x & FX & FE).
  exists u, n, x. split; [exact GU|]. split.
  - intros j. unfold EOS_SC_fill. cbv zeta. fold lrho. rewrite CY. destruct (Reqb_spec (r * RHO_unit) 0); [lra|]. rewrite GE. fold le. rewrite C1, C4, FX. reflexivity.
  - unfold near. eapply Rle_trans; [apply (grow_inj (f lrho ye) m L MP G)|]. fold le0. pose proof (rates _ m L G) as ML. pose proof lo_hi as LH.
    pose proof (value_bound lrho ye (used_lT T) B1 B2 B3 lo hi BD) as VB. fold le0 in VB. pose proof TT_pos as TT.
    unfold Rdiv. apply Rmult_le_compat_r; [left; now apply Rinv_0_lt_compat|].
    replace (f lrho ye x - le0) with (f lrho ye x - le1 + (le1 - le0)) by ring. eapply Rle_trans; [apply Rabs_triang|].
    assert (A1 : Rabs le1 <= hi + 1).
    { assert (TOL < 1) by apply TOL_lt1. revert C2. unfold Rabs. destruct (Rcase_abs (le1 - le0)), (Rcase_abs le1); lra. }
    assert (A2 : 2 * TABLE_TOL * (Rabs le1 + 1) <= 2 * TABLE_TOL * (L + hi + 2)) by (apply Rmult_le_compat_l; lra).
    assert (A3 : 2 * L * TABLE_TOL <= 2 * TABLE_TOL * (L + hi + 2)).
    { replace (2 * L * TABLE_TOL) with (2 * TABLE_TOL * L) by ring. apply Rmult_le_compat_l; lra. }
    destruct FE; lra.
Qed.
(** any state is given a temperature *)
Lemma fill_total r u ye guess : 0 < r -> exists n lT, (forall j, EOS_SC_fill rho tmp yes tab e_shift u_shift RHO_unit U_unit (n + j) r u ye guess =
    Stored (catch_rho rho (r * RHO_unit)) lT (catch_in yes ye)) /\
  ax_min tmp - (2 * TABLE_TOL * (L + hi + 2)) / m <= lT <= ax_max tmp + (2 * TABLE_TOL * (L + hi + 2)) / m.
Proof.
  intros HR. assert (RP : 0 < r * RHO_unit) by now apply Rmult_lt_0_compat.
  pose proof (catch_rho_range rho dr (r * RHO_unit) E1 T1) as B1. set (lrho := catch_rho rho (r * RHO_unit)) in *. pose proof m_pos as MP.
  pose proof (catch_in_range yes dy ye E3 T3) as B3. set (y := catch_in yes ye) in *.
  pose proof (end_gap lrho y B1 B3) as GAP. pose proof TOL_pos as TP. pose proof (grow lrho y B1 B3) as G.
  set (fmin := f lrho y (ax_min tmp)) in *. set (fmax := f lrho y (ax_max tmp)) in *.
  set (le := catch_e tab e_shift (u2e u_shift (r * RHO_unit) (u * U_unit))).
  assert (exists le1, catch_var_2d rho yes lrho y le (tab_le_min_2d rho tmp yes tab) (tab_le_max_2d rho tmp yes tab) = Some le1) as (le1 & C1).
  { destruct (interp_2d_value rho yes dr dy E1 E3 (tab_le_min_2d rho tmp yes tab) lrho y (fill_2d_length _ _ _ _ _) B1 B3) as (? & ? & ? & ? & ? & ? & ? & _ & _ & _ & _ & _ & _ & _ & _ & _ & V1).
    destruct (interp_2d_value rho yes dr dy E1 E3 (tab_le_max_2d rho tmp yes tab) lrho y (fill_2d_length _ _ _ _ _) B1 B3) as (? & ? & ? & ? & ? & ? & ? & _ & _ & _ & _ & _ & _ & _ & _ & _ & V2).
    cbv zeta in V1, V2. unfold catch_var_2d. rewrite V1, V2. destruct (Rleb _ _); [eauto|]. destruct (Rleb _ _); eauto. }
  assert (exists le2, catch_var_2d_monotone rho tmp yes lrho y le1 tab = Some le2 /\ fmin < le2 < fmax) as (le2 & C2 & C3).
  { unfold catch_var_2d_monotone. rewrite !(value lrho y) by auto. fold fmin. fold fmax. destruct (Rleb_spec le1 fmin); [exists (fmin + TOL); split; [reflexivity|lra]|].
    destruct (Rleb_spec fmax le1); [exists (fmax - TOL); split; [reflexivity|lra]|]. exists le1. split; [reflexivity|lra]. }
  destruct (find_lT_ok rho tmp yes dr dt dy E1 E2 E3 T1 T2' T3 tab SZ m L MP RI lo hi LO BD SL T2 TOP lrho y le2 B1 B3 ltac:(fold fmin; lra) ltac:(fold fmax; lra) (catch_in tmp guess)) as (n & x & FX & FE).
  exists n, x. split.
  - intros j. unfold EOS_SC_fill. cbv zeta. fold lrho. fold y. destruct (Reqb_spec (r * RHO_unit) 0); [lra|]. fold le. rewrite C1, C2, FX. reflexivity.
  - pose proof (rates _ m L G) as ML. pose proof lo_hi as LH. pose proof TT_pos as TT.
    pose proof (ax_lt tmp dt E2) as AL.
    assert (F0 : lo <= fmin) by (apply (value_bound lrho y (ax_min tmp) B1 ltac:(lra) B3 lo hi BD)).
    assert (F1 : fmax <= hi + 1).
    { pose proof (ends rho tmp yes dr dt dy E1 E2 E3 T1 T2' T3 tab SZ lrho y) as EN.
      destruct (interp_levels rho tmp yes dr dt dy E1 E2 E3 T1 T2' T3 tab SZ lrho y B1 B3) as (i & k & ri & yk & I & K & R1 & R3 & X1 & X3 & _).
      destruct (EN i k ri yk B1 B3 R1 R3 X1 X3) as (_ & EM). unfold fmax. rewrite EM.
      assert (AT : forall i' k', (0 <= i' < ax_n rho)%Z -> (0 <= k' < ax_n yes)%Z -> lo <= at3 rho tmp tab i' (ax_n tmp - 1) k' <= hi).
      { intros i' k' I' K'. pose proof (at3_rd rho tmp yes tab SZ i' (ax_n tmp - 1) k' I' ltac:(destruct E2 as (N2 & _); unfold ax_n; lia) K') as RA.
        unfold rd in RA. destruct (Z.ltb _ 0); [discriminate|]. apply nth_error_In in RA. apply (proj1 (Forall_forall _ _) BD _ RA). }
      destruct E1 as (_ & _ & D1 & _), E3 as (_ & _ & D3 & _).
      assert (lo <= level rho tmp tab i k ((lrho - ri) / dr) ((y - yk) / dy) (ax_n tmp - 1) <= hi); [|lra].
      unfold level. repeat apply conv_bound; try (apply frac_in; lra); apply AT; lia. }
    set (W := 2 * TABLE_TOL * (L + hi + 2)).
    assert (FW : Rabs (f lrho y x - le2) <= W).
    { assert (A1 : Rabs le2 <= hi + 1) by (apply Rabs_le; lra).
      assert (A2 : 2 * TABLE_TOL * (Rabs le2 + 1) <= W) by (apply Rmult_le_compat_l; lra).
      assert (A3 : 2 * L * TABLE_TOL <= W).
      { replace (2 * L * TABLE_TOL) with (2 * TABLE_TOL * L) by ring. apply Rmult_le_compat_l; lra. }
      destruct FE; lra. }
    assert (FW' : - W <= f lrho y x - le2 <= W) by (revert FW; unfold Rabs; destruct (Rcase_abs _); lra).
    assert (QM : forall z, m * z <= W -> z <= W / m).
    { intros z H. apply (Rmult_le_reg_r m); [auto|]. unfold Rdiv. rewrite Rmult_assoc, Rinv_l by lra. lra. }
    split.
    + destruct (Rle_lt_dec (ax_min tmp) x) as [|N].
      * assert (0 <= W / m) by (apply Rmult_le_pos; [unfold W; apply Rmult_le_pos; lra|left; now apply Rinv_0_lt_compat]). lra.
      * pose proof (G x (ax_min tmp) ltac:(lra)) as GX. fold fmin in GX. specialize (QM (ax_min tmp - x) ltac:(lra)). lra.
    + destruct (Rle_lt_dec x (ax_max tmp)) as [|N].
      * assert (0 <= W / m) by (apply Rmult_le_pos; [unfold W; apply Rmult_le_pos; lra|left; now apply Rinv_0_lt_compat]). lra.
      * pose proof (G (ax_max tmp) x ltac:(lra)) as GX. fold fmax in GX. specialize (QM (x - ax_max tmp) ltac:(lra)). lra.
Qed.
(** ** The least energy *)
Lemma minu_least r T ye : 0 < r -> exists a b, EOS_SC_get_minu rho tmp yes tab e_shift u_shift U_unit r ye = Some a /\
  EOS_SC_get_u_of_T rho tmp yes tab e_shift u_shift U_unit r T ye = Some b /\ a <= b /\ (T = pow10 (ax_min tmp) -> a = b).
Proof.
  intros HR. pose proof (catch_rho_range rho dr r E1 T1) as B1. pose proof (catch_in_range yes dy ye E3 T3) as B3. pose proof (used_range T) as B2.
  unfold EOS_SC_get_minu, EOS_SC_get_u_of_T. cbv zeta. change (catch_in tmp (log10 (if Rltb (pow10 (ax_max tmp)) (if Rltb T (pow10 (ax_min tmp)) then pow10 (ax_min tmp) else T)
      then pow10 (ax_max tmp) else if Rltb T (pow10 (ax_min tmp)) then pow10 (ax_min tmp) else T))) with (used_lT T).
  rewrite !value by auto. eexists. eexists. split; [reflexivity|]. split; [reflexivity|]. split.
  - unfold e2u, le2e, Rdiv. apply Rmult_le_compat_r; [left; now apply Rinv_0_lt_compat|]. apply Rplus_le_compat_r, Rmult_le_compat_r; [lra|]. apply Rplus_le_compat_r, pow10_le.
    pose proof (grow _ _ B1 B3 (ax_min tmp) (used_lT T) ltac:(lra)) as G. pose proof m_pos. assert (0 <= m * (used_lT T - ax_min tmp)) by (apply Rmult_le_pos; lra). lra.
  - intros ->. rewrite used_id, log10_pow10; [reflexivity|]. pose proof (ax_lt tmp dt E2). pose proof dt_pos. split; [lra|]. apply pow10_lt. lra.
Qed.
Lemma floor_least RHOMIN RHOMINLIMIT BSQORHOMAX BSQOUMAX scale bsq ye :
  let r := EOS_SC_rho_floor rho RHO_unit RHOMIN RHOMINLIMIT BSQORHOMAX scale bsq * RHO_unit in
  pow10 (ax_min rho) < r /\ exists a uf, EOS_SC_get_u_of_T rho tmp yes tab e_shift u_shift U_unit r (pow10 (ax_min tmp)) ye = Some a /\
    EOS_SC_u_floor rho tmp yes tab e_shift u_shift RHO_unit U_unit RHOMIN RHOMINLIMIT BSQORHOMAX BSQOUMAX scale bsq ye = Some uf /\ a <= uf /\ bsq / BSQOUMAX <= Rabs uf.
Proof.
  intros r. assert (P : pow10 (ax_min rho) < r).
  { unfold r, EOS_SC_rho_floor. cbv zeta. apply Rlt_le_trans with (EOS_SC_get_min_rho rho RHO_unit * RHO_unit).
    - unfold EOS_SC_get_min_rho. cbv zeta. unfold Rdiv at 1. rewrite Rmult_assoc, Rinv_l, Rmult_1_r by lra. apply pow10_lt.
      pose proof (ax_lt rho dr E1). destruct E1 as (_ & _ & D1 & _). lra.
    - apply Rmult_le_compat_r; [lra|]. rewrite !MY_MAX_max. eapply Rle_trans; [|apply Rmax_l]. eapply Rle_trans; [|apply Rmax_r]. apply Rmax_r. }
  split; [exact P|]. pose proof (pow10_pos (ax_min rho)). destruct (minu_least r (pow10 (ax_min tmp)) ye ltac:(lra)) as (a & b & A & B & _ & AB). specialize (AB eq_refl). subst b.
  unfold EOS_SC_u_floor. cbv zeta. fold r. rewrite A. exists a. eexists. split; [exact B|]. split; [reflexivity|].
  destruct (Rltb_spec (Rabs a) (bsq / BSQOUMAX)).
  - split; [pose proof (Rle_abs a); lra|apply Rle_abs].
  - split; lra.
Qed.
End Fill.
