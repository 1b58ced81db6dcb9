(** Temperature from the table. *)
From Coq Require Import Reals Lra Lia Bool ZArith List.
From Verif Require Import RLib XLib IntLib TabModel TabSpec TabProofs RootModel RootSpec RootProofs InvModel InvSpec.
Import ListNotations.
Open Scope R_scope.

(** ** Piecewise linear functions *)
Section Chain.
Variables (F : Z -> R) (n : Z) (x0 d m L : R).
Hypothesis D : 0 < d.
Hypothesis M : 0 <= m.
Hypothesis ST : forall j, (0 <= j)%Z -> (j + 1 < n)%Z -> m * d <= F (j + 1)%Z - F j <= L * d.
Lemma chain i k : (0 <= i)%Z -> (0 <= k)%Z -> (i + k < n)%Z -> m * (IZR k * d) <= F (i + k)%Z - F i <= L * (IZR k * d).
Proof.
  intros I K. revert k K. apply (natlike_ind (fun k => (i + k < n)%Z -> m * (IZR k * d) <= F (i + k)%Z - F i <= L * (IZR k * d))).
  - intros _. rewrite Z.add_0_r. lra.
  - intros k K H B. specialize (H ltac:(lia)). specialize (ST (i + k)%Z ltac:(lia) ltac:(lia)).
    replace (i + Z.succ k)%Z with (i + k + 1)%Z by lia. rewrite succ_IZR. lra.
Qed.
(** x is worked out in the cell j *)
Definition cell (j : Z) (x : R) : Prop := (0 <= j)%Z /\ (j + 1 < n)%Z /\ (j = 0%Z \/ x0 + IZR j * d <= x) /\ ((j + 2)%Z = n \/ x < x0 + (IZR j + 1) * d).
Definition seg (j : Z) (x : R) : R := F j + (x - (x0 + IZR j * d)) / d * (F (j + 1)%Z - F j).
Lemma seg_grows j x y : (0 <= j)%Z -> (j + 1 < n)%Z -> x <= y -> m * (y - x) <= seg j y - seg j x <= L * (y - x).
Proof.
  intros J1 J2 H. specialize (ST j J1 J2). unfold seg.
  replace (F j + (y - (x0 + IZR j * d)) / d * (F (j + 1)%Z - F j) - (F j + (x - (x0 + IZR j * d)) / d * (F (j + 1)%Z - F j)))
    with ((y - x) / d * (F (j + 1)%Z - F j)) by (field; lra).
  assert (Q : 0 <= (y - x) / d) by (apply Rmult_le_pos; [lra|left; now apply Rinv_0_lt_compat]).
  assert (E : y - x = (y - x) / d * d) by (field; lra). set (q := (y - x) / d) in *. rewrite E.
  assert (q * (m * d) <= q * (F (j + 1)%Z - F j)) by (apply Rmult_le_compat_l; lra).
  assert (q * (F (j + 1)%Z - F j) <= q * (L * d)) by (apply Rmult_le_compat_l; lra). lra.
Qed.
Lemma seg_left j : seg j (x0 + IZR j * d) = F j.
Proof. unfold seg. field. lra. Qed.
Lemma seg_right j : seg j (x0 + (IZR j + 1) * d) = F (j + 1)%Z.
Proof. unfold seg. field. lra. Qed.
Lemma cells_grow i j x y : cell i x -> cell j y -> x <= y -> m * (y - x) <= seg j y - seg i x <= L * (y - x).
Proof.
  intros (I1 & I2 & I3 & I4) (J1 & J2 & J3 & J4) H.
  destruct (Z_lt_le_dec j i) as [A|A].
  - exfalso. destruct I3 as [I3|I3]; [lia|]. destruct J4 as [J4|J4]; [lia|].
    assert (IZR j + 1 <= IZR i) by (rewrite <- plus_IZR; apply IZR_le; lia).
    assert ((IZR j + 1) * d <= IZR i * d) by (apply Rmult_le_compat_r; lra). lra.
  - destruct (Z.eq_dec i j) as [->|B]; [now apply seg_grows|].
    destruct I4 as [I4|I4]; [lia|]. destruct J3 as [J3|J3]; [lia|].
    pose proof (chain (i + 1) (j - i - 1) ltac:(lia) ltac:(lia) ltac:(lia)) as C. replace (i + 1 + (j - i - 1))%Z with j in C by lia.
    rewrite !minus_IZR in C.
    pose proof (seg_grows i x (x0 + (IZR i + 1) * d) I1 I2 ltac:(lra)) as S1. rewrite seg_right in S1.
    pose proof (seg_grows j (x0 + IZR j * d) y J1 J2 J3) as S2. rewrite seg_left in S2. lra.
Qed.
End Chain.

(** ** A function growing at bounded rates, and its root *)
Section Grow.
Variables (f : R -> R) (m L : R).
Hypothesis M : 0 < m.
Hypothesis G : grows m L f.
Lemma rates : m <= L.
Proof. pose proof (G 0 1). lra. Qed.
Lemma grow_abs a b : m * Rabs (a - b) <= Rabs (f a - f b) <= L * Rabs (a - b).
Proof.
  pose proof rates. destruct (Rle_lt_dec a b) as [H1|H1].
  - pose proof (G a b H1) as Q. assert (0 <= m * (b - a)) by (apply Rmult_le_pos; lra).
    rewrite (Rabs_left1 (a - b)), (Rabs_left1 (f a - f b)) by lra. lra.
  - pose proof (G b a ltac:(lra)) as Q. assert (0 <= m * (a - b)) by (apply Rmult_le_pos; lra).
    rewrite (Rabs_right (a - b)), (Rabs_right (f a - f b)) by lra. lra.
Qed.
Lemma grow_inj a b : Rabs (a - b) <= Rabs (f a - f b) / m.
Proof. pose proof (grow_abs a b). apply (Rmult_le_reg_r m); [auto|]. unfold Rdiv. rewrite Rmult_assoc, Rinv_l by lra. lra. Qed.
Lemma quot_bound h x : 0 < h -> Rabs (quotient f h x) <= L.
Proof.
  intros H. pose proof rates. unfold quotient. pose proof (G (x - h) (x + h) ltac:(lra)) as Q.
  assert (0 <= m * (x + h - (x - h))) by (apply Rmult_le_pos; lra).
  rewrite Rabs_right by (apply Rle_ge, Rmult_le_pos; [lra|left; apply Rinv_0_lt_compat; lra]).
  apply (Rmult_le_reg_r (2 * h)); [lra|]. unfold Rdiv. rewrite Rmult_assoc, Rinv_l by lra. lra.
Qed.
(** what the finder returns, in terms of the function value *)
Lemma found_value y xmin xmax xtol ytol n guess x : 0 < xtol -> 0 < ytol <= 1 / 2 -> xmin < xmax ->
  find_root f y xmin xmax xtol ytol n guess = Success x -> Rabs (f x - y) <= 2 * L * xtol \/ Rabs (f x - y) <= 2 * ytol * (Rabs y + 1).
Proof.
  intros X Y W S. pose proof rates as LM.
  assert (REL : rel_error f y ytol x <= ytol -> Rabs (f x - y) <= 2 * ytol * (Rabs y + 1)).
  { unfold rel_error. intros H. pose proof (Rabs_pos (f x)). pose proof (Rabs_pos y).
    assert (H2 : Rabs (f x - y) <= ytol * (Rabs (f x) + ytol)).
    { apply (Rmult_le_compat_r (Rabs (f x) + ytol)) in H; [|lra]. unfold Rdiv in H. rewrite Rmult_assoc, Rinv_l in H by lra. lra. }
    assert (H3 : Rabs (f x) <= Rabs (f x - y) + Rabs y).
    { replace (f x) with (f x - y + y) at 1 by ring. apply Rabs_triang. }
    assert (ytol * (Rabs (f x) + ytol) <= ytol * (Rabs (f x - y) + Rabs y + ytol)) by (apply Rmult_le_compat_l; lra).
    assert (ytol * Rabs (f x - y) <= 1 / 2 * Rabs (f x - y)) by (apply Rmult_le_compat_r; [apply Rabs_pos|lra]).
    assert (ytol * ytol <= ytol * 1) by (apply Rmult_le_compat_l; lra). lra. }
  destruct (find_result f y xmin xmax xtol ytol X W n guess x S) as [(_ & H)|[H|[(a & A1 & A2 & A3)|(B & a & b & C & E & -> & _)]]].
  - right. apply REL. lra.
  - right. now apply REL.
  - left. set (q := quotient f (Rabs (/ 10 ^ 7 * a) + xtol) a) in *.
    assert (Q : Rabs q <= L) by (apply quot_bound; pose proof (Rabs_pos (/ 10 ^ 7 * a)); lra).
    assert (V : f a - y = (a - x) * q) by (rewrite A3; field; auto).
    assert (V2 : Rabs (f a - y) <= L * xtol).
    { rewrite V, Rabs_mult. rewrite Rabs_minus_sym in A1. rewrite Rmult_comm. apply Rmult_le_compat; auto using Rabs_pos. }
    pose proof (grow_abs x a) as U. assert (L * Rabs (x - a) <= L * xtol) by (apply Rmult_le_compat_l; lra).
    replace (f x - y) with (f x - f a + (f a - y)) by ring. eapply Rle_trans; [apply Rabs_triang|]. lra.
  - left. assert (K : forall u v, u <= v -> (f u - y) * (f v - y) <= 0 -> v - u <= xtol -> Rabs (f ((u + v) / 2) - y) <= 2 * L * xtol).
    { intros u v UV CR WV. pose proof rates. pose proof (G u v ltac:(lra)) as G1. pose proof (G u ((u + v) / 2) ltac:(lra)) as G2. pose proof (G ((u + v) / 2) v ltac:(lra)) as G3.
      assert (0 <= m * (v - u)) by (apply Rmult_le_pos; lra).
      assert (L * (v - u) <= L * xtol) by (apply Rmult_le_compat_l; lra).
      assert (f u <= y <= f v).
      { split; apply Rnot_lt_le; intros N.
        - assert (0 < (f u - y) * (f v - y)) by (apply Rmult_lt_0_compat; lra). lra.
        - assert (0 < (y - f u) * (y - f v)) by (apply Rmult_lt_0_compat; lra). lra. }
      apply Rabs_le. lra. }
    unfold crosses in C. destruct (Rle_lt_dec a b).
    + rewrite Rabs_right in E by lra. now apply K.
    + rewrite Rabs_left in E by lra. replace ((a + b) / 2) with ((b + a) / 2) by field. apply K; lra.
Qed.
End Grow.

(** ** The interpolation in temperature *)
Section Table.
Variables (rho tmp yes : axis) (dr dt dy : R).
Hypothesis E1 : even rho dr.
Hypothesis E2 : even tmp dt.
Hypothesis E3 : even yes dy.
Hypothesis T1 : TOL < dr.
Hypothesis T2 : TOL < dt.
Hypothesis T3 : TOL < dy.
Variable tab : list R.
Hypothesis SZ : length tab = (length rho * length tmp * length yes)%nat.
Definition at3 (i j k : Z) : R := match rd tab (EOS_ELEM rho tmp i j k) with Some v => v | None => 0 end.
Lemma at3_rd i j k : (0 <= i < ax_n rho)%Z -> (0 <= j < ax_n tmp)%Z -> (0 <= k < ax_n yes)%Z -> rd tab (EOS_ELEM rho tmp i j k) = Some (at3 i j k).
Proof.
  intros I J K. destruct (rd_some tab (EOS_ELEM rho tmp i j k)) as (v & V).
  - rewrite (size3 rho tmp yes tab SZ). unfold EOS_ELEM. now apply elem_in.
  - unfold at3. now rewrite V.
Qed.
(** weighted over density and electron fraction, at the temperature index j *)
Definition level (i k : Z) (p s : R) (j : Z) : R :=
  (1 - s) * ((1 - p) * at3 i j k + p * at3 (i + 1) j k) + s * ((1 - p) * at3 i j (k + 1) + p * at3 (i + 1) j (k + 1)).
(** the cell in density and electron fraction does not depend on the temperature *)
Lemma interp_levels lrho Ye : ax_min rho <= lrho < ax_max rho -> ax_min yes <= Ye < ax_max yes ->
  exists i k ri yk, (0 <= i /\ i + 1 < ax_n rho)%Z /\ (0 <= k /\ k + 1 < ax_n yes)%Z /\ rd rho i = Some ri /\ rd yes k = Some yk /\
    ri <= lrho < ri + dr /\ yk <= Ye < yk + dy /\
    forall lT, exists j, cell (ax_n tmp) (ax_min tmp) dt j lT /\
      EOS_SC_interp rho tmp yes lrho lT Ye tab = Some (seg (level i k ((lrho - ri) / dr) ((Ye - yk) / dy)) (ax_min tmp) dt j lT).
Proof.
  intros B1 B3.
  destruct (axis_in rho dr E1 T1 false (Fin lrho)) as (i & ri & r & A1 & A2 & A3 & A4 & A5 & A6 & A7); [discriminate|intros _; intros Q; injection Q; lra|].
  destruct (axis_in yes dy E3 T3 true (Fin Ye)) as (k & yk & y & C1 & C2 & C3 & C4 & C5 & C6 & C7); [discriminate|discriminate|].
  exists i, k, ri, yk. split; [auto|]. split; [auto|]. split; [auto|]. split; [auto|].
  split; [cbn in A7; destruct A7 as [(U & V)|[(U & ->)|(U & V)]]; lra|]. split; [cbn in C7; destruct C7 as [(U & V)|[(U & ->)|(U & V)]]; lra|].
  intros lT. destruct (axis_in tmp dt E2 T2 true (Fin lT)) as (j & tj & t & D1 & D2 & D3 & D4 & D5 & D6 & D7); [discriminate|discriminate|].
  destruct E2 as (N2 & _ & P2 & U2).
  assert (TJ : tj = ax_min tmp + IZR j * dt).
  { pose proof (U2 j ltac:(unfold ax_n in *; lia)) as V. rewrite Z.sub_0_r in V. rewrite V in D4. injection D4. unfold ax_min. lra. }
  exists j. split.
  - split; [lia|]. split; [lia|]. pose proof (ax_max_spec tmp dt E2) as W. pose proof TOL_pos as TP. split.
    + destruct D7 as [(U & ->)|[(U & ->)|(U & ->)]]; [left|right; lra|right; lra].
      destruct (Z.eq_dec j 0) as [|NZ]; [auto|exfalso]. assert (1 <= IZR j) by (apply IZR_le; lia).
      assert (1 * dt <= IZR j * dt) by (apply Rmult_le_compat_r; lra). lra.
    + destruct D7 as [(U & ->)|[(U & ->)|(U & ->)]]; [right; lra|right; lra|left].
      destruct (Z.eq_dec (j + 2) (ax_n tmp)) as [|NZ]; [auto|exfalso].
      assert (IZR j + 2 <= IZR (ax_n tmp - 1)) by (rewrite <- plus_IZR; apply IZR_le; lia).
      assert ((IZR j + 2) * dt <= IZR (ax_n tmp - 1) * dt) by (apply Rmult_le_compat_r; lra). lra.
  - unfold EOS_SC_interp, stencil. rewrite A1, C1, D1. rewrite A4, C4, D4. cbv zeta.
    rewrite !at3_rd by lia. rewrite (ax_h_spec rho dr E1), (ax_h_spec tmp dt E2), (ax_h_spec yes dy E3).
    f_equal. unfold seg, level. rewrite <- TJ. ring.
Qed.
Variables (m L : R).
Hypothesis M : 0 < m.
Hypothesis RI : rising (ax_n rho) (ax_n tmp) (ax_n yes) tab dt m L.
Lemma level_step i k p s j : (0 <= i /\ i + 1 < ax_n rho)%Z -> (0 <= k /\ k + 1 < ax_n yes)%Z -> 0 <= p <= 1 -> 0 <= s <= 1 ->
  (0 <= j)%Z -> (j + 1 < ax_n tmp)%Z -> m * dt <= level i k p s (j + 1) - level i k p s j <= L * dt.
Proof.
  intros I K P S J1 J2.
  assert (ST : forall i' k', (0 <= i' < ax_n rho)%Z -> (0 <= k' < ax_n yes)%Z -> m * dt <= at3 i' (j + 1) k' - at3 i' j k' <= L * dt).
  { intros i' k' I' K'. apply (RI i' j k'); auto; apply at3_rd; lia. }
  unfold level.
  replace ((1 - s) * ((1 - p) * at3 i (j + 1) k + p * at3 (i + 1) (j + 1) k) + s * ((1 - p) * at3 i (j + 1) (k + 1) + p * at3 (i + 1) (j + 1) (k + 1)) -
    ((1 - s) * ((1 - p) * at3 i j k + p * at3 (i + 1) j k) + s * ((1 - p) * at3 i j (k + 1) + p * at3 (i + 1) j (k + 1))))
    with ((1 - s) * ((1 - p) * (at3 i (j + 1) k - at3 i j k) + p * (at3 (i + 1) (j + 1) k - at3 (i + 1) j k)) +
      s * ((1 - p) * (at3 i (j + 1) (k + 1) - at3 i j (k + 1)) + p * (at3 (i + 1) (j + 1) (k + 1) - at3 (i + 1) j (k + 1)))) by ring.
  repeat apply conv_bound; auto; apply ST; lia.
Qed.
Lemma lT_f_value lrho Ye lT : ax_min rho <= lrho < ax_max rho -> EOS_SC_interp rho tmp yes lrho lT Ye tab = Some (lT_f rho tmp yes lrho Ye tab lT).
Proof.
  intros B. unfold lT_f. destruct (interp_defined rho tmp yes dr dt dy E1 E2 E3 T1 T2 T3 tab lrho lT Ye SZ ltac:(lra)) as (v & ->). reflexivity.
Qed.
Lemma table_grows lrho Ye : ax_min rho <= lrho < ax_max rho -> ax_min yes <= Ye < ax_max yes -> grows m L (lT_f rho tmp yes lrho Ye tab).
Proof.
  intros B1 B3 a b AB. destruct (interp_levels lrho Ye B1 B3) as (i & k & ri & yk & I & K & R1 & R3 & C1 & C3 & H).
  destruct (H a) as (ja & CA & VA). destruct (H b) as (jb & CB & VB). unfold lT_f. rewrite VA, VB.
  destruct E1 as (_ & _ & D1 & _), E2 as (_ & _ & D2 & _), E3 as (_ & _ & D3 & _).
  apply (cells_grow _ (ax_n tmp) (ax_min tmp) dt m L); auto with real.
  intros j J1 J2. apply level_step; auto; apply frac_in; lra.
Qed.
(** ** find_lT *)
Variable lo hi : R.
Hypothesis LO : 0 < lo.
Hypothesis BD : Forall (fun v => lo <= v <= hi) tab.
Hypothesis SL : L <= 50 * lo.
Hypothesis T22 : 2 * TOL < dt.
Hypothesis TOP : 3 * TABLE_TOL <= ax_max tmp - 2 * TOL \/ ax_max tmp - 2 * TOL <= - TABLE_TOL.
Lemma TT_pos : 0 < TABLE_TOL <= 1 / 2.
Proof. unfold TABLE_TOL. split; [apply Rinv_0_lt_compat, pow_lt; lra|]. apply (Rmult_le_reg_r (10 ^ 10)); [apply pow_lt; lra|]. rewrite Rinv_l by (apply pow_nonzero; lra). lra. Qed.
Lemma TT_TOL : TABLE_TOL = 100 * TOL.
Proof. unfold TABLE_TOL, TOL. field_simplify_eq. lra. Qed.
Section Val.
Variables (lrho Ye val : R).
Hypothesis B1 : ax_min rho <= lrho < ax_max rho.
Hypothesis B3 : ax_min yes <= Ye < ax_max yes.
Hypothesis V0 : lT_f rho tmp yes lrho Ye tab (ax_min tmp) <= val.
Hypothesis V1 : val < lT_f rho tmp yes lrho Ye tab (ax_max tmp).
Lemma tmp_range : ax_min tmp < ax_max tmp - 2 * TOL.
Proof. pose proof (ax_lt tmp dt E2). lra. Qed.
Lemma find_lT_ok guess : exists n x, (forall k, find_lT rho tmp yes (n + k) lrho guess Ye tab val = Success x) /\
  (Rabs (lT_f rho tmp yes lrho Ye tab x - val) <= 2 * L * TABLE_TOL \/ Rabs (lT_f rho tmp yes lrho Ye tab x - val) <= 2 * TABLE_TOL * (Rabs val + 1)).
Proof.
  set (f := lT_f rho tmp yes lrho Ye tab) in *. pose proof (table_grows lrho Ye B1 B3) as G. fold f in G.
  pose proof TT_pos as TP. pose proof tmp_range as TR.
  cut (exists n x, forall k, find_lT rho tmp yes (n + k) lrho guess Ye tab val = Success x).
  { intros (n & x & H). exists n, x. split; [exact H|]. specialize (H 0%nat). unfold find_lT in H. fold f in H. apply (found_value f m L M G val _ _ _ _ _ _ _ (proj1 TP) TP TR H). }
  unfold find_lT. fold f. set (xm := ax_max tmp - 2 * TOL) in *.
  destruct (Rle_lt_dec val (f xm)) as [H|H].
  - apply find_complete; auto; [lra|]. unfold crosses. assert (0 <= (val - f (ax_min tmp)) * (f xm - val)) by (apply Rmult_le_pos; lra). lra.
  - exists 0%nat, xm. intros k. unfold find_root.
    assert (FB : lo <= f xm).
    { destruct (interp_bounded rho tmp yes dr dt dy E1 E2 E3 T1 T2 T3 tab lrho xm Ye lo hi SZ B1) as (v & EV & HV); auto; [pose proof TOL_pos; unfold xm in *; split; lra|].
      unfold f, lT_f. rewrite EV. lra. }
    pose proof (G xm (ax_max tmp) ltac:(pose proof TOL_pos; unfold xm; lra)) as GX. replace (ax_max tmp - xm) with (2 * TOL) in GX by (unfold xm; ring).
    destruct (Rltb_spec (Rabs (f xm - val) / (Rabs (f xm) + TABLE_TOL)) TABLE_TOL) as [_|N]; [reflexivity|exfalso]. apply N. clear N.
    rewrite (Rabs_left (f xm - val)) by lra. rewrite (Rabs_right (f xm)) by lra.
    apply (Rmult_lt_reg_r (f xm + TABLE_TOL)); [lra|]. unfold Rdiv. rewrite Rmult_assoc, Rinv_l by lra.
    assert (L * (2 * TOL) <= 50 * lo * (2 * TOL)) by (apply Rmult_le_compat_r; [pose proof TOL_pos; lra|auto]).
    assert (TABLE_TOL * lo <= TABLE_TOL * f xm) by (apply Rmult_le_compat_l; lra).
    assert (0 < TABLE_TOL * TABLE_TOL) by (apply Rmult_lt_0_compat; lra). rewrite TT_TOL in *. lra.
Qed.
End Val.
End Table.
