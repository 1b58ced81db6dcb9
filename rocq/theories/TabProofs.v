From Coq Require Import Reals Bool ZArith List Lia Lra.
From Verif Require Import RLib XLib IntLib TabModel TabSpec.
Import ListNotations.
Open Scope R_scope.

Lemma SMALL_pos : 0 < SMALL.
Proof. unfold SMALL. apply Rinv_0_lt_compat, pow_lt. lra. Qed.
Lemma TOL_pos : 0 < TOL.
Proof. unfold TOL. apply Rinv_0_lt_compat, pow_lt. lra. Qed.

(** ** find_index *)
Lemma nth_error_firstn {A} : forall n i (l : list A), (i < n)%nat -> nth_error (firstn n l) i = nth_error l i.
Proof.
  induction n as [|n IH]; intros i l H; [lia|]. destruct l as [|a l]; [now rewrite firstn_nil|].
  destruct i as [|i]; cbn; [reflexivity|]. apply IH. lia.
Qed.
Lemma find_from_spec value : forall l i, (0 <= i)%Z ->
  match find_from i value l with
  | (-1)%Z => Forall (fun a => a < value) l
  | z => exists n, z = (i + Z.of_nat n)%Z /\ (exists a, nth_error l n = Some a /\ value <= a) /\ Forall (fun a => a < value) (firstn n l)
  end.
Proof.
  induction l as [|a l IH]; intros i I; cbn [find_from]; [constructor|].
  destruct (Rleb_spec value a) as [L|L].
  - assert (exists n, i = (i + Z.of_nat n)%Z /\ (exists b, nth_error (a :: l) n = Some b /\ value <= b) /\ Forall (fun a => a < value) (firstn n (a :: l))).
    { exists 0%nat. split; [lia|]. split; [exists a; auto|constructor]. }
    destruct i; auto; lia.
  - specialize (IH (i + 1)%Z ltac:(lia)). remember (find_from (i + 1) value l) as z eqn:E. clear E.
    assert (G : (exists n, z = (i + 1 + Z.of_nat n)%Z /\ (exists b, nth_error l n = Some b /\ value <= b) /\ Forall (fun a => a < value) (firstn n l)) ->
                exists n, z = (i + Z.of_nat n)%Z /\ (exists b, nth_error (a :: l) n = Some b /\ value <= b) /\ Forall (fun a => a < value) (firstn n (a :: l))).
    { intros (n & E & B & F). exists (S n). split; [lia|]. split; [exact B|]. cbn. constructor; [lra|auto]. }
    destruct z as [|p|p]; auto. destruct p; auto. constructor; [lra|auto].
Qed.
Lemma find_spec value l : let z := find_index value l in
  (z = (-1)%Z /\ Forall (fun a => a < value) l) \/
  (exists a, (0 <= z < Z.of_nat (length l))%Z /\ rd l z = Some a /\ value <= a /\ forall i b, (0 <= i < z)%Z -> rd l i = Some b -> b < value).
Proof.
  cbv zeta. unfold find_index. pose proof (find_from_spec value l 0 ltac:(lia)) as H. remember (find_from 0 value l) as z eqn:E. clear E.
  assert (G : (exists n, z = (0 + Z.of_nat n)%Z /\ (exists b, nth_error l n = Some b /\ value <= b) /\ Forall (fun a => a < value) (firstn n l)) ->
    exists a, (0 <= z < Z.of_nat (length l))%Z /\ rd l z = Some a /\ value <= a /\ forall i b, (0 <= i < z)%Z -> rd l i = Some b -> b < value).
  { intros (n & -> & (b & B & L) & F). exists b.
    assert (n < length l)%nat by (apply nth_error_Some; congruence). split; [lia|].
    split; [unfold rd; destruct (Z.ltb_spec (0 + Z.of_nat n) 0); [lia|]; rewrite Z.add_0_l, Nat2Z.id; auto|]. split; [auto|].
    intros i c I R. unfold rd in R. destruct (Z.ltb_spec i 0); [lia|]. apply (proj1 (Forall_forall _ _) F).
    apply (nth_error_In _ (Z.to_nat i)). rewrite <- R. apply nth_error_firstn. lia. }
  destruct z as [|p|p]; auto. destruct p; auto.
Qed.

(** ** interp_1d *)
Lemma clamp_spec lo hi tol x : lo <= hi - tol -> 0 < tol -> x <> NaN -> x <> Fin hi ->
  exists r, placed lo hi tol x r /\ lo <= r < hi /\
    (let x := if xltb x (Fin lo) then Fin lo else x in if xltb (Fin hi) x then Fin (hi - tol) else x) = Fin r.
Proof.
  intros L T N H. destruct x as [y| | |]; try congruence.
  - unfold placed. cbn [xltb]. destruct (Rltb_spec y lo) as [A|A].
    + exists lo. split; [auto|]. split; [lra|]. cbn. rewrite Rltb_false by lra. reflexivity.
    + cbv zeta. cbn [xltb]. assert (y <> hi) by (intros ->; apply H; reflexivity). destruct (Rltb_spec hi y) as [B|B].
      * exists (hi - tol). split; [right; right; lra|]. split; [lra|reflexivity].
      * exists y. split; [right; left; lra|]. split; [lra|reflexivity].
  - exists (hi - tol). cbn. split; [reflexivity|]. split; [lra|reflexivity].
  - exists lo. cbn. split; [reflexivity|]. split; [lra|]. rewrite Rltb_false by lra. reflexivity.
Qed.
(** position in a uniform table *)
Lemma cell_of r lo d n : 0 < d -> lo <= r < lo + IZR n * d -> 0 <= (r - lo) / d < IZR n.
Proof.
  intros D (A & B). split; [apply Rmult_le_pos; [lra|left; apply Rinv_0_lt_compat; lra]|].
  apply (Rmult_lt_reg_r d); [auto|]. unfold Rdiv. rewrite Rmult_assoc, Rinv_l by lra. lra.
Qed.
Lemma cell_back r lo d q : 0 < d -> q <= (r - lo) / d < q + 1 -> lo + q * d <= r < lo + (q + 1) * d.
Proof.
  intros D (A & B). apply (Rmult_le_compat_r d) in A; [|lra]. apply (Rmult_lt_compat_r d) in B; [|lra].
  unfold Rdiv in *. rewrite Rmult_assoc, Rinv_l in A, B by lra. lra.
Qed.
Lemma between_conv a b t : 0 <= t <= 1 -> between a b ((1 - t) * a + t * b).
Proof.
  intros T. unfold between, Rmin, Rmax. destruct (Rle_dec a b) as [L|L].
  - assert (0 <= t * (b - a)) by (apply Rmult_le_pos; lra). assert (0 <= (1 - t) * (b - a)) by (apply Rmult_le_pos; lra). lra.
  - assert (0 <= t * (a - b)) by (apply Rmult_le_pos; lra). assert (0 <= (1 - t) * (a - b)) by (apply Rmult_le_pos; lra). lra.
Qed.
Section Interp.
Variables (xmin xmax d : R) (imin imax : Z) (tab_x tab_y : list R).
Hypothesis I0 : (0 <= imin)%Z.
Hypothesis I1 : (imin + 2 <= imax)%Z.
Hypothesis I2 : (imax <= 2147483647)%Z.
Hypothesis D : SMALL < d.
Hypothesis W : xmax = xmin + IZR (imax - imin - 1) * d.
Hypothesis TX : uniform tab_x imin imax xmin d.
Hypothesis TY : (imax <= Z.of_nat (length tab_y))%Z.
Lemma width : d <= xmax - xmin /\ 0 < IZR (imax - imin - 1).
Proof.
  pose proof SMALL_pos. assert (IZR 1 <= IZR (imax - imin - 1)) by (apply IZR_le; lia).
  assert (1 * d <= IZR (imax - imin - 1) * d) by (apply Rmult_le_compat_r; lra). lra.
Qed.
Lemma spacing : (Fin (xmax - xmin) / Fin (IZR (imax - imin - 1)))%X = Fin d.
Proof. destruct width as (A & B). rewrite xdiv_fin by lra. f_equal. rewrite W. field. lra. Qed.
Lemma interp_in x : x <> NaN -> x <> Fin xmax ->
  exists r i yi yj v, placed xmin xmax SMALL x r /\ (imin <= i)%Z /\ (i + 1 < imax)%Z /\ rd tab_y i = Some yi /\ rd tab_y (i + 1) = Some yj /\
    interp_1d x xmin xmax imin imax tab_x tab_y = Some (Fin v) /\
    xmin + IZR (i - imin) * d <= r < xmin + IZR (i + 1 - imin) * d /\
    (v - yi) * d = (yj - yi) * (r - (xmin + IZR (i - imin) * d)) /\ between yi yj v.
Proof.
  intros N H. pose proof SMALL_pos as SP. destruct width as (A & B).
  destruct (clamp_spec xmin xmax SMALL x) as (r & P & R & E); auto; [lra|].
  assert (Q : 0 <= (r - xmin) / d < IZR (imax - imin - 1)) by (apply cell_of; lra).
  assert (J0 : IZR 0 <= IZR imin) by (apply IZR_le; lia).
  destruct (to_int_range (IZR imin + (r - xmin) / d) (imax - 1)) as (i & Ei & Li & Bi); [lia| |].
  { rewrite !minus_IZR in *. lra. }
  assert (Gi : (imin <= i)%Z). { assert (IZR imin < IZR (i + 1)) by (rewrite plus_IZR; lra). apply lt_IZR in H0. lia. }
  exists r, i. destruct (rd_some tab_y i) as (yi & Yi); [lia|]. destruct (rd_some tab_y (i + 1)) as (yj & Yj); [lia|]. exists yi, yj.
  pose proof (TX i ltac:(lia)) as Ti.
  set (xi := xmin + IZR (i - imin) * d) in *.
  exists ((1 - (r - xi) / d) * yi + (r - xi) / d * yj).
  assert (C : xi <= r < xmin + IZR (i + 1 - imin) * d).
  { replace (IZR (i + 1 - imin)) with (IZR (i - imin) + 1) by (rewrite !minus_IZR, plus_IZR; lra).
    apply cell_back; [lra|]. rewrite minus_IZR. lra. }
  split; [exact P|]. split; [exact Gi|]. split; [lia|]. split; [exact Yi|]. split; [exact Yj|]. split.
  - unfold interp_1d. cbv zeta in E |- *. rewrite E, spacing.
    unfold xsub at 1. cbn [xopp xadd]. rewrite xdiv_fin by lra. cbn [xadd].
    replace (r + - xmin) with (r - xmin) by ring. rewrite Ei, Ti, Yi, Yj. unfold xsub at 2 3. cbn [xopp xadd].
    rewrite xdiv_fin by lra. reflexivity.
  - split; [exact C|].
    assert (T : 0 <= (r - xi) / d <= 1).
    { assert (F : 0 <= (r - xi) / d < IZR 1); [|change (IZR 1) with 1 in F; lra]. apply cell_of; [lra|]. split; [lra|].
      replace (IZR (i + 1 - imin)) with (IZR (i - imin) + 1) in C by (rewrite !minus_IZR, plus_IZR; lra). unfold xi. lra. }
    split; [field; lra|]. apply between_conv, T.
Qed.
(** at the upper end the entry after the last one is read *)
Lemma interp_end : Z.of_nat (length tab_y) = imax -> interp_1d (Fin xmax) xmin xmax imin imax tab_x tab_y = None.
Proof.
  intros L. pose proof SMALL_pos as SP. destruct width as (A & B). unfold interp_1d. cbn [xltb]. rewrite Rltb_false by lra. cbn [xltb].
  rewrite Rltb_false by lra. rewrite spacing. unfold xsub at 1. cbn [xopp xadd]. rewrite xdiv_fin by lra. cbn [xadd].
  rewrite (to_int_unique _ (imax - 1)); [|lia|].
  - rewrite (rd_none tab_y (imax - 1 + 1)) by lia. destruct (rd _ _); [|reflexivity]. destruct (rd _ _); reflexivity.
  - replace ((xmax + - xmin) / d) with (IZR (imax - imin - 1)) by (rewrite W; field; lra). rewrite !minus_IZR. lra.
Qed.
End Interp.
Lemma interp_nan xmin xmax imin imax tx ty : interp_1d NaN xmin xmax imin imax tx ty = None.
Proof.
  unfold interp_1d. cbn [xltb]. unfold xsub at 1. cbn [xopp xadd]. unfold xdiv at 1.
  destruct (Fin (xmax - xmin) / Fin (IZR (imax - imin - 1)))%X; reflexivity.
Qed.
(** The adiabats of the tabulated equation of state give the index of their last point
    for imax, not the one after it (eos_stellar_collapse.c:1065-1068, 1129, 1213). *)
Lemma adiabat_refuted : exists tab_x tab_y imin imax d,
  uniform tab_x imin (imax + 1) (nth (Z.to_nat imin) tab_x 0) d /\ (imax < Z.of_nat (length tab_y))%Z /\
  (exists i x y v, (imin <= i <= imax)%Z /\ rd tab_x i = Some x /\ rd tab_y i = Some y /\
     interp_1d (Fin x) (nth (Z.to_nat imin) tab_x 0) (nth (Z.to_nat imax) tab_x 0) imin imax tab_x tab_y = Some (Fin v) /\ v <> y) /\
  (exists x v, nth (Z.to_nat imin) tab_x 0 <= x <= nth (Z.to_nat imax) tab_x 0 /\
     interp_1d (Fin x) (nth (Z.to_nat imin) tab_x 0) (nth (Z.to_nat imax) tab_x 0) imin imax tab_x tab_y = Some (Fin v) /\ Forall (fun y => y < v) tab_y).
Proof.
  exists [0; 1; 2; 3], [0; 1; 3; 3], 0%Z, 3%Z, 1. split.
  { intros i H. assert (C : (i = 0 \/ i = 1 \/ i = 2 \/ i = 3)%Z) by lia. change (nth (Z.to_nat 0) [0; 1; 2; 3] 0) with 0.
    destruct C as [->|[->|[->| ->]]]; rewrite Z.sub_0_r;
      [change (Some 0 = Some (0 + 0 * 1))|change (Some 1 = Some (0 + 1 * 1))|change (Some 2 = Some (0 + 2 * 1))|change (Some 3 = Some (0 + 3 * 1))]; apply f_equal; lra. }
  split; [cbn; lia|]. change (nth (Z.to_nat 0) [0; 1; 2; 3] 0) with 0. change (nth (Z.to_nat 3) [0; 1; 2; 3] 0) with 3.
  assert (E : forall x i, 0 <= x < 3 -> (0 <= i <= 3)%Z -> IZR i <= x / (3 / 2) < IZR i + 1 -> forall xi yi yj,
    rd [0; 1; 2; 3] i = Some xi -> rd [0; 1; 3; 3] i = Some yi -> rd [0; 1; 3; 3] (i + 1) = Some yj ->
    interp_1d (Fin x) 0 3 0 3 [0; 1; 2; 3] [0; 1; 3; 3] = Some (Fin ((1 - (x - xi) / (3 / 2)) * yi + (x - xi) / (3 / 2) * yj))).
  { intros x i X I B xi yi yj Ex Ey Ez. unfold interp_1d. cbn [xltb]. rewrite Rltb_false by lra. cbn [xltb]. rewrite Rltb_false by lra.
    replace (Fin (3 - 0) / Fin (IZR (3 - 0 - 1)))%X with (Fin (3 / 2)).
    2:{ change (3 - 0 - 1)%Z with 2%Z. rewrite xdiv_fin by lra. f_equal. lra. }
    unfold xsub at 1. cbn [xopp xadd]. rewrite xdiv_fin by lra. cbn [xadd].
    rewrite (to_int_unique _ i); [|lia|].
    - rewrite Ex, Ey, Ez. unfold xsub at 2 3. cbn [xopp xadd]. rewrite xdiv_fin by lra. reflexivity.
    - replace (0 + (x + - 0) / (3 / 2)) with (x / (3 / 2)) by lra. exact B. }
  split.
  - exists 1%Z, 1, 1, ((1 - (1 - 0) / (3 / 2)) * 0 + (1 - 0) / (3 / 2) * 1). split; [lia|]. split; [reflexivity|]. split; [reflexivity|].
    split; [apply (E 1 0%Z); try lia; try lra; reflexivity|]. lra.
  - exists (29 / 10), ((1 - (29 / 10 - 1) / (3 / 2)) * 1 + (29 / 10 - 1) / (3 / 2) * 3). split; [lra|].
    split; [apply (E (29 / 10) 1%Z); try lia; try lra; reflexivity|]. repeat constructor; lra.
Qed.

(** ** The equation of state *)
Lemma rd_nth (l : list R) i a : rd l i = Some a -> nth (Z.to_nat i) l 0 = a.
Proof. unfold rd. destruct (Z.ltb_spec i 0); [discriminate|]. intros E. now apply nth_error_nth. Qed.
Section Axis.
Variables (a : axis) (d : R).
Hypothesis E : even a d.
Lemma ax_max_spec : ax_max a = ax_min a + IZR (ax_n a - 1) * d.
Proof.
  destruct E as (L & _ & _ & U). specialize (U (ax_n a - 1)%Z). unfold ax_n in *.
  assert (H : (0 <= Z.of_nat (length a) - 1 < Z.of_nat (length a))%Z) by lia. apply U, rd_nth in H.
  unfold ax_max, ax_min. replace (length a - 1)%nat with (Z.to_nat (Z.of_nat (length a) - 1)) by lia. rewrite H, Z.sub_0_r. reflexivity.
Qed.
Lemma ax_n1 : 1 <= IZR (ax_n a - 1).
Proof. destruct E as (L & _). unfold ax_n. apply (IZR_le 1). lia. Qed.
Lemma ax_h_spec : ax_h a = d.
Proof. unfold ax_h. rewrite ax_max_spec. pose proof ax_n1. field. lra. Qed.
Lemma ax_d_spec : ax_d a = Fin d.
Proof. unfold ax_d. pose proof ax_n1. rewrite xdiv_fin by lra. f_equal. apply ax_h_spec. Qed.
Lemma ax_lt : d <= ax_max a - ax_min a.
Proof.
  destruct E as (_ & _ & D & _). rewrite ax_max_spec. pose proof ax_n1.
  assert (1 * d <= IZR (ax_n a - 1) * d) by (apply Rmult_le_compat_r; lra). lra.
Qed.
Lemma index_in r : ax_min a <= r < ax_max a ->
  exists i xi, index a (Fin r) = Some i /\ (0 <= i)%Z /\ (i + 1 < ax_n a)%Z /\ rd a i = Some xi /\ rd a (i + 1) = Some (xi + d) /\ xi <= r < xi + d.
Proof.
  intros R. destruct E as (L & M & D & U). pose proof ax_max_spec as W.
  assert (Q : 0 <= (r - ax_min a) / d < IZR (ax_n a - 1)) by (apply cell_of; lra).
  destruct (to_int_range ((r - ax_min a) / d) (ax_n a - 1)) as (i & Ei & Li & Bi); [unfold ax_n; lia|auto|].
  exists i, (ax_min a + IZR i * d). pose proof (U i ltac:(unfold ax_n in *; lia)) as Ui. pose proof (U (i + 1)%Z ltac:(unfold ax_n in *; lia)) as Uj.
  rewrite !Z.sub_0_r in *. split; [|split; [lia|split; [lia|split; [exact Ui|split]]]].
  - unfold index. rewrite ax_d_spec. unfold xsub. cbn [xopp xadd]. rewrite xdiv_fin by lra. exact Ei.
  - rewrite Uj. unfold ax_min. f_equal. rewrite plus_IZR. ring.
  - destruct (cell_back r (ax_min a) d (IZR i) D Bi). lra.
Qed.
Hypothesis T : TOL < d.
Lemma catch_in incl x : x <> NaN -> (incl = false -> x <> Fin (ax_max a)) ->
  exists r, catch incl a x = Fin r /\ ax_min a <= r < ax_max a /\ placed (ax_min a) (ax_max a) TOL x r.
Proof.
  intros N H. pose proof ax_lt as L. pose proof TOL_pos as P. unfold catch, placed. destruct x as [y| | |]; try congruence.
  - cbn [xltb xleb]. destruct (Rltb_spec y (ax_min a)) as [A|A]; [exists (ax_min a); split; [reflexivity|split; [lra|auto]]|].
    destruct incl.
    + destruct (Rleb_spec (ax_max a) y); [exists (ax_max a - TOL)|exists y]; (split; [reflexivity|split; [lra|]]); [right; right|right; left]; lra.
    + assert (y <> ax_max a) by (intros ->; apply H; reflexivity).
      destruct (Rltb_spec (ax_max a) y); [exists (ax_max a - TOL)|exists y]; (split; [reflexivity|split; [lra|]]); [right; right|right; left]; lra.
  - exists (ax_max a - TOL). destruct incl; cbn; (split; [reflexivity|split; [lra|auto]]).
  - exists (ax_min a). cbn. split; [reflexivity|split; [lra|auto]].
Qed.
(** the lower index of the cell *)
Lemma axis_in incl x : x <> NaN -> (incl = false -> x <> Fin (ax_max a)) ->
  exists i xi r, index a (catch incl a x) = Some i /\ (0 <= i)%Z /\ (i + 1 < ax_n a)%Z /\ rd a i = Some xi /\ rd a (i + 1) = Some (xi + d) /\
    xi <= r < xi + d /\ placed (ax_min a) (ax_max a) TOL x r.
Proof.
  intros N H. destruct (catch_in incl x N H) as (r & -> & B & P). destruct (index_in r B) as (i & xi & A1 & A2 & A3 & A4 & A5 & A6).
  exists i, xi, r. auto 10.
Qed.
End Axis.
Lemma elem_in n1 n2 n3 i j k : (0 <= i < n1)%Z -> (0 <= j < n2)%Z -> (0 <= k < n3)%Z -> (0 <= n1 * (k * n2 + j) + i < n1 * n2 * n3)%Z.
Proof.
  intros I J K. assert (0 <= k * n2)%Z by (apply Z.mul_nonneg_nonneg; lia). assert (0 <= n1 * (k * n2 + j))%Z by (apply Z.mul_nonneg_nonneg; lia).
  split; [lia|]. assert (k * n2 + j + 1 <= n2 * n3)%Z.
  { assert (n2 * (k + 1) <= n2 * n3)%Z by (apply Z.mul_le_mono_nonneg_l; lia). lia. }
  assert (n1 * (k * n2 + j + 1) <= n1 * (n2 * n3))%Z by (apply Z.mul_le_mono_nonneg_l; lia). lia.
Qed.
Lemma size3 (a b c : list R) (tab : list R) : length tab = (length a * length b * length c)%nat ->
  Z.of_nat (length tab) = (ax_n a * ax_n b * ax_n c)%Z.
Proof. intros ->. unfold ax_n. rewrite !Nat2Z.inj_mul. reflexivity. Qed.

Section Eos.
Variables (rho tmp yes : axis) (dr dt dy : R).
Hypothesis E1 : even rho dr.
Hypothesis E2 : even tmp dt.
Hypothesis E3 : even yes dy.
Hypothesis T1 : TOL < dr.
Hypothesis T2 : TOL < dt.
Hypothesis T3 : TOL < dy.
Lemma stencil_in lrho lT Ye : lrho <> NaN -> lT <> NaN -> Ye <> NaN -> lrho <> Fin (ax_max rho) ->
  exists i j k ri tj yk r t y, stencil rho tmp yes lrho lT Ye = Some (i, j, k) /\
    (0 <= i /\ i + 1 < ax_n rho)%Z /\ (0 <= j /\ j + 1 < ax_n tmp)%Z /\ (0 <= k /\ k + 1 < ax_n yes)%Z /\
    rd rho i = Some ri /\ rd tmp j = Some tj /\ rd yes k = Some yk /\
    rd rho (i + 1) = Some (ri + dr) /\ rd tmp (j + 1) = Some (tj + dt) /\ rd yes (k + 1) = Some (yk + dy) /\
    placed (ax_min rho) (ax_max rho) TOL lrho r /\ placed (ax_min tmp) (ax_max tmp) TOL lT t /\ placed (ax_min yes) (ax_max yes) TOL Ye y /\
    ri <= r < ri + dr /\ tj <= t < tj + dt /\ yk <= y < yk + dy.
Proof.
  intros N1 N2 N3 H.
  destruct (axis_in rho dr E1 T1 false lrho N1 (fun _ => H)) as (i & ri & r & A1 & A2 & A3 & A4 & A5 & A6 & A7).
  destruct (axis_in tmp dt E2 T2 true lT N2) as (j & tj & t & B1 & B2 & B3 & B4 & B5 & B6 & B7); [discriminate|].
  destruct (axis_in yes dy E3 T3 true Ye N3) as (k & yk & y & C1 & C2 & C3 & C4 & C5 & C6 & C7); [discriminate|].
  exists i, j, k, ri, tj, yk, r, t, y. unfold stencil. rewrite A1, B1, C1. auto 20.
Qed.
(** any table of the right size: eight entries of it, weighted by products of fractions *)
Lemma interp_value tab lrho lT Ye : length tab = (length rho * length tmp * length yes)%nat -> lrho <> ax_max rho ->
  exists i j k ri tj yk t0 t1 t2 t3 t4 t5 t6 t7,
    (0 <= i /\ i + 1 < ax_n rho)%Z /\ (0 <= j /\ j + 1 < ax_n tmp)%Z /\ (0 <= k /\ k + 1 < ax_n yes)%Z /\
    rd rho i = Some ri /\ rd tmp j = Some tj /\ rd yes k = Some yk /\
    rd rho (i + 1) = Some (ri + dr) /\ rd tmp (j + 1) = Some (tj + dt) /\ rd yes (k + 1) = Some (yk + dy) /\
    (ax_min rho <= lrho < ax_max rho -> ri <= lrho < ri + dr) /\ (ax_min tmp <= lT < ax_max tmp -> tj <= lT < tj + dt) /\
    (ax_min yes <= Ye < ax_max yes -> yk <= Ye < yk + dy) /\
    rd tab (EOS_ELEM rho tmp i j k) = Some t0 /\ rd tab (EOS_ELEM rho tmp (i + 1) j k) = Some t1 /\
    rd tab (EOS_ELEM rho tmp i (j + 1) k) = Some t2 /\ rd tab (EOS_ELEM rho tmp (i + 1) (j + 1) k) = Some t3 /\
    rd tab (EOS_ELEM rho tmp i j (k + 1)) = Some t4 /\ rd tab (EOS_ELEM rho tmp (i + 1) j (k + 1)) = Some t5 /\
    rd tab (EOS_ELEM rho tmp i (j + 1) (k + 1)) = Some t6 /\ rd tab (EOS_ELEM rho tmp (i + 1) (j + 1) (k + 1)) = Some t7 /\
    let p := (lrho - ri) / dr in let q := (lT - tj) / dt in let s := (Ye - yk) / dy in
    EOS_SC_interp rho tmp yes lrho lT Ye tab =
      Some ((1 - s) * ((1 - q) * ((1 - p) * t0 + p * t1) + q * ((1 - p) * t2 + p * t3)) +
            s * ((1 - q) * ((1 - p) * t4 + p * t5) + q * ((1 - p) * t6 + p * t7))).
Proof.
  intros L H. destruct (stencil_in (Fin lrho) (Fin lT) (Fin Ye)) as (i & j & k & ri & tj & yk & r & t & y & S & I & J & K & R1 & R2 & R3 & R4 & R5 & R6 & P1 & P2 & P3 & B1 & B2 & B3); try discriminate; [congruence|].
  pose proof (size3 rho tmp yes tab L) as Z.
  assert (Q : forall i' j' k', (0 <= i' < ax_n rho)%Z -> (0 <= j' < ax_n tmp)%Z -> (0 <= k' < ax_n yes)%Z -> exists v, rd tab (EOS_ELEM rho tmp i' j' k') = Some v).
  { intros i' j' k' A B C. apply rd_some. rewrite Z. unfold EOS_ELEM. apply elem_in; auto. }
  destruct (Q i j k) as (t0 & Q0); try lia. destruct (Q (i + 1) j k)%Z as (t1 & Q1); try lia.
  destruct (Q i (j + 1) k)%Z as (t2 & Q2); try lia. destruct (Q (i + 1) (j + 1) k)%Z as (t3 & Q3); try lia.
  destruct (Q i j (k + 1))%Z as (t4 & Q4); try lia. destruct (Q (i + 1) j (k + 1))%Z as (t5 & Q5); try lia.
  destruct (Q i (j + 1) (k + 1))%Z as (t6 & Q6); try lia. destruct (Q (i + 1) (j + 1) (k + 1))%Z as (t7 & Q7); try lia.
  exists i, j, k, ri, tj, yk, t0, t1, t2, t3, t4, t5, t6, t7.
  split; [exact I|]. split; [exact J|]. split; [exact K|]. split; [exact R1|]. split; [exact R2|]. split; [exact R3|].
  split; [exact R4|]. split; [exact R5|]. split; [exact R6|].
  split; [intros X; destruct P1 as [(U & V)|[(U & ->)|(U & V)]]; lra|]. split; [intros X; destruct P2 as [(U & V)|[(U & ->)|(U & V)]]; lra|].
  split; [intros X; destruct P3 as [(U & V)|[(U & ->)|(U & V)]]; lra|].
  split; [exact Q0|]. split; [exact Q1|]. split; [exact Q2|]. split; [exact Q3|]. split; [exact Q4|]. split; [exact Q5|]. split; [exact Q6|]. split; [exact Q7|].
  cbv zeta. unfold EOS_SC_interp. rewrite S, R1, R2, R3. cbv zeta.
  rewrite Q0, Q1, Q2, Q3, Q4, Q5, Q6, Q7. rewrite (ax_h_spec rho dr E1), (ax_h_spec tmp dt E2), (ax_h_spec yes dy E3). f_equal. ring.
Qed.
Lemma interp_defined tab lrho lT Ye : length tab = (length rho * length tmp * length yes)%nat -> lrho <> ax_max rho ->
  exists v, EOS_SC_interp rho tmp yes lrho lT Ye tab = Some v.
Proof.
  intros L H. destruct (interp_value tab lrho lT Ye L H) as (i & j & k & ri & tj & yk & t0 & t1 & t2 & t3 & t4 & t5 & t6 & t7 & Q).
  repeat (destruct Q as (_ & Q)). cbv zeta in Q. eauto.
Qed.
(** a function linear in each variable comes out exactly, outside the table too *)
Lemma interp_exact f tab lrho lT Ye : tabulates f rho tmp yes tab -> trilinear f -> lrho <> ax_max rho ->
  EOS_SC_interp rho tmp yes lrho lT Ye tab = Some (f lrho lT Ye).
Proof.
  intros (L & F) (c0 & c1 & c2 & c3 & c4 & c5 & c6 & c7 & G) H.
  destruct (interp_value tab lrho lT Ye L H) as (i & j & k & ri & tj & yk & t0 & t1 & t2 & t3 & t4 & t5 & t6 & t7 &
    I & J & K & R1 & R2 & R3 & R4 & R5 & R6 & _ & _ & _ & Q0 & Q1 & Q2 & Q3 & Q4 & Q5 & Q6 & Q7 & ->).
  unfold EOS_ELEM in *. unfold ax_n in *.
  rewrite (F _ _ _ _ _ _ R1 R2 R3) in Q0. rewrite (F _ _ _ _ _ _ R4 R2 R3) in Q1. rewrite (F _ _ _ _ _ _ R1 R5 R3) in Q2. rewrite (F _ _ _ _ _ _ R4 R5 R3) in Q3.
  rewrite (F _ _ _ _ _ _ R1 R2 R6) in Q4. rewrite (F _ _ _ _ _ _ R4 R2 R6) in Q5. rewrite (F _ _ _ _ _ _ R1 R5 R6) in Q6. rewrite (F _ _ _ _ _ _ R4 R5 R6) in Q7.
  injection Q0; injection Q1; injection Q2; injection Q3; injection Q4; injection Q5; injection Q6; injection Q7. intros <- <- <- <- <- <- <- <-.
  f_equal. rewrite !G. destruct E1 as (_ & _ & D1 & _), E2 as (_ & _ & D2 & _), E3 as (_ & _ & D3 & _).
  set (p := (lrho - ri) / dr). set (q := (lT - tj) / dt). set (s := (Ye - yk) / dy).
  replace lrho with (ri + p * dr) by (unfold p; field; lra). replace lT with (tj + q * dt) by (unfold q; field; lra).
  replace Ye with (yk + s * dy) by (unfold s; field; lra). clearbody p q s. ring.
Qed.
Lemma frac_in x0 d x : 0 < d -> x0 <= x < x0 + d -> 0 <= (x - x0) / d <= 1.
Proof. intros D B. assert (F : 0 <= (x - x0) / d < IZR 1) by (apply cell_of; lra). change (IZR 1) with 1 in F. lra. Qed.
Lemma conv_bound lo hi a b t : 0 <= t <= 1 -> lo <= a <= hi -> lo <= b <= hi -> lo <= (1 - t) * a + t * b <= hi.
Proof.
  intros T A B. assert (0 <= (1 - t) * (a - lo)) by (apply Rmult_le_pos; lra). assert (0 <= t * (b - lo)) by (apply Rmult_le_pos; lra).
  assert (0 <= (1 - t) * (hi - a)) by (apply Rmult_le_pos; lra). assert (0 <= t * (hi - b)) by (apply Rmult_le_pos; lra). lra.
Qed.
(** inside the table the value lies within any bounds of the entries *)
Lemma interp_bounded tab lrho lT Ye lo hi : length tab = (length rho * length tmp * length yes)%nat ->
  ax_min rho <= lrho < ax_max rho -> ax_min tmp <= lT < ax_max tmp -> ax_min yes <= Ye < ax_max yes ->
  Forall (fun v => lo <= v <= hi) tab -> exists v, EOS_SC_interp rho tmp yes lrho lT Ye tab = Some v /\ lo <= v <= hi.
Proof.
  intros L B1 B2 B3 F. destruct (interp_value tab lrho lT Ye L ltac:(lra)) as (i & j & k & ri & tj & yk & t0 & t1 & t2 & t3 & t4 & t5 & t6 & t7 &
    _ & _ & _ & _ & _ & _ & _ & _ & _ & P1 & P2 & P3 & Q0 & Q1 & Q2 & Q3 & Q4 & Q5 & Q6 & Q7 & ->).
  assert (G : forall z v, rd tab z = Some v -> lo <= v <= hi).
  { intros z v Q. unfold rd in Q. destruct (z <? 0)%Z; [discriminate|]. apply nth_error_In in Q. apply (proj1 (Forall_forall _ _) F _ Q). }
  apply G in Q0, Q1, Q2, Q3, Q4, Q5, Q6, Q7. specialize (P1 B1). specialize (P2 B2). specialize (P3 B3).
  destruct E1 as (_ & _ & D1 & _), E2 as (_ & _ & D2 & _), E3 as (_ & _ & D3 & _).
  eexists. split; [reflexivity|]. repeat apply conv_bound; auto using frac_in.
Qed.
End Eos.
(** unit axis *)
Lemma even01 : even [0; 1] 1.
Proof.
  split; [cbn; lia|]. split; [cbn; lia|]. split; [lra|]. intros i H. cbn in H. assert (C : (i = 0 \/ i = 1)%Z) by lia. cbn [nth].
  destruct C as [->| ->]; rewrite Z.sub_0_r; [change (Some 0 = Some (0 + 0 * 1))|change (Some 1 = Some (0 + 1 * 1))]; apply f_equal; lra.
Qed.
Lemma TOL_lt1 : TOL < 1.
Proof. unfold TOL. rewrite <- Rinv_1. apply Rinv_lt_contravar; [rewrite Rmult_1_l; apply pow_lt; lra|]. apply Rlt_pow_R1; [lra|lia]. Qed.
(** at the upper end of the densities the next row is read, or memory after the table *)
Lemma index_end (a : axis) d : even a d -> index a (catch false a (Fin (ax_max a))) = Some (ax_n a - 1)%Z.
Proof.
  intros E. pose proof (ax_lt a d E) as L. pose proof E as (L0 & L1 & D & _). unfold catch. cbn [xltb]. rewrite Rltb_false by lra. rewrite Rltb_false by lra.
  unfold index. rewrite (ax_d_spec a d E). unfold xsub. cbn [xopp xadd]. rewrite xdiv_fin by lra.
  apply to_int_unique; [unfold ax_n; lia|]. rewrite (ax_max_spec a d E).
  replace ((ax_min a + IZR (ax_n a - 1) * d + - ax_min a) / d) with (IZR (ax_n a - 1)) by (field; lra). lra.
Qed.
Lemma edge_refuted : exists rho tmp yes tab lrho lT Ye, even rho 1 /\ even tmp 1 /\ even yes 1 /\
  length tab = (length rho * length tmp * length yes)%nat /\ EOS_SC_interp rho tmp yes lrho lT Ye tab = None.
Proof.
  exists [0; 1], [0; 1], [0; 1], (repeat 0 8), 1, 0, 0.
  split; [exact even01|]. split; [exact even01|]. split; [exact even01|]. split; [reflexivity|].
  assert (S : stencil [0; 1] [0; 1] [0; 1] (Fin 1) (Fin 0) (Fin 0) = Some (1, 0, 0)%Z).
  { unfold stencil. pose proof (index_end _ _ even01) as H. change (ax_max [0; 1]) with 1 in H. rewrite H.
    assert (I : index [0; 1] (catch true [0; 1] (Fin 0)) = Some 0%Z).
    { unfold catch. change (ax_min [0; 1]) with 0. change (ax_max [0; 1]) with 1. cbn [xltb xleb]. rewrite Rltb_false by lra. rewrite Rleb_false by lra.
      unfold index. rewrite (ax_d_spec _ _ even01). change (ax_min [0; 1]) with 0. unfold xsub. cbn [xopp xadd]. rewrite xdiv_fin by lra.
      apply to_int_unique; [lia|]. lra. }
    rewrite I. reflexivity. }
  unfold EOS_SC_interp. rewrite S.
  change (rd [0; 1] 1) with (Some 1). change (rd [0; 1] 0) with (Some 0). cbv zeta iota.
  change (EOS_ELEM [0; 1] [0; 1] (1 + 1)%Z (0 + 1)%Z (0 + 1)%Z) with 8%Z. rewrite (rd_none (repeat 0 8) 8) by (cbn; lia).
  repeat match goal with |- context [match rd ?l ?i with _ => _ end] => destruct (rd l i) end; reflexivity.
Qed.
Lemma stencil_nan rho tmp yes lT Ye : stencil rho tmp yes NaN lT Ye = None.
Proof.
  unfold stencil. assert (H : index rho (catch false rho NaN) = None); [|rewrite H; reflexivity].
  unfold catch. cbn [xltb]. unfold index, xsub. cbn [xopp xadd]. destruct (ax_d rho); reflexivity.
Qed.

(** ** Bounds of the dependent variable *)
Section Two.
Variables (rho yes : axis) (dr dy : R).
Hypothesis E1 : even rho dr.
Hypothesis E2 : even yes dy.
(** entry of a table in density and electron fraction *)
Definition entry (tab : list R) (i k : Z) : option R := rd tab (ax_n rho * k + i)%Z.
Lemma interp_2d_value tab lrho Ye : length tab = (length rho * length yes)%nat -> ax_min rho <= lrho < ax_max rho -> ax_min yes <= Ye < ax_max yes ->
  exists i k ri yk t0 t1 t2, (0 <= i /\ i + 1 < ax_n rho)%Z /\ (0 <= k /\ k + 1 < ax_n yes)%Z /\ rd rho i = Some ri /\ rd yes k = Some yk /\
    ri <= lrho < ri + dr /\ yk <= Ye < yk + dy /\
    entry tab i k = Some t0 /\ entry tab (i + 1) k = Some t1 /\ rd tab (ax_n rho * k + i + 2) = Some t2 /\
    let p := (lrho - ri) / dr in let s := (Ye - yk) / dy in
    interp_2d rho yes lrho Ye tab = Some ((1 - p) * (1 - s) * t0 + (p * (1 - s) + (1 - p) * s) * t1 + p * s * t2).
Proof.
  intros L B1 B2. destruct (index_in rho dr E1 lrho B1) as (i & ri & A1 & A2 & A3 & A4 & A5 & A6).
  destruct (index_in yes dy E2 Ye B2) as (k & yk & C1 & C2 & C3 & C4 & C5 & C6).
  assert (S : Z.of_nat (length tab) = (ax_n rho * ax_n yes)%Z) by (rewrite L; unfold ax_n; rewrite Nat2Z.inj_mul; reflexivity).
  assert (M : (ax_n rho * (k + 2) <= ax_n rho * ax_n yes)%Z) by (apply Z.mul_le_mono_nonneg_l; lia).
  assert (P : (0 <= ax_n rho * k)%Z) by (apply Z.mul_nonneg_nonneg; lia).
  destruct (rd_some tab (ax_n rho * k + i)) as (t0 & T0); [lia|]. destruct (rd_some tab (ax_n rho * k + (i + 1))) as (t1 & T1); [lia|].
  destruct (rd_some tab (ax_n rho * k + i + 2)) as (t2 & T2); [lia|].
  exists i, k, ri, yk, t0, t1, t2. split; [auto|]. split; [auto|]. split; [auto|]. split; [auto|]. split; [auto|]. split; [auto|].
  split; [exact T0|]. split; [exact T1|]. split; [exact T2|]. cbv zeta. unfold interp_2d. rewrite A1, C1, A4, C4. cbv zeta. rewrite T0.
  replace (ax_n rho * k + i + 1)%Z with (ax_n rho * k + (i + 1))%Z by ring. rewrite T1.
  replace (ax_n rho * k + 1 + i)%Z with (ax_n rho * k + (i + 1))%Z by ring. rewrite T1.
  replace (ax_n rho * k + (i + 1) + 1)%Z with (ax_n rho * k + i + 2)%Z by ring. rewrite T2.
  rewrite (ax_h_spec rho dr E1), (ax_h_spec yes dy E2). f_equal. ring.
Qed.
(** at an electron fraction of the table it is linear interpolation in density *)
Lemma interp_2d_node tab lrho k yk : length tab = (length rho * length yes)%nat -> ax_min rho <= lrho < ax_max rho ->
  rd yes k = Some yk -> (k + 1 < ax_n yes)%Z ->
  exists i ri t0 t1, (0 <= i /\ i + 1 < ax_n rho)%Z /\ rd rho i = Some ri /\ ri <= lrho < ri + dr /\ entry tab i k = Some t0 /\ entry tab (i + 1) k = Some t1 /\
    interp_2d rho yes lrho yk tab = Some ((1 - (lrho - ri) / dr) * t0 + (lrho - ri) / dr * t1).
Proof.
  intros L B1 K K1. pose proof E2 as (L0 & L1 & D & U). pose proof (rd_in _ _ _ K) as K0.
  pose proof (U k K0) as V. rewrite V in K. injection K. clear K. intros K. rewrite Z.sub_0_r in K.
  assert (B2 : ax_min yes <= yk < ax_max yes).
  { rewrite (ax_max_spec yes dy E2). unfold ax_min. assert (0 <= IZR k) by (apply (IZR_le 0); lia).
    assert (IZR k < IZR (ax_n yes - 1)) by (apply IZR_lt; lia).
    assert (0 <= IZR k * dy) by (apply Rmult_le_pos; lra). assert (IZR k * dy < IZR (ax_n yes - 1) * dy) by (apply Rmult_lt_compat_r; lra). lra. }
  destruct (interp_2d_value tab lrho yk L B1 B2) as (i & k' & ri & yk' & t0 & t1 & t2 & I & K' & R1 & R2 & C1 & C2 & T0 & T1 & T2 & V2).
  assert (k' = k).
  { pose proof (U k' ltac:(unfold ax_n in *; lia)) as V'. rewrite V' in R2. injection R2. intros R2'. rewrite Z.sub_0_r in R2'.
    assert (Q : IZR k' * dy <= IZR k * dy < (IZR k' + 1) * dy) by lra. destruct Q as (Q1 & Q2).
    apply Rmult_le_reg_r in Q1; [|auto]. apply Rmult_lt_reg_r in Q2; [|auto]. apply le_IZR in Q1.
    assert (IZR k < IZR (k' + 1)) by (rewrite plus_IZR; lra). apply lt_IZR in H. lia. }
  subst k'. assert (yk' = yk) by (rewrite V in R2; injection R2; rewrite Z.sub_0_r; lra). subst yk'.
  exists i, ri, t0, t1. split; [auto|]. split; [auto|]. split; [auto|]. split; [auto|]. split; [auto|].
  cbv zeta in V2. rewrite V2. f_equal. replace ((yk - yk) / dy) with 0 by (field; lra). ring.
Qed.
End Two.
Lemma even012 : even [0; 1; 2] 1.
Proof.
  split; [cbn; lia|]. split; [cbn; lia|]. split; [lra|]. intros i H. cbn in H. assert (C : (i = 0 \/ i = 1 \/ i = 2)%Z) by lia. cbn [nth].
  destruct C as [->|[->| ->]]; rewrite Z.sub_0_r; [change (Some 0 = Some (0 + 0 * 1))|change (Some 1 = Some (0 + 1 * 1))|change (Some 2 = Some (0 + 2 * 1))]; apply f_equal; lra.
Qed.
(** The entries are the electron fractions themselves; half way between two of them the
    value is that of the lower one.  The energy is then "caught" at a maximum that is not
    the maximum. *)
Definition ye_table : list R := [0; 0; 1; 1; 2; 2].
Lemma ye_half : interp_2d [0; 1] [0; 1; 2] 0 (1 / 2) ye_table = Some 0.
Proof.
  destruct (interp_2d_value [0; 1] [0; 1; 2] 1 1 even01 even012 ye_table 0 (1 / 2)) as (i & k & ri & yk & t0 & t1 & t2 & I & K & R1 & R2 & C1 & C2 & T0 & T1 & T2 & V);
    [reflexivity|cbv; lra|cbv [ax_min ax_max nth length Nat.sub]; lra|].
  cbv zeta in V. rewrite V. change (ax_n [0; 1]) with 2%Z in *. change (ax_n [0; 1; 2]) with 3%Z in *.
  assert (i = 0%Z) by lia. subst i. change (rd [0; 1] 0) with (Some 0) in R1. injection R1. intros <-.
  assert (Ck : (k = 0 \/ k = 1)%Z) by lia. destruct Ck as [-> | ->].
  - change (rd [0; 1; 2] 0) with (Some 0) in R2. injection R2. intros <-. unfold entry in *. change (ax_n [0; 1]) with 2%Z in *.
    change (rd ye_table (2 * 0 + 0)) with (Some 0) in T0. change (rd ye_table (2 * 0 + (0 + 1))) with (Some 0) in T1. change (rd ye_table (2 * 0 + 0 + 2)) with (Some 1) in T2.
    injection T0. injection T1. injection T2. intros <- <- <-. f_equal. field.
  - change (rd [0; 1; 2] 1) with (Some 1) in R2. injection R2. intros <-. lra.
Qed.
Lemma interp_2d_refuted : exists rho yes tab lrho Ye v, even rho 1 /\ even yes 1 /\ length tab = (length rho * length yes)%nat /\
  ax_min rho <= lrho < ax_max rho /\ ax_min yes <= Ye < ax_max yes /\
  (forall i k x y, rd rho i = Some x -> rd yes k = Some y -> rd tab (ax_n rho * k + i)%Z = Some y) /\
  interp_2d rho yes lrho Ye tab = Some v /\ v <> Ye.
Proof.
  exists [0; 1], [0; 1; 2], ye_table, 0, (1 / 2), 0. split; [exact even01|]. split; [exact even012|]. split; [reflexivity|].
  split; [cbv; lra|]. split; [cbv [ax_min ax_max nth length Nat.sub]; lra|]. split.
  - intros i k x y I K. pose proof (rd_in _ _ _ I) as HI. pose proof (rd_in _ _ _ K) as HK. cbn in HI, HK.
    assert (CI : (i = 0 \/ i = 1)%Z) by lia. assert (CK : (k = 0 \/ k = 1 \/ k = 2)%Z) by lia.
    destruct CI as [-> | ->], CK as [->|[-> | ->]]; exact K.
  - split; [exact ye_half|lra].
Qed.
(** the minimum and maximum over temperature *)
Lemma minmax_spec : forall l m, match fold_minmax l m with
  | None => l = [] /\ m = None
  | Some (lo, hi) => (forall t, In t l -> lo <= t <= hi) /\ (forall a b, m = Some (a, b) -> lo <= a /\ b <= hi) /\
      (In lo l \/ exists b, m = Some (lo, b)) /\ (In hi l \/ exists a, m = Some (a, hi))
  end.
Proof.
  induction l as [|t l IH]; intros m; cbn [fold_minmax].
  - destruct m as [(a, b)|]; [|auto]. split; [intros t []|]. split; [intros a' b' H; injection H; lra|]. split; right; eauto.
  - match goal with |- match fold_minmax l ?M with _ => _ end => specialize (IH M); set (m' := M) in * end.
    destruct (fold_minmax l m') as [(lo, hi)|].
    + destruct IH as (A & B & C & D). destruct m as [(a, b)|]; cbn in m'.
      * specialize (B _ _ eq_refl). destruct (Rltb_spec t a), (Rltb_spec b t).
        all: split; [intros x [->|X]; [lra|auto]|]; split; [intros a' b' H; injection H; lra|]; split.
        all: try (destruct C as [C|(b' & C)]; [left; right; exact C|injection C; intros; subst; (left; left; reflexivity) || (right; eauto)]).
        all: try (destruct D as [D|(b' & D)]; [left; right; exact D|injection D; intros; subst; (left; left; reflexivity) || (right; eauto)]).
      * specialize (B _ _ eq_refl). split; [intros x [->|X]; [lra|auto]|]. split; [discriminate|]. split.
        -- destruct C as [C|(b' & C)]; [left; right; exact C|injection C; intros; subst; left; left; reflexivity].
        -- destruct D as [D|(b' & D)]; [left; right; exact D|injection D; intros; subst; left; left; reflexivity].
    + destruct IH as (_ & IH). unfold m' in IH. destruct m as [(a, b)|]; discriminate.
Qed.
Lemma minmax_list l : l <> [] -> exists lo hi, fold_minmax l None = Some (lo, hi) /\ In lo l /\ In hi l /\ Forall (fun t => lo <= t <= hi) l.
Proof.
  intros N. pose proof (minmax_spec l None) as H. destruct (fold_minmax l None) as [(lo, hi)|]; [|destruct H; contradiction].
  destruct H as (A & _ & C & D). exists lo, hi. split; [reflexivity|]. split; [destruct C as [C|(b & C)]; [auto|discriminate]|].
  split; [destruct D as [D|(b & D)]; [auto|discriminate]|]. apply Forall_forall, A.
Qed.
(** so an energy below the maximum of its own density and electron fraction can be pushed
    outside the range of the table there *)
Lemma catch_refuted : exists rho yes tmin tmax lrho Ye var v, even rho 1 /\ even yes 1 /\
  (forall i k x y, rd rho i = Some x -> rd yes k = Some y -> rd tmin (ax_n rho * k + i)%Z = Some (y - 1 / 2) /\ rd tmax (ax_n rho * k + i)%Z = Some y) /\
  ax_min rho <= lrho < ax_max rho /\ ax_min yes <= Ye < ax_max yes /\ Ye - 1 / 2 < var < Ye /\
  catch_var_2d rho yes lrho Ye var tmin tmax = Some v /\ v < Ye - 1 / 2.
Proof.
  set (tmin := [0 - 1 / 2; 0 - 1 / 2; 1 - 1 / 2; 1 - 1 / 2; 2 - 1 / 2; 2 - 1 / 2]).
  exists [0; 1], [0; 1; 2], tmin, ye_table, 0, (9 / 10), (1 / 2), (0 - TOL).
  assert (V : forall tab a b c, rd tab 0 = Some a -> rd tab 1 = Some b -> rd tab 2 = Some c -> length tab = 6%nat -> b = a ->
    interp_2d [0; 1] [0; 1; 2] 0 (9 / 10) tab = Some a).
  { intros tab a b c A B C L ->.
    destruct (interp_2d_value [0; 1] [0; 1; 2] 1 1 even01 even012 tab 0 (9 / 10)) as (i & k & ri & yk & t0 & t1 & t2 & I & K & R1 & R2 & C1 & C2 & T0 & T1 & T2 & V);
      [exact L|cbv; lra|cbv [ax_min ax_max nth length Nat.sub]; lra|].
    cbv zeta in V. rewrite V. change (ax_n [0; 1]) with 2%Z in *. change (ax_n [0; 1; 2]) with 3%Z in *.
    assert (i = 0%Z) by lia. subst i. change (rd [0; 1] 0) with (Some 0) in R1. injection R1. intros <-.
    assert (Ck : (k = 0 \/ k = 1)%Z) by lia. destruct Ck as [-> | ->].
    - change (rd [0; 1; 2] 0) with (Some 0) in R2. injection R2. intros <-. unfold entry in *. change (ax_n [0; 1]) with 2%Z in *.
      cbn [Z.mul Z.add] in T0, T1, T2. rewrite A in T0. rewrite B in T1. rewrite C in T2.
      injection T0. injection T1. injection T2. intros <- <- <-. f_equal. field.
    - change (rd [0; 1; 2] 1) with (Some 1) in R2. injection R2. intros <-. lra. }
  pose proof TOL_pos as TP.
  split; [exact even01|]. split; [exact even012|]. split.
  - intros i k x y I K. pose proof (rd_in _ _ _ I) as HI. pose proof (rd_in _ _ _ K) as HK. cbn in HI, HK.
    assert (CI : (i = 0 \/ i = 1)%Z) by lia. assert (CK : (k = 0 \/ k = 1 \/ k = 2)%Z) by lia.
    destruct CK as [->|[-> | ->]];
      [change (Some 0 = Some y) in K|change (Some 1 = Some y) in K|change (Some 2 = Some y) in K]; injection K; intros <-;
      destruct CI as [-> | ->]; split; reflexivity.
  - split; [cbv; lra|]. split; [cbv [ax_min ax_max nth length Nat.sub]; lra|]. split; [lra|]. split; [|lra].
    unfold catch_var_2d. rewrite (V tmin (0 - 1 / 2) (0 - 1 / 2) (1 - 1 / 2)); try reflexivity. rewrite Rleb_false by lra.
    rewrite (V ye_table 0 0 1); try reflexivity. rewrite Rleb_true by lra. reflexivity.
Qed.
(** examples *)
Lemma two_points : exists v, interp_1d PInf 0 1 0 2 [0; 1] [5; 7] = Some (Fin v) /\ 5 <= v <= 7.
Proof.
  destruct even01 as (_ & _ & _ & U). cbn [nth length] in U. change (Z.of_nat 2) with 2%Z in U.
  assert (S : SMALL < 1).
  { unfold SMALL. rewrite <- Rinv_1. apply Rinv_lt_contravar; [rewrite Rmult_1_l; apply pow_lt; lra|]. apply Rlt_pow_R1; [lra|lia]. }
  assert (W : 1 = 0 + IZR (2 - 0 - 1) * 1) by (change (2 - 0 - 1)%Z with 1%Z; lra).
  destruct (interp_in 0 1 1 0 2 [0; 1] [5; 7] ltac:(lia) ltac:(lia) ltac:(lia) S W U ltac:(cbn; lia) PInf ltac:(discriminate) ltac:(discriminate)) as (r & i & yi & yj & v & _ & I & J & Yi & Yj & E & _ & _ & B).
  exists v. split; [exact E|]. assert (i = 0%Z) by lia. subst i. change (Some 5 = Some yi) in Yi. change (Some 7 = Some yj) in Yj.
  injection Yi. injection Yj. intros <- <-. unfold between in B. rewrite Rmin_left, Rmax_right in B by lra. exact B.
Qed.
Lemma cube : tabulates (fun x y z => x * y * z) [0; 1] [0; 1] [0; 1] [0; 0; 0; 0; 0; 0; 0; 1] /\ trilinear (fun x y z => x * y * z).
Proof.
  split.
  - split; [reflexivity|]. intros i j k x y z A B C. pose proof (rd_in _ _ _ A) as HA. pose proof (rd_in _ _ _ B) as HB. pose proof (rd_in _ _ _ C) as HC.
    cbn in HA, HB, HC. assert (CA : (i = 0 \/ i = 1)%Z) by lia. assert (CB : (j = 0 \/ j = 1)%Z) by lia. assert (CC : (k = 0 \/ k = 1)%Z) by lia.
    assert (VA : x = IZR i) by (destruct CA as [-> | ->]; [change (Some 0 = Some x) in A|change (Some 1 = Some x) in A]; injection A; auto).
    assert (VB : y = IZR j) by (destruct CB as [-> | ->]; [change (Some 0 = Some y) in B|change (Some 1 = Some y) in B]; injection B; auto).
    assert (VC : z = IZR k) by (destruct CC as [-> | ->]; [change (Some 0 = Some z) in C|change (Some 1 = Some z) in C]; injection C; auto).
    subst x y z. rewrite <- !mult_IZR. destruct CA as [-> | ->], CB as [-> | ->], CC as [-> | ->]; reflexivity.
  - exists 0, 0, 0, 0, 0, 0, 0, 1. intros. ring.
Qed.
(** with bounds further apart than the tolerance the caught value is between them *)
Lemma catch_between rho yes lrho Ye var tmin tmax lo hi : interp_2d rho yes lrho Ye tmin = Some lo -> interp_2d rho yes lrho Ye tmax = Some hi -> TOL < hi - lo ->
  exists v, catch_var_2d rho yes lrho Ye var tmin tmax = Some v /\ lo < v < hi /\ (lo < var < hi -> v = var) /\ Rabs (v - Rmax lo (Rmin hi var)) <= TOL.
Proof.
  intros A B D. pose proof TOL_pos as TP. unfold catch_var_2d. rewrite A, B.
  destruct (Rleb_spec var lo); [|destruct (Rleb_spec hi var)]; eexists; (split; [reflexivity|]); (split; [lra|]); (split; [lra|]).
  - rewrite Rmin_right, Rmax_left by lra. rewrite Rabs_right; lra.
  - rewrite Rmin_left, Rmax_right by lra. rewrite Rabs_left; lra.
  - rewrite Rmin_right, Rmax_right by lra. rewrite Rabs_right; lra.
Qed.
Lemma catch_example : interp_2d [0; 1] [0; 1; 2] 0 0 [0; 0; 0; 0; 0; 0] = Some 0 /\ interp_2d [0; 1] [0; 1; 2] 0 0 [2; 2; 2; 2; 2; 2] = Some 2 /\ TOL < 2 - 0.
Proof.
  assert (V : forall c, interp_2d [0; 1] [0; 1; 2] 0 0 [c; c; c; c; c; c] = Some c).
  { intros c. destruct (interp_2d_node [0; 1] [0; 1; 2] 1 1 even01 even012 [c; c; c; c; c; c] 0 0 0) as (i & ri & t0 & t1 & I & _ & _ & T0 & T1 & E);
      [reflexivity|cbv [ax_min ax_max nth length Nat.sub]; lra|reflexivity|reflexivity|]. rewrite E. change (ax_n [0; 1]) with 2%Z in I. assert (i = 0%Z) by lia. subst i.
    change (Some c = Some t0) in T0. change (Some c = Some t1) in T1. injection T0. injection T1. intros <- <-. f_equal. field. }
  split; [apply V|]. split; [apply V|]. unfold TOL. assert (/ 10 ^ 12 < / 1) by (apply Rinv_lt_contravar; lra). lra.
Qed.
