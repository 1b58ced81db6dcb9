(** Property theorems C47, C48 and C82 (tables). *)
From Coq Require Import Reals Bool ZArith List Lra.
From Flocq Require Import Core.
From Verif Require Import RLib XLib IntLib TabModel TabSpec TabProofs TabRound.
Import ListNotations.
Open Scope R_scope.

(** C47.  For every equally spaced table and every abscissa but the upper end and
    not-a-number, two neighbouring entries of the table are read and the value is the
    linear interpolant between them; abscissae outside are moved to the ends. *)
Theorem C47_inside_partial : forall xmin xmax d imin imax tab_x tab_y,
  (0 <= imin)%Z -> (imin + 2 <= imax)%Z -> (imax <= 2147483647)%Z -> SMALL < d -> xmax = xmin + IZR (imax - imin - 1) * d ->
  uniform tab_x imin imax xmin d -> (imax <= Z.of_nat (length tab_y))%Z ->
  forall x, x <> NaN -> x <> Fin xmax ->
  exists r i yi yj v, placed xmin xmax SMALL x r /\ (imin <= i)%Z /\ (i + 1 < imax)%Z /\ rd tab_y i = Some yi /\ rd tab_y (i + 1) = Some yj /\
    interp_1d x xmin xmax imin imax tab_x tab_y = Some (Fin v) /\
    xmin + IZR (i - imin) * d <= r < xmin + IZR (i + 1 - imin) * d /\
    (v - yi) * d = (yj - yi) * (r - (xmin + IZR (i - imin) * d)) /\ between yi yj v.
Proof. exact interp_in. Qed.
Print Assumptions C47_inside_partial.
(** At the upper end the code reads past the table, whatever the table. *)
Theorem C47_end_outside : forall xmin xmax d imin imax tab_x tab_y,
  (0 <= imin)%Z -> (imin + 2 <= imax)%Z -> (imax <= 2147483647)%Z -> SMALL < d -> xmax = xmin + IZR (imax - imin - 1) * d ->
  Z.of_nat (length tab_y) = imax -> interp_1d (Fin xmax) xmin xmax imin imax tab_x tab_y = None.
Proof. exact interp_end. Qed.
Print Assumptions C47_end_outside.
(** In double precision so it does above the table: the small number taken away there is
    lost in rounding, for every upper end of at least one. *)
Theorem C47_clamp_lost : forall x s, double x -> 1 <= x -> 0 <= s <= bpow radix2 (-55) -> rnd64 (x - s) = x.
Proof. exact clamp_rounds. Qed.
Print Assumptions C47_clamp_lost.
Theorem C47_above_refuted : exists x xmin xmax imax tab_x tab_y d, double x /\ double xmin /\ double xmax /\ xmax < x /\
  uniform tab_x 0 imax xmin d /\ xmax = xmin + IZR (imax - 1) * d /\ Z.of_nat (length tab_y) = imax /\
  interp_1d_rnd rnd64 SMALL x xmin xmax 0 imax tab_x tab_y = None.
Proof. exact above_refuted. Qed.
Print Assumptions C47_above_refuted.
(** The code with rounding left out is the code of the other theorems. *)
Theorem C47_rounding : forall x xmin xmax imin imax tx ty, (imin + 2 <= imax)%Z -> xmin < xmax ->
  option_map Fin (interp_1d_rnd (fun r => r) SMALL x xmin xmax imin imax tx ty) = interp_1d (Fin x) xmin xmax imin imax tx ty.
Proof. exact rnd_id. Qed.
Print Assumptions C47_rounding.
(** Called with the index of the last point instead of the one after it, as the adiabats
    of the tabulated equation of state do, it misses the nodes and leaves the range of
    the table. *)
Theorem C47_adiabat_refuted : exists tab_x tab_y imin imax d,
  uniform tab_x imin (imax + 1) (nth (Z.to_nat imin) tab_x 0) d /\ (imax < Z.of_nat (length tab_y))%Z /\
  (exists i x y v, (imin <= i <= imax)%Z /\ rd tab_x i = Some x /\ rd tab_y i = Some y /\
     interp_1d (Fin x) (nth (Z.to_nat imin) tab_x 0) (nth (Z.to_nat imax) tab_x 0) imin imax tab_x tab_y = Some (Fin v) /\ v <> y) /\
  (exists x v, nth (Z.to_nat imin) tab_x 0 <= x <= nth (Z.to_nat imax) tab_x 0 /\
     interp_1d (Fin x) (nth (Z.to_nat imin) tab_x 0) (nth (Z.to_nat imax) tab_x 0) imin imax tab_x tab_y = Some (Fin v) /\ Forall (fun y => y < v) tab_y).
Proof. exact adiabat_refuted. Qed.
Print Assumptions C47_adiabat_refuted.
(** find_index gives the first entry that is not below the value, or -1. *)
Theorem C47_find : forall value l, let z := find_index value l in
  (z = (-1)%Z /\ Forall (fun a => a < value) l) \/
  (exists a, (0 <= z < Z.of_nat (length l))%Z /\ rd l z = Some a /\ value <= a /\ forall i b, (0 <= i < z)%Z -> rd l i = Some b -> b < value).
Proof. exact find_spec. Qed.
Print Assumptions C47_find.
(** A table of two points and an infinite abscissa. *)
Example C47_nonvacuous : exists v, interp_1d PInf 0 1 0 2 [0; 1] [5; 7] = Some (Fin v) /\ 5 <= v <= 7.
Proof. exact two_points. Qed.

(** C48.  For every argument that is a number, infinite ones included, and a density
    other than the upper end of the table, the cell found lies inside the table on all
    three axes and contains the point the arguments are moved to. *)
Theorem C48_stencil_partial : forall rho tmp yes dr dt dy, even rho dr -> even tmp dt -> even yes dy -> TOL < dr -> TOL < dt -> TOL < dy ->
  forall lrho lT Ye, lrho <> NaN -> lT <> NaN -> Ye <> NaN -> lrho <> Fin (ax_max rho) ->
  exists i j k ri tj yk r t y, stencil rho tmp yes lrho lT Ye = Some (i, j, k) /\
    (0 <= i /\ i + 1 < ax_n rho)%Z /\ (0 <= j /\ j + 1 < ax_n tmp)%Z /\ (0 <= k /\ k + 1 < ax_n yes)%Z /\
    rd rho i = Some ri /\ rd tmp j = Some tj /\ rd yes k = Some yk /\
    rd rho (i + 1) = Some (ri + dr) /\ rd tmp (j + 1) = Some (tj + dt) /\ rd yes (k + 1) = Some (yk + dy) /\
    placed (ax_min rho) (ax_max rho) TOL lrho r /\ placed (ax_min tmp) (ax_max tmp) TOL lT t /\ placed (ax_min yes) (ax_max yes) TOL Ye y /\
    ri <= r < ri + dr /\ tj <= t < tj + dt /\ yk <= y < yk + dy.
Proof. exact stencil_in. Qed.
Print Assumptions C48_stencil_partial.
(** Then all eight entries exist. *)
Theorem C48_defined_partial : forall rho tmp yes dr dt dy, even rho dr -> even tmp dt -> even yes dy -> TOL < dr -> TOL < dt -> TOL < dy ->
  forall tab lrho lT Ye, length tab = (length rho * length tmp * length yes)%nat -> lrho <> ax_max rho ->
  exists v, EOS_SC_interp rho tmp yes lrho lT Ye tab = Some v.
Proof. exact interp_defined. Qed.
Print Assumptions C48_defined_partial.
(** At the upper end of the densities, where catch_lrho compares with > and the others
    with >=, entries outside are read; and not-a-number has no cell. *)
Theorem C48_edge_refuted : exists rho tmp yes tab lrho lT Ye, even rho 1 /\ even tmp 1 /\ even yes 1 /\
  length tab = (length rho * length tmp * length yes)%nat /\ EOS_SC_interp rho tmp yes lrho lT Ye tab = None.
Proof. exact edge_refuted. Qed.
Print Assumptions C48_edge_refuted.
Theorem C48_edge_index : forall a d, even a d -> index a (catch false a (Fin (ax_max a))) = Some (ax_n a - 1)%Z.
Proof. exact index_end. Qed.
Print Assumptions C48_edge_index.
Theorem C48_nan_outside : forall rho tmp yes lT Ye, stencil rho tmp yes NaN lT Ye = None.
Proof. exact stencil_nan. Qed.
Print Assumptions C48_nan_outside.
(** A table of eight entries. *)
Example C48_nonvacuous : even [0; 1] 1 /\ TOL < 1 /\ length (repeat 3 8) = (2 * 2 * 2)%nat.
Proof. exact (conj even01 (conj TOL_lt1 eq_refl)). Qed.

(** C82.  The three-dimensional interpolation gives functions linear in each variable
    exactly, and stays within the bounds of the entries inside the table. *)
Theorem C82_exact : forall rho tmp yes dr dt dy, even rho dr -> even tmp dt -> even yes dy -> TOL < dr -> TOL < dt -> TOL < dy ->
  forall f tab lrho lT Ye, tabulates f rho tmp yes tab -> trilinear f -> lrho <> ax_max rho ->
  EOS_SC_interp rho tmp yes lrho lT Ye tab = Some (f lrho lT Ye).
Proof. exact interp_exact. Qed.
Print Assumptions C82_exact.
Theorem C82_bounded : forall rho tmp yes dr dt dy, even rho dr -> even tmp dt -> even yes dy -> TOL < dr -> TOL < dt -> TOL < dy ->
  forall tab lrho lT Ye lo hi, length tab = (length rho * length tmp * length yes)%nat ->
  ax_min rho <= lrho < ax_max rho -> ax_min tmp <= lT < ax_max tmp -> ax_min yes <= Ye < ax_max yes ->
  Forall (fun v => lo <= v <= hi) tab -> exists v, EOS_SC_interp rho tmp yes lrho lT Ye tab = Some v /\ lo <= v <= hi.
Proof. exact interp_bounded. Qed.
Print Assumptions C82_bounded.
(** The bounds tabulated for each density and electron fraction are the least and the
    greatest entry over temperature. *)
Theorem C82_minmax : forall l, l <> [] -> exists lo hi, fold_minmax l None = Some (lo, hi) /\ In lo l /\ In hi l /\ Forall (fun t => lo <= t <= hi) l.
Proof. exact minmax_list. Qed.
Print Assumptions C82_minmax.
(** Between them the two-dimensional interpolation is right only at the electron
    fractions of the table. *)
Theorem C82_two_partial : forall rho yes dr dy, even rho dr -> even yes dy ->
  forall tab lrho k yk, length tab = (length rho * length yes)%nat -> ax_min rho <= lrho < ax_max rho ->
  rd yes k = Some yk -> (k + 1 < ax_n yes)%Z ->
  exists i ri t0 t1, (0 <= i /\ i + 1 < ax_n rho)%Z /\ rd rho i = Some ri /\ ri <= lrho < ri + dr /\ entry rho tab i k = Some t0 /\ entry rho tab (i + 1) k = Some t1 /\
    interp_2d rho yes lrho yk tab = Some ((1 - (lrho - ri) / dr) * t0 + (lrho - ri) / dr * t1).
Proof. exact interp_2d_node. Qed.
Print Assumptions C82_two_partial.
(** Elsewhere the missing parentheses of MMA_ELEM make it read the wrong entries. *)
Theorem C82_two_refuted : exists rho yes tab lrho Ye v, even rho 1 /\ even yes 1 /\ length tab = (length rho * length yes)%nat /\
  ax_min rho <= lrho < ax_max rho /\ ax_min yes <= Ye < ax_max yes /\
  (forall i k x y, rd rho i = Some x -> rd yes k = Some y -> rd tab (ax_n rho * k + i)%Z = Some y) /\
  interp_2d rho yes lrho Ye tab = Some v /\ v <> Ye.
Proof. exact interp_2d_refuted. Qed.
Print Assumptions C82_two_refuted.
(** Given two bounds further apart than the tolerance, catch_var_2d gives a value strictly
    between them, the nearest one to within the tolerance. *)
Theorem C82_catch : forall rho yes lrho Ye var tmin tmax lo hi, interp_2d rho yes lrho Ye tmin = Some lo -> interp_2d rho yes lrho Ye tmax = Some hi -> TOL < hi - lo ->
  exists v, catch_var_2d rho yes lrho Ye var tmin tmax = Some v /\ lo < v < hi /\ (lo < var < hi -> v = var) /\ Rabs (v - Rmax lo (Rmin hi var)) <= TOL.
Proof. exact catch_between. Qed.
Print Assumptions C82_catch.
(** The bounds interpolated being wrong, a value between the true ones is moved out of them. *)
Theorem C82_catch_refuted : exists rho yes tmin tmax lrho Ye var v, even rho 1 /\ even yes 1 /\
  (forall i k x y, rd rho i = Some x -> rd yes k = Some y -> rd tmin (ax_n rho * k + i)%Z = Some (y - 1 / 2) /\ rd tmax (ax_n rho * k + i)%Z = Some y) /\
  ax_min rho <= lrho < ax_max rho /\ ax_min yes <= Ye < ax_max yes /\ Ye - 1 / 2 < var < Ye /\
  catch_var_2d rho yes lrho Ye var tmin tmax = Some v /\ v < Ye - 1 / 2.
Proof. exact catch_refuted. Qed.
Print Assumptions C82_catch_refuted.
Example C82_catch_nonvacuous : interp_2d [0; 1] [0; 1; 2] 0 0 [0; 0; 0; 0; 0; 0] = Some 0 /\ interp_2d [0; 1] [0; 1; 2] 0 0 [2; 2; 2; 2; 2; 2] = Some 2 /\ TOL < 2 - 0.
Proof. exact catch_example. Qed.
(** The product of the three coordinates on the unit cube. *)
Example C82_nonvacuous : tabulates (fun x y z => x * y * z) [0; 1] [0; 1] [0; 1] [0; 0; 0; 0; 0; 0; 0; 1] /\ trilinear (fun x y z => x * y * z).
Proof. exact cube. Qed.
