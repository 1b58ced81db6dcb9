(** Property theorems C114 (tabulated opacities and emissivities of neutrinos). *)
From Coq Require Import Reals Bool ZArith List.
From Verif Require Import RLib XLib IntLib TabModel TabSpec OpacModel OpacSpec OpacProofs OpacMore.
Import ListNotations.
Open Scope R_scope.

(** C114.  The table on the groups of the run: every element is filled and none outside,
    and each holds the linear interpolant in the logarithm of frequency between two
    neighbouring tabulated frequencies of the same density, temperature, electron fraction
    and species; provided no group lies on the highest tabulated frequency. *)
Theorem C114_groups : forall o dn grid,
  let n1 := ax_n (lrhos o) in let n2 := ax_n (lTs o) in let n3 := ax_n (Yes o) in let nn := ax_n (lNus o) in let nt := ntypes o in let nb := ngroups o in
  let nu := nu_of (numin o) (numax o) (nb - 1) in let top := nth (length (lNus o) - 1) (lNus o) 0 in
  even (lNus o) dn -> SMALL < dn -> (2 <= nb <= 2147483647)%Z -> (1 <= nt)%Z -> 0 < numin o < numax o ->
  Z.of_nat (length grid) = (n1 * n2 * n3 * nt * nn)%Z -> (0 < n1)%Z -> (0 < n2)%Z -> (0 < n3)%Z ->
  (forall n, (0 <= n < nb)%Z -> ln (nu n) <> top) ->
  exists b, regrid o grid = Some b /\ (forall a, b a <> None <-> (0 <= a < n1 * n2 * n3 * nt * nb)%Z) /\
  forall i j k t n, inside n1 n2 n3 nt nb i j k t n ->
  exists r q xq y0 y1, placed (nth 0 (lNus o) 0) top SMALL (Fin (ln (nu n))) r /\ cell (lNus o) dn r q xq /\
    rd grid (slot n1 n2 nt nn i j k t q) = Some y0 /\ rd grid (slot n1 n2 nt nn i j k t (q + 1)) = Some y1 /\
    b (slot n1 n2 nt nb i j k t n) = Some (lerp ((r - xq) / dn) y0 y1).
Proof. exact regrid_ok. Qed.
Print Assumptions C114_groups.
(** If the highest frequency of the run is the highest of the table, the table is read
    past its end. *)
Theorem C114_groups_outside : forall o dn grid, even (lNus o) dn -> SMALL < dn -> (2 <= ngroups o <= 2147483647)%Z -> (1 <= ntypes o)%Z -> 0 < numin o < numax o ->
  Z.of_nat (length grid) = (ax_n (lrhos o) * ax_n (lTs o) * ax_n (Yes o) * ntypes o * ax_n (lNus o))%Z ->
  (0 < ax_n (lrhos o))%Z -> (0 < ax_n (lTs o))%Z -> (0 < ax_n (Yes o))%Z ->
  ln (numax o) = nth (length (lNus o) - 1) (lNus o) 0 -> regrid o grid = None.
Proof. exact regrid_top. Qed.
Print Assumptions C114_groups_outside.
(** For every density, temperature and electron fraction that is a number, infinite ones
    included, there is a cell of the table that contains the point the arguments are moved
    to, and each group of each species is interpolated between its own eight entries,
    emissivities from the one table and opacities from the other. *)
Theorem C114_fill : forall o dr dt dy MEV,
  let n1 := ax_n (lrhos o) in let n2 := ax_n (lTs o) in let n3 := ax_n (Yes o) in let nt := ntypes o in let nb := ngroups o in
  even (lrhos o) dr -> even (lTs o) dt -> even (Yes o) dy -> TOL < dr -> TOL < dt -> TOL < dy -> (1 <= nb)%Z -> (1 <= nt)%Z -> 0 < MEV ->
  forall rho T Ye, rho <> NaN -> T <> NaN -> Ye <> NaN ->
  exists i j k xi xj xk r t y,
    placed10 (ax_min (lrhos o)) (ax_max (lrhos o)) TOL rho r /\ placed10 (ax_min (lTs o)) (ax_max (lTs o)) TOL (T / Fin MEV)%X t /\ placed (ax_min (Yes o)) (ax_max (Yes o)) TOL Ye y /\
    cell (lrhos o) dr r i xi /\ cell (lTs o) dt t j xj /\ cell (Yes o) dy y k xk /\
    forall tab_J tab_K fJ fK,
    (forall i j k t n, inside n1 n2 n3 nt nb i j k t n -> tab_J (slot n1 n2 nt nb i j k t n) = Some (fJ t n i j k) /\ tab_K (slot n1 n2 nt nb i j k t n) = Some (fK t n i j k)) ->
    exists jgrp agrp, fill_opac_emis_hdf o MEV tab_J tab_K rho T Ye = Some (jgrp, agrp) /\ Z.of_nat (length jgrp) = nt /\ Z.of_nat (length agrp) = nt /\
    forall s, (0 <= s < nt)%Z -> exists jrow arow, rd jgrp s = Some jrow /\ rd agrp s = Some arow /\ Z.of_nat (length jrow) = nb /\ Z.of_nat (length arow) = nb /\
      forall n, (0 <= n < nb)%Z -> rd jrow n = Some (blend ((r - xi) / dr) ((t - xj) / dt) ((y - xk) / dy) (fJ s n) i j k) /\
                                   rd arow n = Some (blend ((r - xi) / dr) ((t - xj) / dt) ((y - xk) / dy) (fK s n) i j k).
Proof. exact fill_ok. Qed.
Print Assumptions C114_fill.
(** Functions linear in the logarithms of density and temperature and in the electron
    fraction come out exactly. *)
Theorem C114_exact : forall o dr dt dy MEV,
  let n1 := ax_n (lrhos o) in let n2 := ax_n (lTs o) in let n3 := ax_n (Yes o) in let nt := ntypes o in let nb := ngroups o in
  even (lrhos o) dr -> even (lTs o) dt -> even (Yes o) dy -> TOL < dr -> TOL < dt -> TOL < dy -> (1 <= nb)%Z -> (1 <= nt)%Z -> 0 < MEV ->
  forall rho T Ye, rho <> NaN -> T <> NaN -> Ye <> NaN ->
  exists r t y,
    placed10 (ax_min (lrhos o)) (ax_max (lrhos o)) TOL rho r /\ placed10 (ax_min (lTs o)) (ax_max (lTs o)) TOL (T / Fin MEV)%X t /\ placed (ax_min (Yes o)) (ax_max (Yes o)) TOL Ye y /\
    forall tab_J tab_K FJ FK, (forall s n, trilinear (FJ s n)) -> (forall s n, trilinear (FK s n)) ->
    (forall i j k s n x z w, inside n1 n2 n3 nt nb i j k s n -> rd (lrhos o) i = Some x -> rd (lTs o) j = Some z -> rd (Yes o) k = Some w ->
       tab_J (slot n1 n2 nt nb i j k s n) = Some (FJ s n x z w) /\ tab_K (slot n1 n2 nt nb i j k s n) = Some (FK s n x z w)) ->
    exists jgrp agrp, fill_opac_emis_hdf o MEV tab_J tab_K rho T Ye = Some (jgrp, agrp) /\
    forall s n, (0 <= s < nt)%Z -> (0 <= n < nb)%Z -> exists jrow arow, rd jgrp s = Some jrow /\ rd agrp s = Some arow /\
      rd jrow n = Some (FJ s n r t y) /\ rd arow n = Some (FK s n r t y).
Proof. exact exact_ok. Qed.
Print Assumptions C114_exact.
(** At a frequency other than the highest: between two neighbouring groups linearly in
    the logarithm, the lowest group below, the highest (but for the small number) above. *)
Theorem C114_frequency : forall o grp type row, let nb := ngroups o in let nu := nu_of (numin o) (numax o) (nb - 1) in
  (2 <= nb <= 2147483647)%Z -> 0 < numin o < numax o -> SMALL < (ln (numax o) - ln (numin o)) / IZR (nb - 1) ->
  (0 <= type)%Z -> rd grp type = Some row -> Z.of_nat (length row) = nb ->
  forall x, Rabs x <> numax o ->
  exists n a b v, (0 <= n /\ n + 1 < nb)%Z /\ rd row n = Some a /\ rd row (n + 1) = Some b /\ nu_hdf o grp x type = Val v /\ between a b v /\
    (numin o <= Rabs x < numax o -> nu n <= Rabs x < nu (n + 1)%Z /\ v = lerp (ln (Rabs x / nu n) / ln (nu (n + 1)%Z / nu n)) a b) /\
    (Rabs x < numin o -> n = 0%Z /\ v = a) /\
    (numax o < Rabs x -> (n + 2 = nb)%Z /\ Rabs (v - b) * (ln (numax o / numin o) / IZR (nb - 1)) <= SMALL * Rabs (b - a)).
Proof. exact nu_hdf_ok. Qed.
Print Assumptions C114_frequency.
(** At the frequency of a group, the group. *)
Theorem C114_group : forall o grp type row, let nb := ngroups o in
  (2 <= nb <= 2147483647)%Z -> 0 < numin o < numax o -> SMALL < (ln (numax o) - ln (numin o)) / IZR (nb - 1) ->
  (0 <= type)%Z -> rd grp type = Some row -> Z.of_nat (length row) = nb ->
  forall n a, (0 <= n)%Z -> (n + 1 < nb)%Z -> rd row n = Some a -> nu_hdf o grp (nu_of (numin o) (numax o) (nb - 1) n) type = Val a.
Proof. exact nu_hdf_node. Qed.
Print Assumptions C114_group.
(** At the highest frequency of the run the groups are read past their end. *)
Theorem C114_frequency_outside : forall o grp type row,
  (2 <= ngroups o <= 2147483647)%Z -> 0 < numin o < numax o -> SMALL < (ln (numax o) - ln (numin o)) / IZR (ngroups o - 1) ->
  (0 <= type)%Z -> rd grp type = Some row -> Z.of_nat (length row) = ngroups o ->
  forall x, Rabs x = numax o -> nu_hdf o grp x type = Undefined.
Proof. exact nu_hdf_top. Qed.
Print Assumptions C114_frequency_outside.
(** From the file to a frequency: for every state of the matter and every species the
    emissivity and the opacity lie within the bounds of their tables, so that with no
    negative entries neither is negative. *)
Theorem C114_bounded : forall o dr dt dy MEV,
  let n1 := ax_n (lrhos o) in let n2 := ax_n (lTs o) in let n3 := ax_n (Yes o) in let nt := ntypes o in let nb := ngroups o in
  even (lrhos o) dr -> even (lTs o) dt -> even (Yes o) dy -> TOL < dr -> TOL < dt -> TOL < dy -> (1 <= nb)%Z -> (1 <= nt)%Z -> 0 < MEV ->
  forall dn gJ gK loJ hiJ loK hiK, even (lNus o) dn -> SMALL < dn -> (2 <= nb <= 2147483647)%Z -> 0 < numin o < numax o ->
  SMALL < (ln (numax o) - ln (numin o)) / IZR (nb - 1) ->
  Z.of_nat (length gJ) = (n1 * n2 * n3 * nt * ax_n (lNus o))%Z -> Z.of_nat (length gK) = (n1 * n2 * n3 * nt * ax_n (lNus o))%Z ->
  (forall n, (0 <= n < nb)%Z -> ln (nu_of (numin o) (numax o) (nb - 1) n) <> nth (length (lNus o) - 1) (lNus o) 0) ->
  Forall (fun v => loJ <= v <= hiJ) gJ -> Forall (fun v => loK <= v <= hiK) gK ->
  exists bJ bK, regrid o gJ = Some bJ /\ regrid o gK = Some bK /\
  forall rho T Ye, rho <> NaN -> T <> NaN -> Ye <> NaN -> exists jgrp agrp, fill_opac_emis_hdf o MEV bJ bK rho T Ye = Some (jgrp, agrp) /\
  forall s nu, (0 <= s < nt)%Z -> Rabs nu <> numax o -> exists j a, nu_hdf o jgrp nu s = Val j /\ loJ <= j <= hiJ /\ nu_hdf o agrp nu s = Val a /\ loK <= a <= hiK.
Proof. exact bounded. Qed.
Print Assumptions C114_bounded.
(** The total emissivity: four pi times the trapezoidal rule for nu j_nu over the
    logarithm of frequency, and half a step of both ends too much. *)
Theorem C114_total : forall o jgrp, (2 <= ngroups o <= 2147483647)%Z -> 0 < numin o < numax o -> Forall (fun row => Z.of_nat (length row) = ngroups o) jgrp ->
  let h := (ln (numax o) - ln (numin o)) / IZR (ngroups o - 1) in
  let nus := map (fun n => nu_of (numin o) (numax o) (ngroups o - 1) (Z.of_nat n)) (seq 0 (Z.to_nat (ngroups o))) in
  int_jnudnudOmega_hdf o jgrp = fold_right Rplus 0 (map (fun row => let g := map (fun p => fst p * snd p) (combine row nus) in
    4 * PI * (trapezoid h g + h * ((hd 0 g + last g 0) / 2))) jgrp).
Proof. exact int_ok. Qed.
Print Assumptions C114_total.
(** So the total is not the integral even of a spectrum with constant nu j_nu. *)
Theorem C114_total_refuted : exists o jgrp c, (2 <= ngroups o)%Z /\ 0 < numin o < numax o /\ 0 < c /\
  (forall row, In row jgrp -> Z.of_nat (length row) = ngroups o /\ forall n j, rd row n = Some j -> j * nu_of (numin o) (numax o) (ngroups o - 1) n = c) /\
  length jgrp = 1%nat /\ int_jnudnudOmega_hdf o jgrp <> 4 * PI * (c * ln (numax o / numin o)).
Proof. exact int_refuted. Qed.
Print Assumptions C114_total_refuted.
(** Two values on each axis, one species and two groups. *)
Example C114_nonvacuous : even (lNus small_table) 1 /\ SMALL < 1 /\ TOL < 1 /\ 0 < numin small_table < numax small_table /\
  SMALL < (ln (numax small_table) - ln (numin small_table)) / IZR (ngroups small_table - 1) /\
  (forall n, (0 <= n < 2)%Z -> ln (nu_of (numin small_table) (numax small_table) 1 n) <> nth 1 (lNus small_table) 0) /\
  Z.of_nat (length (repeat 3 16)) = (2 * 2 * 2 * 1 * 2)%Z /\ Forall (fun v => 0 <= v <= 3) (repeat 3 16).
Proof. exact small_ok. Qed.
