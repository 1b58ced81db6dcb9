(** C120: states on an adiabat. *)
From Coq Require Import Reals Bool ZArith List Lia Lra.
From Verif Require Import RLib XLib IntLib TabModel TabSpec TabProofs RootModel RootSpec InvModel AdiaModel AdiaWit IsoModel IsoSpec IsoProofs IsoMore.
Import ListNotations.
Open Scope R_scope.

(** With two nodes or more the temperature of every density is defined and read from
    temperatures that were written, *)
Theorem C120_reads : forall rho d a, even rho d -> SMALL < d -> traced_on rho a -> (ad_imin a < ad_imax a)%Z -> forall x, exists v, lT_of rho a x = Some (Fin v).
Proof. exact lT_of_defined. Qed.
Print Assumptions C120_reads.
(** with one it is 0 divided by 0. *)
Theorem C120_single_refuted : exists rho a, even rho 1 /\ traced_on rho a /\ forall x, x <= ad_lrho_max a -> lT_of rho a x = None.
Proof. exact single_refuted. Qed.
Print Assumptions C120_single_refuted.
(** On an adiabat that is a straight line the temperature is off by at most twice the
    change per node divided by the number of intervals. *)
Theorem C120_error : forall rho d a, even rho d -> SMALL < d -> traced_on rho a -> (ad_imin a < ad_imax a)%Z -> forall c b x, straight rho a c b ->
  ad_lrho_min a <= x <= ad_lrho_max a -> exists v, lT_of rho a x = Some (Fin v) /\ Rabs (v - (c + b * x)) <= 2 * Rabs b * d / IZR (ad_imax a - ad_imin a).
Proof. exact lT_of_straight. Qed.
Print Assumptions C120_error.
(** It is off at the nodes too: half of the temperature there. *)
Theorem C120_node_refuted : exists rho a i x lT v, even rho 1 /\ traced_on rho a /\ straight rho a 0 (/ 2) /\ (ad_imin a <= i <= ad_imax a)%Z /\ rd rho i = Some x /\
  rd (ad_lT a) (i - ad_imin a) = Some lT /\ lT_of rho a x = Some (Fin v) /\ v = lT / 2 /\ lT <> 0.
Proof. exact node_refuted. Qed.
Print Assumptions C120_node_refuted.
(** An enthalpy between those at the two ends is found, *)
Theorem C120_found : forall rho tmp yes a tab_hm1 tab_lhm1 tab_le e_shift h_shift u_shift RHO_unit U_unit dr dt dy m hm1 g h0 h1,
  even rho dr -> even tmp dt -> even yes dy -> TOL < dr -> TOL < dt -> TOL < dy -> traced_on rho a -> (ad_imin a < ad_imax a)%Z ->
  length tab_le = (length rho * length tmp * length yes)%nat -> ad_hm1_min a = Fin m ->
  along rho tmp yes a (ad_ye a) tab_lhm1 (ad_lrho_min a) = Some h0 -> along rho tmp yes a (ad_ye a) tab_lhm1 (ad_lrho_max a) = Some h1 ->
  h0 <= target tab_hm1 h_shift hm1 m <= h1 \/ h1 <= target tab_hm1 h_shift hm1 m <= h0 -> 3 * TABLE_TOL <= ad_lrho_max a \/ ad_lrho_max a <= - TABLE_TOL ->
  exists n lrho, find_root (lT_f_adiabat rho tmp yes a tab_lhm1) (target tab_hm1 h_shift hm1 m) (ad_lrho_min a) (ad_lrho_max a) TABLE_TOL TABLE_TOL n (catch_lrho rho g) = Success lrho /\
    (lrho <> ax_max rho -> exists r u, forall k, EOS_SC_isoentropy_hm1 rho tmp yes a tab_hm1 tab_lhm1 tab_le e_shift h_shift u_shift RHO_unit U_unit (n + k)%nat hm1 g = State r u lrho).
Proof. exact found. Qed.
Print Assumptions C120_found.
(** but the state found need not have it, though the adiabat does: the interpolation jumps
    over it. *)
Theorem C120_enthalpy_refuted : exists rho tmp yes a tab_hm1 tab_lhm1 tab_le hm1 g n r u lrho x h, even rho 1 /\ even tmp 1 /\ even yes 1 /\ traced_on rho a /\ straight rho a 0 (/ 2) /\
  tabulates (fun _ y _ => y) rho tmp yes tab_lhm1 /\
  (forall k, EOS_SC_isoentropy_hm1 rho tmp yes a tab_hm1 tab_lhm1 tab_le 0 0 0 1 1 (n + k)%nat hm1 g = State r u lrho) /\
  along rho tmp yes a (ad_ye a) tab_lhm1 lrho = Some h /\ Rabs (h - log10 (hm1 * (CL * CL))) >= 1 / 10 /\
  ad_lrho_min a < x < ad_lrho_max a /\ 0 + / 2 * x = log10 (hm1 * (CL * CL)).
Proof. exact enthalpy_refuted. Qed.
Print Assumptions C120_enthalpy_refuted.
(** The energy is that of the table at the density and temperature found, in code units. *)
Theorem C120_units : forall rho tmp yes a tab_hm1 tab_lhm1 tab_le e_shift h_shift u_shift RHO_unit U_unit fuel hm1 g r u lrho, 0 < RHO_unit -> 0 < U_unit ->
  EOS_SC_isoentropy_hm1 rho tmp yes a tab_hm1 tab_lhm1 tab_le e_shift h_shift u_shift RHO_unit U_unit fuel hm1 g = State r u lrho ->
  exists lT le, lT_of rho a lrho = Some (Fin lT) /\ EOS_SC_interp rho tmp yes lrho lT (catch_in yes (ad_ye a)) tab_le = Some le /\
  r * RHO_unit = pow10 lrho /\ u * U_unit = (pow10 le - e_shift) * (r * RHO_unit) + u_shift.
Proof. exact units. Qed.
Print Assumptions C120_units.
(** At or above what EOS_SC_hm1_min_adiabat gives, and inside the table, the enthalpy asked
    for is the one looked for. *)
Theorem C120_floor : forall tab_hm1 h_shift hm1 m, find_min tab_hm1 <= hm1 * CL * CL < find_max tab_hm1 -> EOS_SC_hm1_min_adiabat m <= hm1 ->
  target tab_hm1 h_shift hm1 m = log10 (hm1 * (CL * CL) + h_shift).
Proof. exact floor. Qed.
Print Assumptions C120_floor.

(** Three nodes on a line. *)
Example C120_nonvacuous : even r4 1 /\ SMALL < 1 /\ traced_on r4 line3 /\ straight r4 line3 0 (/ 2) /\ (ad_imin line3 < ad_imax line3)%Z /\
  along r4 t2 t2 line3 0 tempt 0 = Some (0 / 4) /\ along r4 t2 t2 line3 0 tempt 2 = Some (3 / 4) /\ 3 * TABLE_TOL <= ad_lrho_max line3.
Proof.
  pose proof small. pose proof InvProofs.TT_pos. split; [exact even4|]. split; [lra|]. split; [exact line3_traced|]. split; [exact line3_straight|]. split; [cbn; lia|].
  split; [apply line3_along; [lra|]; apply line3_0; lra|]. split; [apply line3_along; [lra|]; exact line3_2|]. cbn [ad_lrho_max line3]. lra.
Qed.
