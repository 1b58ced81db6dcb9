(** C109 and C110: temperature and floors of the tabulated equation of state. *)
From Coq Require Import Reals Lra Lia Bool ZArith List.
From Verif Require Import RLib XLib IntLib TabModel TabSpec TabProofs RootModel InvModel InvSpec InvProofs InvFill InvEnds InvWit.
Import ListNotations.
Open Scope R_scope.

(** C109.  Tables whose entries grow with temperature, between m and L per unit of log
    temperature: the interpolation does too, inside the table and outside. *)
Theorem C109_grows : forall rho tmp yes dr dt dy, even rho dr -> even tmp dt -> even yes dy -> TOL < dr -> TOL < dt -> TOL < dy ->
  forall tab, length tab = (length rho * length tmp * length yes)%nat -> forall m L,
  rising (ax_n rho) (ax_n tmp) (ax_n yes) tab dt m L ->
  forall lrho ye, ax_min rho <= lrho < ax_max rho -> ax_min yes <= ye < ax_max yes ->
  forall a b, a <= b -> exists va vb, EOS_SC_interp rho tmp yes lrho a ye tab = Some va /\ EOS_SC_interp rho tmp yes lrho b ye tab = Some vb /\
    m * (b - a) <= vb - va <= L * (b - a).
Proof.
  intros rho tmp yes dr dt dy E1 E2 E3 T1 T2 T3 tab SZ m L RI lrho ye B1 B3 a b AB. eexists. eexists.
  split; [exact (lT_f_value rho tmp yes dr dt dy E1 E2 E3 T1 T2 T3 tab SZ lrho ye a B1)|].
  split; [exact (lT_f_value rho tmp yes dr dt dy E1 E2 E3 T1 T2 T3 tab SZ lrho ye b B1)|].
  exact (table_grows rho tmp yes dr dt dy E1 E2 E3 T1 T2 T3 tab SZ m L RI lrho ye B1 B3 a b AB).
Qed.
Print Assumptions C109_grows.
(** Every state of positive density, whatever its energy, electron fraction and guess, is
    given a temperature: the search ends, never fails, and stays within the table but for
    the tolerance. *)
Theorem C109_total : forall rho tmp yes dr dt dy, even rho dr -> even tmp dt -> even yes dy -> TOL < dr -> 2 * TOL < dt -> TOL < dy ->
  forall tab, length tab = (length rho * length tmp * length yes)%nat -> forall m L lo hi, TOL < m * dt ->
  rising (ax_n rho) (ax_n tmp) (ax_n yes) tab dt m L -> 0 < lo -> Forall (fun v => lo <= v <= hi) tab -> L <= 50 * lo ->
  3 * TABLE_TOL <= ax_max tmp - 2 * TOL \/ ax_max tmp - 2 * TOL <= - TABLE_TOL ->
  forall e_shift u_shift RHO_unit U_unit, 0 < RHO_unit -> forall r u ye guess, 0 < r -> exists n lT,
  (forall j, EOS_SC_fill rho tmp yes tab e_shift u_shift RHO_unit U_unit (n + j) r u ye guess = Stored (catch_rho rho (r * RHO_unit)) lT (catch_in yes ye)) /\
  ax_min tmp - (2 * TABLE_TOL * (L + hi + 2)) / m <= lT <= ax_max tmp + (2 * TABLE_TOL * (L + hi + 2)) / m.
Proof. exact fill_total. Qed.
Print Assumptions C109_total.
(** At an electron fraction of the table, filling a state whose energy belongs to the
    temperature T gives T back, up to the tolerances of the search. *)
Theorem C109_inverse : forall rho tmp yes dr dt dy, even rho dr -> even tmp dt -> even yes dy -> TOL < dr -> 2 * TOL < dt -> TOL < dy ->
  forall tab, length tab = (length rho * length tmp * length yes)%nat -> forall m L lo hi, TOL < m * dt ->
  rising (ax_n rho) (ax_n tmp) (ax_n yes) tab dt m L -> 0 < lo -> Forall (fun v => lo <= v <= hi) tab -> L <= 50 * lo ->
  3 * TABLE_TOL <= ax_max tmp - 2 * TOL \/ ax_max tmp - 2 * TOL <= - TABLE_TOL ->
  forall e_shift u_shift RHO_unit U_unit, 0 < RHO_unit -> 0 < U_unit ->
  forall r T k ye guess, 0 < r -> rd yes k = Some ye -> (k + 1 < ax_n yes)%Z -> pow10 (ax_min tmp) <= T < pow10 (ax_max tmp) ->
  exists u n lT, EOS_SC_get_u_of_T rho tmp yes tab e_shift u_shift U_unit (r * RHO_unit) T ye = Some u /\
    (forall j, EOS_SC_fill rho tmp yes tab e_shift u_shift RHO_unit U_unit (n + j) r u ye guess = Stored (catch_rho rho (r * RHO_unit)) lT ye) /\
    near ((TOL + 2 * TABLE_TOL * (L + hi + 2)) / m) lT (log10 T).
Proof.
  intros rho tmp yes dr dt dy E1 E2 E3 T1 T2 T3 tab SZ m L lo hi M RI LO BD SL TOP es us RU UU HR HU r T k ye g R K K1 HT.
  rewrite <- (used_id tmp T HT). exact (fill_node rho tmp yes dr dt dy E1 E2 E3 T1 T2 T3 tab SZ m L lo hi M RI LO BD SL TOP es us RU UU HR HU r T k ye g R K K1).
Qed.
Print Assumptions C109_inverse.
(** An energy below that of the coldest gas gives the lowest temperature, one above that of
    the hottest gas the highest. *)
Theorem C109_cold : forall rho tmp yes dr dt dy, even rho dr -> even tmp dt -> even yes dy -> TOL < dr -> 2 * TOL < dt -> TOL < dy ->
  forall tab, length tab = (length rho * length tmp * length yes)%nat -> forall m L lo hi, TOL < m * dt ->
  rising (ax_n rho) (ax_n tmp) (ax_n yes) tab dt m L -> 0 < lo -> Forall (fun v => lo <= v <= hi) tab -> L <= 50 * lo ->
  3 * TABLE_TOL <= ax_max tmp - 2 * TOL \/ ax_max tmp - 2 * TOL <= - TABLE_TOL ->
  forall e_shift u_shift RHO_unit U_unit, 0 < RHO_unit -> 0 < U_unit ->
  forall r u a k ye guess, 0 < r -> rd yes k = Some ye -> (k + 1 < ax_n yes)%Z ->
  EOS_SC_get_minu rho tmp yes tab e_shift u_shift U_unit (r * RHO_unit) ye = Some a -> u <= a ->
  exists n lT, (forall j, EOS_SC_fill rho tmp yes tab e_shift u_shift RHO_unit U_unit (n + j) r u ye guess = Stored (catch_rho rho (r * RHO_unit)) lT ye) /\
    near ((TOL + 2 * TABLE_TOL * (L + hi + 2)) / m) lT (ax_min tmp).
Proof. exact fill_cold. Qed.
Print Assumptions C109_cold.
Theorem C109_hot : forall rho tmp yes dr dt dy, even rho dr -> even tmp dt -> even yes dy -> TOL < dr -> 2 * TOL < dt -> TOL < dy ->
  forall tab, length tab = (length rho * length tmp * length yes)%nat -> forall m L lo hi, TOL < m * dt ->
  rising (ax_n rho) (ax_n tmp) (ax_n yes) tab dt m L -> 0 < lo -> Forall (fun v => lo <= v <= hi) tab -> L <= 50 * lo ->
  3 * TABLE_TOL <= ax_max tmp - 2 * TOL \/ ax_max tmp - 2 * TOL <= - TABLE_TOL ->
  forall e_shift u_shift RHO_unit U_unit, 0 < RHO_unit ->
  forall r u lmax k ye guess, 0 < r -> rd yes k = Some ye -> (k + 1 < ax_n yes)%Z ->
  EOS_SC_interp rho tmp yes (catch_rho rho (r * RHO_unit)) (ax_max tmp) ye tab = Some lmax -> (pow10 lmax - e_shift) * (r * RHO_unit) + u_shift <= u * U_unit ->
  exists n lT, (forall j, EOS_SC_fill rho tmp yes tab e_shift u_shift RHO_unit U_unit (n + j) r u ye guess = Stored (catch_rho rho (r * RHO_unit)) lT ye) /\
    near ((TOL + 2 * TABLE_TOL * (L + hi + 2)) / m) lT (ax_max tmp).
Proof. exact fill_hot. Qed.
Print Assumptions C109_hot.
(** Between two electron fractions it does not: the bounds of catch_var_2d come from the
    wrong entries (C82), and the state is cooled to the bottom of the table. *)
Theorem C109_inverse_refuted : exists rho tmp yes tab r T ye u lT n, even rho 1 /\ even tmp 1 /\ even yes 1 /\
  length tab = (length rho * length tmp * length yes)%nat /\ rising (ax_n rho) (ax_n tmp) (ax_n yes) tab 1 1 1 /\ Forall (fun v => 10 <= v <= 31) tab /\
  3 * TABLE_TOL <= ax_max tmp - 2 * TOL /\ pow10 (ax_min tmp) <= T < pow10 (ax_max tmp) /\ ax_min yes <= ye < ax_max yes /\
  EOS_SC_get_u_of_T rho tmp yes tab 0 0 1 (r * 1) T ye = Some u /\
  (forall j, EOS_SC_fill rho tmp yes tab 0 0 1 1 (n + j) r u ye (log10 T) = Stored (catch_rho rho (r * 1)) lT ye) /\ lT < log10 T - 1 / 2.
Proof.
  destruct fill_refuted as (n & x & u & A & B & C). exists [0; 1], [0; 1], [0; 1; 2], plane, 1, (pow10 (9 / 10)), (1 / 2), u, x, n.
  destruct ax01 as (AM & AX).
  split; [exact even01|]. split; [exact even01|]. split; [exact even012|]. split; [reflexivity|]. split; [exact plane_rising|]. split; [exact plane_bounds|].
  split; [exact top01|]. rewrite AM, AX. split; [split; [apply pow10_le|apply pow10_lt]; lra|]. split; [cbv [ax_min ax_max nth length Nat.sub]; lra|].
  split; [exact A|]. rewrite log10_pow10. split; [|lra]. intros j. rewrite B. f_equal.
  rewrite Rmult_1_r, catch_rho_inside; [unfold log10; rewrite ln_1; unfold Rdiv; ring|]. rewrite AM, AX, pow10_0, pow10_1. lra.
Qed.
Print Assumptions C109_inverse_refuted.
Example C109_nonvacuous : even [0; 1] 1 /\ even [0; 1; 2] 1 /\ rising (ax_n [0; 1]) (ax_n [0; 1]) (ax_n [0; 1; 2]) plane 1 1 1 /\ Forall (fun v => 10 <= v <= 31) plane /\
  3 * TABLE_TOL <= ax_max [0; 1] - 2 * TOL /\ rd [0; 1; 2] 1 = Some 1 /\ (1 + 1 < ax_n [0; 1; 2]%R)%Z.
Proof. exact (conj even01 (conj even012 (conj plane_rising (conj plane_bounds (conj top01 (conj eq_refl eq_refl)))))). Qed.

(** C110.  EOS_SC_get_minu of a density in cgs is the least energy over all temperatures, *)
Theorem C110_least : forall rho tmp yes dr dt dy, even rho dr -> even tmp dt -> even yes dy -> TOL < dr -> 2 * TOL < dt -> TOL < dy ->
  forall tab, length tab = (length rho * length tmp * length yes)%nat -> forall m L, TOL < m * dt ->
  rising (ax_n rho) (ax_n tmp) (ax_n yes) tab dt m L -> forall e_shift u_shift U_unit, 0 < U_unit -> forall r T ye, 0 < r ->
  exists a b, EOS_SC_get_minu rho tmp yes tab e_shift u_shift U_unit r ye = Some a /\
    EOS_SC_get_u_of_T rho tmp yes tab e_shift u_shift U_unit r T ye = Some b /\ a <= b /\ (T = pow10 (ax_min tmp) -> a = b).
Proof. exact minu_least. Qed.
Print Assumptions C110_least.
(** so the floors set a density inside the table and an energy the table allows there. *)
Theorem C110_floor : forall rho tmp yes dr dt dy, even rho dr -> even tmp dt -> even yes dy -> TOL < dr -> 2 * TOL < dt -> TOL < dy ->
  forall tab, length tab = (length rho * length tmp * length yes)%nat -> forall m L, TOL < m * dt ->
  rising (ax_n rho) (ax_n tmp) (ax_n yes) tab dt m L -> forall e_shift u_shift RHO_unit U_unit, 0 < RHO_unit -> 0 < U_unit ->
  forall RHOMIN RHOMINLIMIT BSQORHOMAX BSQOUMAX scale bsq ye,
  let r := EOS_SC_rho_floor rho RHO_unit RHOMIN RHOMINLIMIT BSQORHOMAX scale bsq * RHO_unit in
  pow10 (ax_min rho) < r /\ exists a uf, EOS_SC_get_u_of_T rho tmp yes tab e_shift u_shift U_unit r (pow10 (ax_min tmp)) ye = Some a /\
    EOS_SC_u_floor rho tmp yes tab e_shift u_shift RHO_unit U_unit RHOMIN RHOMINLIMIT BSQORHOMAX BSQOUMAX scale bsq ye = Some uf /\ a <= uf /\ bsq / BSQOUMAX <= Rabs uf.
Proof. exact floor_least. Qed.
Print Assumptions C110_floor.
(** The cold floor of fixup.c:225 (and eos.c:289) passes a density in code units: what it
    sets is below the least energy, by the factor RHO_unit. *)
Theorem C110_cold_refuted : exists rho tmp yes tab r RHO_unit ye c a, even rho 1 /\ even tmp 1 /\ even yes 1 /\
  rising (ax_n rho) (ax_n tmp) (ax_n yes) tab 1 1 1 /\ 0 < r /\ pow10 (ax_min rho) <= r * RHO_unit < pow10 (ax_max rho) /\
  cold_u rho tmp yes tab 0 0 1 r ye = Some c /\ EOS_SC_get_minu rho tmp yes tab 0 0 1 (r * RHO_unit) ye = Some a /\ c = a / RHO_unit /\ c < a / 2.
Proof.
  destruct cold_refuted as (r & RU & c & a & A1 & A2 & A3 & A4 & A5 & A6 & A7 & A8). exists [0; 1], [0; 1], [0; 1; 2], plane, r, RU, 0, c, a.
  split; [exact even01|]. split; [exact even01|]. split; [exact even012|]. split; [exact plane_rising|]. split; [exact A1|]. split; [exact A3|].
  split; [exact A4|]. split; [exact A5|]. split; [exact A7|]. subst RU. lra.
Qed.
Print Assumptions C110_cold_refuted.
(** The squared sound speed of the table is between 0 and 1, and the adiabatic index
    between 11/10 and 2; *)
Theorem C110_sound : forall rho P hm1 dpdrhoe dpderho shift, 0 < cs2_entry rho P hm1 dpdrhoe dpderho shift < 1.
Proof. exact cs2_range. Qed.
Print Assumptions C110_sound.
Theorem C110_index : forall rho tmp yes dr dt dy, even rho dr -> even tmp dt -> even yes dy -> TOL < dr -> TOL < dt -> TOL < dy ->
  forall cs2 lP, length cs2 = (length rho * length tmp * length yes)%nat -> length lP = (length rho * length tmp * length yes)%nat ->
  forall lrho lT ye, ax_min rho <= lrho < ax_max rho -> exists g, EOS_SC_gamma rho tmp yes cs2 lP lrho lT ye = Some g /\ 11 / 10 <= g <= 2.
Proof. exact gamma_range. Qed.
Print Assumptions C110_index.
(** but the sound speed is in units of that of light and the pressure in cgs: the index is
    11/10 wherever the pressure is above that of the highest density times 1 cm^2/s^2, *)
Theorem C110_index_stuck : forall rho tmp yes dr dt dy, even rho dr -> even tmp dt -> even yes dy -> TOL < dr -> TOL < dt -> TOL < dy ->
  forall cs2 lP, length cs2 = (length rho * length tmp * length yes)%nat -> length lP = (length rho * length tmp * length yes)%nat ->
  forall lrho lT ye, ax_min rho <= lrho < ax_max rho -> ax_min tmp <= lT < ax_max tmp -> ax_min yes <= ye < ax_max yes ->
  Forall (fun v => 0 <= v <= 1) cs2 -> (exists b, Forall (fun v => ax_max rho <= v <= b) lP) ->
  EOS_SC_gamma rho tmp yes cs2 lP lrho lT ye = Some (11 / 10).
Proof. exact gamma_stuck. Qed.
Print Assumptions C110_index_stuck.
(** for a gas of index 5/3 too. *)
Theorem C110_index_refuted : exists e P hm1 dpdrhoe dpderho cs2,
  0 < e /\ P = 2 / 3 * 1 * e /\ hm1 = e + P / 1 /\ dpdrhoe = 2 / 3 * e /\ dpderho = 2 / 3 * 1 /\
  cs2 = cs2_entry 1 P hm1 dpdrhoe dpderho 0 /\ 1 * (cs2 * (hm1 + CL * CL)) / P = 5 / 3 /\
  EOS_SC_gamma [0; 1] [0; 1] [0; 1] (repeat cs2 8) (repeat (log10 P) 8) 0 0 0 = Some (11 / 10).
Proof. exact gamma_refuted. Qed.
Print Assumptions C110_index_refuted.
Example C110_nonvacuous : even [0; 1] 1 /\ 2 * TOL < 1 /\ TOL < 1 * 1 /\ exists u, EOS_SC_get_u_of_T [0; 1] [0; 1] [0; 1; 2] plane 0 0 1 (1 * 1) (pow10 (9 / 10)) (1 / 2) = Some u.
Proof.
  split; [exact even01|]. pose proof TOL_small. split; [lra|]. split; [lra|]. destruct fill_refuted as (_ & _ & u & A & _). exists u. exact A.
Qed.
