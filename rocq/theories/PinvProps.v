(** C111: pressure from enthalpy, energy from pressure, in the tabulated equation of state. *)
From Coq Require Import Reals Lra Lia Bool ZArith List.
From Verif Require Import RLib XLib IntLib TabModel TabSpec TabProofs RootModel InvModel InvSpec InvProofs InvFill InvWit PinvModel PinvProofs PinvMain PinvWit PinvEnds.
Import ListNotations.
Open Scope R_scope.

(** C111.  The logs of the enthalpy tables are logs of positive numbers, whatever the signs
    of the enthalpies: the shift makes the least one positive. *)
Theorem C111_shift : forall rho tmp yes dr dt dy, even rho dr -> even tmp dt -> even yes dy ->
  forall le lP e_shift u_shift, length le = (length rho * length tmp * length yes)%nat -> length lP = (length rho * length tmp * length yes)%nat -> forall e, (e < length le)%nat ->
  let r := pow10 (nth (e mod length rho) rho 0) in
  let w := (pow10 (nth e le 0) - e_shift) * r + u_shift + pow10 (nth e lP 0) in
  exists lw, nth_error (tab_lwmrho rho le lP e_shift u_shift) e = Some lw /\ 0 < w + w_shift rho le lP e_shift u_shift /\
    pow10 lw = w + w_shift rho le lP e_shift u_shift.
Proof. intros rho tmp yes dr dt dy E1 E2 E3 le lP es us S S2 e H r w. exact (logs_w rho tmp yes dr dt dy E1 E2 E3 le lP es us S S2 e H). Qed.
Print Assumptions C111_shift.
(** Every density, enthalpy, electron fraction and guess is given a positive pressure. *)
Theorem C111_total : forall rho tmp yes dr dt dy, even rho dr -> even tmp dt -> even yes dy -> TOL < dr -> 2 * TOL < dt -> TOL < dy ->
  forall le lP e_shift u_shift RHO_unit U_unit, length le = (length rho * length tmp * length yes)%nat -> length lP = (length rho * length tmp * length yes)%nat ->
  0 < U_unit -> 3 * TABLE_TOL <= ax_max tmp - 2 * TOL \/ ax_max tmp - 2 * TOL <= - TABLE_TOL ->
  forall m L lo hi, TOL < m * dt -> rising (ax_n rho) (ax_n tmp) (ax_n yes) (tab_lwmrho rho le lP e_shift u_shift) dt m L ->
  0 < lo -> Forall (fun v => lo <= v <= hi) (tab_lwmrho rho le lP e_shift u_shift) -> L <= 50 * lo ->
  forall r w ye guess, exists n p lT,
  (forall j, EOS_SC_pressure_rho0_w rho tmp yes le lP e_shift u_shift RHO_unit U_unit (n + j)%nat r w ye guess = Got p lT) /\ 0 < p.
Proof. exact press_total. Qed.
Print Assumptions C111_total.
(** At a point of the table, the pressure found from the enthalpy rho + u + P is P, up to
    the tolerances of the search. *)
Theorem C111_pressure : forall rho tmp yes dr dt dy, even rho dr -> even tmp dt -> even yes dy -> TOL < dr -> 2 * TOL < dt -> TOL < dy ->
  forall le lP e_shift u_shift RHO_unit U_unit, length le = (length rho * length tmp * length yes)%nat -> length lP = (length rho * length tmp * length yes)%nat ->
  0 < U_unit -> 3 * TABLE_TOL <= ax_max tmp - 2 * TOL \/ ax_max tmp - 2 * TOL <= - TABLE_TOL ->
  forall m L lo hi, TOL < m * dt -> rising (ax_n rho) (ax_n tmp) (ax_n yes) (tab_lwmrho rho le lP e_shift u_shift) dt m L ->
  0 < lo -> Forall (fun v => lo <= v <= hi) (tab_lwmrho rho le lP e_shift u_shift) -> L <= 50 * lo ->
  forall mP LP, 0 < mP -> rising (ax_n rho) (ax_n tmp) (ax_n yes) lP dt mP LP ->
  forall r i j k lr lt y guess, rd rho i = Some lr -> rd tmp j = Some lt -> rd yes k = Some y ->
  (i + 1 < ax_n rho)%Z -> (j + 1 < ax_n tmp)%Z -> (k + 1 < ax_n yes)%Z -> r * RHO_unit = pow10 lr ->
  exists u P n p lT, EOS_SC_get_u_of_T rho tmp yes le e_shift u_shift U_unit (r * RHO_unit) (pow10 lt) y = Some u /\
    EOS_SC_pressure_rho0_u rho tmp yes lP U_unit lr lt y = Some P /\
    (forall f, EOS_SC_pressure_rho0_w rho tmp yes le lP e_shift u_shift RHO_unit U_unit (n + f)%nat r (r + u + P) y guess = Got p lT) /\
    near ((TOL + 2 * TABLE_TOL * (L + hi + 2)) / m) lT lt /\ near (LP * ((TOL + 2 * TABLE_TOL * (L + hi + 2)) / m)) (log10 p) (log10 P).
Proof. exact press_node. Qed.
Print Assumptions C111_pressure.
(** Between two temperatures it is not, for the interpolated enthalpy is not the sum of the
    interpolated energy and pressure: here it comes out less than a quarter. *)
Theorem C111_pressure_refuted : exists le lP r lT0 u P n p lT, rising (ax_n [0; 1]) (ax_n [0; 1]) (ax_n [0; 1]) (tab_lwmrho [0; 1] le lP 0 0) 1 2 2 /\
  Forall (fun v => 2 <= v <= 5) (tab_lwmrho [0; 1] le lP 0 0) /\ rising (ax_n [0; 1]) (ax_n [0; 1]) (ax_n [0; 1]) lP 1 3 4 /\
  0 <= lT0 < 1 /\ EOS_SC_get_u_of_T [0; 1] [0; 1] [0; 1] le 0 0 1 (r * 1) (pow10 lT0) 0 = Some u /\
  EOS_SC_pressure_rho0_u [0; 1] [0; 1] [0; 1] lP 1 (log10 r) lT0 0 = Some P /\
  (forall f, EOS_SC_pressure_rho0_w [0; 1] [0; 1] [0; 1] le lP 0 0 1 1 (n + f) r (r + u + P) 0 lT0 = Got p lT) /\ lT < lT0 - 1 / 6 /\ p < P / 4.
Proof.
  destruct press_between as (u & P & n & p & lT & A & B & C & D & E). exists dle, dlP, 1, (1 / 2), u, P, n, p, lT.
  rewrite dlw_val. split; [apply cube_rising; lra|]. split; [exact dlw_bounds|]. pose proof l9900_b. split; [apply cube_rising; lra|]. split; [lra|].
  split; [exact A|]. replace (log10 1) with 0 by (unfold log10; rewrite ln_1; unfold Rdiv; ring). split; [exact B|]. split; [exact C|]. split; [lra|exact E].
Qed.
Print Assumptions C111_pressure_refuted.
(** EOS_SC_u_press at an electron fraction of the table: always a value; and the energy of
    the temperature the pressure belongs to, up to the tolerances. *)
Theorem C111_energy_total : forall rho tmp yes dr dt dy, even rho dr -> even tmp dt -> even yes dy -> TOL < dr -> 2 * TOL < dt -> TOL < dy ->
  forall le lP e_shift u_shift RHO_unit U_unit, length le = (length rho * length tmp * length yes)%nat -> length lP = (length rho * length tmp * length yes)%nat ->
  3 * TABLE_TOL <= ax_max tmp - 2 * TOL \/ ax_max tmp - 2 * TOL <= - TABLE_TOL ->
  forall m L lo hi, TOL < m * dt -> rising (ax_n rho) (ax_n tmp) (ax_n yes) lP dt m L -> 0 < lo -> Forall (fun v => lo <= v <= hi) lP -> L <= 50 * lo ->
  forall press r k y guess, rd yes k = Some y -> (k + 1 < ax_n yes)%Z -> exists n u lT,
  forall j, EOS_SC_u_press rho tmp yes le lP e_shift u_shift RHO_unit U_unit (n + j)%nat press r y guess = Got u lT.
Proof. exact u_total. Qed.
Print Assumptions C111_energy_total.
Theorem C111_energy : forall rho tmp yes dr dt dy, even rho dr -> even tmp dt -> even yes dy -> TOL < dr -> 2 * TOL < dt -> TOL < dy ->
  forall le lP e_shift u_shift RHO_unit U_unit, length le = (length rho * length tmp * length yes)%nat -> length lP = (length rho * length tmp * length yes)%nat ->
  0 < RHO_unit -> 0 < U_unit -> 3 * TABLE_TOL <= ax_max tmp - 2 * TOL \/ ax_max tmp - 2 * TOL <= - TABLE_TOL ->
  forall m L lo hi, TOL < m * dt -> rising (ax_n rho) (ax_n tmp) (ax_n yes) lP dt m L -> 0 < lo -> Forall (fun v => lo <= v <= hi) lP -> L <= 50 * lo ->
  forall mE LE, 0 < mE -> rising (ax_n rho) (ax_n tmp) (ax_n yes) le dt mE LE ->
  forall r lT0 k y guess, 0 < r -> rd yes k = Some y -> (k + 1 < ax_n yes)%Z -> ax_min tmp <= lT0 < ax_max tmp ->
  exists P u0 n u lT, EOS_SC_pressure_rho0_u rho tmp yes lP U_unit (catch_rho rho (r * RHO_unit)) lT0 y = Some P /\
    EOS_SC_get_u_of_T rho tmp yes le e_shift u_shift U_unit (r * RHO_unit) (pow10 lT0) y = Some u0 /\
    (forall j, EOS_SC_u_press rho tmp yes le lP e_shift u_shift RHO_unit U_unit (n + j)%nat P r y guess = Got u lT) /\
    near ((TOL + 2 * TABLE_TOL * (L + hi + 2)) / m) lT lT0 /\
    near (LE * ((TOL + 2 * TABLE_TOL * (L + hi + 2)) / m)) (log10 ((u * U_unit - u_shift) / (r * RHO_unit) + e_shift)) (log10 ((u0 * U_unit - u_shift) / (r * RHO_unit) + e_shift)).
Proof. exact u_near. Qed.
Print Assumptions C111_energy.
(** Between two electron fractions it does not: the temperature found is three decades
    below the table, the energy a ten-thousandth. *)
Theorem C111_energy_refuted : exists rho tmp yes tab r lT0 ye P u0 u lT, even rho 1 /\ even tmp 1 /\ even yes 1 /\ rising (ax_n rho) (ax_n tmp) (ax_n yes) tab 1 1 1 /\
  Forall (fun v => 10 <= v <= 31) tab /\ ax_min tmp <= lT0 < ax_max tmp /\ ax_min yes <= ye < ax_max yes /\
  EOS_SC_pressure_rho0_u rho tmp yes tab 1 (catch_rho rho (r * 1)) lT0 ye = Some P /\
  EOS_SC_get_u_of_T rho tmp yes tab 0 0 1 (r * 1) (pow10 lT0) ye = Some u0 /\
  (forall j, EOS_SC_u_press rho tmp yes tab tab 0 0 1 1 j P r ye lT0 = Got u lT) /\ lT < ax_min tmp - 3 /\ u < u0 / 10000.
Proof.
  destruct u_press_outside as (P & u0 & u & lT & A & B & C & D & E). destruct ax01 as (AM & AX).
  exists [0; 1], [0; 1], [0; 1; 2], plane, 1, (9 / 10), (1 / 2), P, u0, u, lT.
  split; [exact even01|]. split; [exact even01|]. split; [exact even012|]. split; [exact plane_rising|]. split; [exact plane_bounds|].
  rewrite AM, AX. split; [lra|]. split; [cbv [ax_min ax_max nth length Nat.sub]; lra|]. rewrite Rmult_1_r at 1. split.
  - rewrite catch_rho_inside; [replace (log10 1) with 0 by (unfold log10; rewrite ln_1; unfold Rdiv; ring); exact A|]. rewrite AM, AX, pow10_0, pow10_1. lra.
  - split; [exact B|]. split; [exact C|]. split; [lra|exact E].
Qed.
Print Assumptions C111_energy_refuted.
(** An enthalpy at most that of the coldest gas of the column gives the pressure of the least
    temperature; one at least that of the hottest gives that of the greatest. *)
Theorem C111_cold : forall rho tmp yes dr dt dy, even rho dr -> even tmp dt -> even yes dy -> TOL < dr -> 2 * TOL < dt -> TOL < dy ->
  3 * TABLE_TOL <= ax_max tmp - 2 * TOL \/ ax_max tmp - 2 * TOL <= - TABLE_TOL ->
  forall le lP e_shift u_shift RHO_unit U_unit, length le = (length rho * length tmp * length yes)%nat -> length lP = (length rho * length tmp * length yes)%nat ->
  forall m L lo hi, TOL < m * dt -> rising (ax_n rho) (ax_n tmp) (ax_n yes) (tab_lwmrho rho le lP e_shift u_shift) dt m L ->
  0 < lo -> Forall (fun v => lo <= v <= hi) (tab_lwmrho rho le lP e_shift u_shift) -> L <= 50 * lo ->
  forall r w l k y guess, rd yes k = Some y -> (k + 1 < ax_n yes)%Z ->
  EOS_SC_interp rho tmp yes (catch_rho rho (r * RHO_unit)) (ax_min tmp) y (tab_lwmrho rho le lP e_shift u_shift) = Some l -> (w - r) * U_unit + w_shift rho le lP e_shift u_shift <= pow10 l ->
  exists n p lT, (forall j, EOS_SC_pressure_rho0_w rho tmp yes le lP e_shift u_shift RHO_unit U_unit (n + j)%nat r w y guess = Got p lT) /\
    near ((TOL + 2 * TABLE_TOL * (L + hi + 2)) / m) lT (ax_min tmp).
Proof. exact press_cold. Qed.
Print Assumptions C111_cold.
Theorem C111_hot : forall rho tmp yes dr dt dy, even rho dr -> even tmp dt -> even yes dy -> TOL < dr -> 2 * TOL < dt -> TOL < dy ->
  3 * TABLE_TOL <= ax_max tmp - 2 * TOL \/ ax_max tmp - 2 * TOL <= - TABLE_TOL ->
  forall le lP e_shift u_shift RHO_unit U_unit, length le = (length rho * length tmp * length yes)%nat -> length lP = (length rho * length tmp * length yes)%nat ->
  forall m L lo hi, TOL < m * dt -> rising (ax_n rho) (ax_n tmp) (ax_n yes) (tab_lwmrho rho le lP e_shift u_shift) dt m L ->
  0 < lo -> Forall (fun v => lo <= v <= hi) (tab_lwmrho rho le lP e_shift u_shift) -> L <= 50 * lo ->
  forall r w l k y guess, rd yes k = Some y -> (k + 1 < ax_n yes)%Z ->
  EOS_SC_interp rho tmp yes (catch_rho rho (r * RHO_unit)) (ax_max tmp) y (tab_lwmrho rho le lP e_shift u_shift) = Some l -> pow10 l <= (w - r) * U_unit + w_shift rho le lP e_shift u_shift ->
  exists n p lT, (forall j, EOS_SC_pressure_rho0_w rho tmp yes le lP e_shift u_shift RHO_unit U_unit (n + j)%nat r w y guess = Got p lT) /\
    near ((TOL + 2 * TABLE_TOL * (L + hi + 2)) / m) lT (ax_max tmp).
Proof. exact press_hot. Qed.
Print Assumptions C111_hot.
(** Likewise the energy from a pressure outside the column. *)
Theorem C111_energy_cold : forall rho tmp yes dr dt dy, even rho dr -> even tmp dt -> even yes dy -> TOL < dr -> 2 * TOL < dt -> TOL < dy ->
  3 * TABLE_TOL <= ax_max tmp - 2 * TOL \/ ax_max tmp - 2 * TOL <= - TABLE_TOL ->
  forall le lP e_shift u_shift RHO_unit U_unit, length le = (length rho * length tmp * length yes)%nat -> length lP = (length rho * length tmp * length yes)%nat ->
  forall m L lo hi, TOL < m * dt -> rising (ax_n rho) (ax_n tmp) (ax_n yes) lP dt m L ->
  0 < lo -> Forall (fun v => lo <= v <= hi) lP -> L <= 50 * lo ->
  forall press r l k y guess, rd yes k = Some y -> (k + 1 < ax_n yes)%Z ->
  EOS_SC_interp rho tmp yes (catch_rho rho (r * RHO_unit)) (ax_min tmp) y lP = Some l -> press * U_unit <= pow10 l ->
  exists n p lT, (forall j, EOS_SC_u_press rho tmp yes le lP e_shift u_shift RHO_unit U_unit (n + j)%nat press r y guess = Got p lT) /\
    near ((TOL + 2 * TABLE_TOL * (L + hi + 2)) / m) lT (ax_min tmp).
Proof. exact u_cold. Qed.
Print Assumptions C111_energy_cold.
Theorem C111_energy_hot : forall rho tmp yes dr dt dy, even rho dr -> even tmp dt -> even yes dy -> TOL < dr -> 2 * TOL < dt -> TOL < dy ->
  3 * TABLE_TOL <= ax_max tmp - 2 * TOL \/ ax_max tmp - 2 * TOL <= - TABLE_TOL ->
  forall le lP e_shift u_shift RHO_unit U_unit, length le = (length rho * length tmp * length yes)%nat -> length lP = (length rho * length tmp * length yes)%nat ->
  forall m L lo hi, TOL < m * dt -> rising (ax_n rho) (ax_n tmp) (ax_n yes) lP dt m L ->
  0 < lo -> Forall (fun v => lo <= v <= hi) lP -> L <= 50 * lo ->
  forall press r l k y guess, rd yes k = Some y -> (k + 1 < ax_n yes)%Z ->
  EOS_SC_interp rho tmp yes (catch_rho rho (r * RHO_unit)) (ax_max tmp) y lP = Some l -> pow10 l <= press * U_unit ->
  exists n p lT, (forall j, EOS_SC_u_press rho tmp yes le lP e_shift u_shift RHO_unit U_unit (n + j)%nat press r y guess = Got p lT) /\
    near ((TOL + 2 * TABLE_TOL * (L + hi + 2)) / m) lT (ax_max tmp).
Proof. exact u_hot. Qed.
Print Assumptions C111_energy_hot.
Example C111_nonvacuous : even [0; 1] 1 /\ rising (ax_n [0; 1]) (ax_n [0; 1]) (ax_n [0; 1]) (tab_lwmrho [0; 1] dle dlP 0 0) 1 2 2 /\
  Forall (fun v => 2 <= v <= 5) (tab_lwmrho [0; 1] dle dlP 0 0) /\ 3 * TABLE_TOL <= ax_max [0; 1] - 2 * TOL /\ rd [0; 1] 0 = Some 0 /\ (0 + 1 < ax_n [0; 1]%R)%Z /\ 1 * 1 = pow10 0 /\
  rising (ax_n [0; 1]) (ax_n [0; 1]) (ax_n [0; 1; 2]) plane 1 1 1.
Proof.
  split; [exact even01|]. rewrite dlw_val. split; [apply cube_rising; lra|]. split; [exact dlw_bounds|]. split; [exact top01|]. split; [reflexivity|]. split; [reflexivity|].
  split; [rewrite pow10_0; ring|exact plane_rising].
Qed.
