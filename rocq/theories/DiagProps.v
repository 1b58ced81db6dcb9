(** Property theorems C117 (accretion rates, luminosity and totals of the log). *)
From Coq Require Import Reals Bool ZArith List Lia Lra.
From Verif Require Import RLib XLib BinModel DiagModel DiagSpec DiagProofs DiagMore.
Open Scope R_scope.

(** C117.  Whatever the decomposition into processes, the rates written are the fluxes of
    mass and energy through the inner edge of the grid and through face 5, each face being
    counted once, *)
Theorem C117_rates : forall g frho fuu, (0 < c1 g)%nat -> (0 < n1 g)%nat ->
  mdot_all g frho NG = through g frho 0 /\ mdot_all g frho (NG + 5) = through g frho 5 /\
  edot_all g frho fuu NG = through g (fun i j k => fuu i j k - frho i j k) 0 /\ edot_all g frho fuu (NG + 5) = through g (fun i j k => fuu i j k - frho i j k) 5.
Proof. exact fluxes. Qed.
Print Assumptions C117_rates.
(** and the mass and the energy are the sums over all zones. *)
Theorem C117_totals : forall g u, total_of g u = everywhere g (fun i j k => u i j k * dx1 g * dx2 g * dx3 g).
Proof. exact DiagMore.totals. Qed.
Print Assumptions C117_totals.
(** In a step the mass written changes by the rate written and by what leaves at the outer
    edge, if nothing passes the poles and the azimuth is periodic. *)
Theorem C117_balance : forall g dt u f1 f2 f3, (0 < c1 g)%nat -> (0 < n1 g)%nat -> dx1 g <> 0 -> dx2 g <> 0 -> dx3 g <> 0 ->
  (forall i k, f2 i 0%Z k = f2 i (Z.of_nat (tot2 g)) k) -> (forall i j, f3 i j 0%Z = f3 i j (Z.of_nat (tot3 g))) ->
  total_of g (stepped g dt u f1 f2 f3) = total_of g u + dt * (mdot_all g f1 NG - through g f1 (Z.of_nat (tot1 g))).
Proof. exact balance. Qed.
Print Assumptions C117_balance.
(** The divergence of the magnetic field written is the greatest over all zones. *)
Theorem C117_divb : forall g divb,
  (forall i j k, (0 <= i < Z.of_nat (c1 g * n1 g))%Z -> (0 <= j < Z.of_nat (c2 g * n2 g))%Z -> (0 <= k < Z.of_nat (c3 g * n3 g))%Z -> divb i j k <= divbmax g divb) /\
  (divbmax g divb = 0 \/ exists i j k, (0 <= i < Z.of_nat (c1 g * n1 g))%Z /\ (0 <= j < Z.of_nat (c2 g * n2 g))%Z /\ (0 <= k < Z.of_nat (c3 g * n3 g))%Z /\ divbmax g divb = divb i j k).
Proof. exact divb_ok. Qed.
Print Assumptions C117_divb.
(** The magnetic flux through shell 5 is written if the innermost processes have it; *)
Theorem C117_flux_partial : forall g b1 gdet, (0 < c1 g)%nat -> (5 < n1 g)%nat -> Phi g b1 gdet = through g (fun i j k => 1 / 2 * Rabs (b1 i j k) * gdet i j k) 5.
Proof. exact flux_Phi. Qed.
Print Assumptions C117_flux_partial.
(** with five zones or less on a process it is zero. *)
Theorem C117_flux_refuted : exists g b1 gdet, (5 < tot1 g)%nat /\ Phi g b1 gdet = 0 /\ 0 < through g (fun i j k => 1 / 2 * Rabs (b1 i j k) * gdet i j k) 5.
Proof. exact Phi_refuted. Qed.
Print Assumptions C117_flux_refuted.
(** phi is the magnetic flux over the root of the rate for matter flowing out, *)
Theorem C117_phi_partial : forall g b1 gdet frho, 0 < mdot_all g frho NG + SMALL ->
  exists v, phi g b1 gdet frho = Fin v /\ v * sqrt (mdot_all g frho NG + SMALL) = Phi g b1 gdet.
Proof. exact phi_ok. Qed.
Print Assumptions C117_phi_partial.
(** and not a number whenever matter flows in. *)
Theorem C117_phi_inflow : forall g b1 gdet frho, (0 < c1 g)%nat -> (0 < n1 g)%nat -> through g frho 0 < - SMALL -> phi g b1 gdet frho = NaN.
Proof. exact DiagMore.phi_refuted. Qed.
Print Assumptions C117_phi_inflow.
Theorem C117_phi_refuted : exists g b1 gdet frho, (0 < c1 g)%nat /\ (5 < n1 g)%nat /\ (forall i j k, frho i j k < 0) /\ 0 < Phi g b1 gdet /\ phi g b1 gdet frho = NaN.
Proof. exact phi_refuted_ex. Qed.
Print Assumptions C117_phi_refuted.
(** With one process in direction 1 the luminosity is that through the last shell inside
    the edge of the radiation, if that edge cuts a zone or is at or beyond the edge of the grid. *)
Theorem C117_luminosity_partial : forall g stop r10 gdet s, c1 g = 1%nat -> (0 < n1 g)%nat -> 0 < dx1 g -> (0 <= s < Z.of_nat (n1 g))%Z ->
  (startx1 g + IZR (s + 1) * dx1 g < stop < startx1 g + IZR (s + 2) * dx1 g \/ s = (Z.of_nat (n1 g) - 1)%Z /\ startx1 g + IZR (s + 1) * dx1 g <= stop) ->
  lum g stop r10 gdet = - through g (fun i j k => r10 i j k * gdet i j k) s.
Proof. exact lum1_ok. Qed.
Print Assumptions C117_luminosity_partial.
(** With more the luminosity is counted once for each process, *)
Theorem C117_luminosity_processes : forall g stop r10 gdet L, (0 < n1 g)%nat -> 0 < dx1 g -> startx1 g + INR (tot1 g) * dx1 g <= stop ->
  (forall s, - through g (fun i j k => r10 i j k * gdet i j k) s = L) -> lum g stop r10 gdet = INR (c1 g) * L.
Proof. exact lum_steady'. Qed.
Print Assumptions C117_luminosity_processes.
Theorem C117_luminosity_refuted : exists g stop r10 gdet L, (0 < n1 g)%nat /\ 0 < dx1 g /\ startx1 g + INR (tot1 g) * dx1 g <= stop /\
  (forall s, - through g (fun i j k => r10 i j k * gdet i j k) s = L) /\ lum g stop r10 gdet = 2 * L /\ 0 < L.
Proof. exact lum_refuted. Qed.
Print Assumptions C117_luminosity_refuted.
(** and with the edge of the radiation on a face it is that of the edge of the grid. *)
Theorem C117_face_refuted : exists g stop r10 gdet s, c1 g = 1%nat /\ 0 < dx1 g /\ (0 <= s)%Z /\ (s + 1 < Z.of_nat (n1 g))%Z /\ stop = startx1 g + IZR (s + 1) * dx1 g /\
  lum g stop r10 gdet = 0 /\ 0 < - through g (fun i j k => r10 i j k * gdet i j k) s.
Proof. exact face_refuted. Qed.
Print Assumptions C117_face_refuted.
(** The efficiency is luminosity over rate if directions 2 and 3 are on one process; *)
Theorem C117_efficiency_partial : forall g stop r10 gdet frho, c2 g = 1%nat -> c3 g = 1%nat -> (0 < c1 g)%nat -> (0 < n1 g)%nat ->
  eff g stop r10 gdet frho = (Fin (lum g stop r10 gdet) / Fin (mdot_all g frho NG + SMALL))%X.
Proof. exact eff_ok. Qed.
Print Assumptions C117_efficiency_partial.
(** otherwise the rate of process 0 alone is taken, and it can exceed one where less is
    radiated than flows in. *)
Theorem C117_efficiency_refuted : exists g stop r10 gdet frho e, (0 < c1 g)%nat /\ (0 < n1 g)%nat /\ 0 < mdot_all g frho NG /\ 0 < lum g stop r10 gdet /\
  eff g stop r10 gdet frho = Fin e /\ 1 < e /\ lum g stop r10 gdet < mdot_all g frho NG.
Proof. exact eff_refuted. Qed.
Print Assumptions C117_efficiency_refuted.
(** A grid of six zones on one process with a cut zone. *)
Example C117_nonvacuous : let g := Grid 6 1 1 1 1 1 0 1 1 1 in
  startx1 g + IZR (3 + 1) * dx1 g < 9 / 2 < startx1 g + IZR (3 + 2) * dx1 g /\ lum g (9 / 2) (fun i _ _ => - IZR i) (fun _ _ _ => 1) = 3 /\
  mdot_all g (fun i _ _ => IZR i + 1) NG = 1 /\ Phi g (fun _ _ _ => -2) (fun _ _ _ => 1) = 1.
Proof. exact diag_example. Qed.
