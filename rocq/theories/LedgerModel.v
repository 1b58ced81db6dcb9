(** Electron lepton number between gas and neutrinos in one step: core/make_superphotons.c:242-260, core/interact.c:493-530,
    581-683, core/rad_utils.c:749-760, core/push_superphotons.c:115-124, core/bounds.c:387-397, core/step.c:231-280,
    core/utop.c:181-187, core/diag.c:502-545. *)
From Coq Require Import Reals ZArith List.
From Verif Require Import TallyModel.
Import ListNotations.
Open Scope R_scope.

(** A neutrino packet: weight and type *)
Record nu_packet := mkn { nw : R; ntype : Z }.
(** get_lepton_sign, rad_utils.c:754-760 *)
Definition get_lepton_sign (p : nu_packet) : R := if Z.eqb (ntype p) 0 then 1 else if Z.eqb (ntype p) 1 then -1 else 0.
(** The list of packets, radG[..][RADG_YE] and lepton_lost_local *)
Record state := mks { packets : list nu_packet; radG_ye : zone -> R; lost_local : R }.
(** What can happen to a packet in a step, in any order: it is made in zone z, absorbed in zone z, scattered with a bias, or it leaves
    the list by a call of record_lepton_flux.  Failed scattering (scatter_superphoton or the push of the new packet fails) takes the
    weight of the new packet from the old one and frees the new one. *)
Inductive event :=
  | Emit (z : zone) (p : nu_packet)
  | Absorb (n : nat) (z : zone)
  | Scatter (n : nat) (bias : R)
  | ScatterFails (n : nat) (bias : R)
  | Leave (n : nat).
Definition set_nth (n : nat) (p : nu_packet) (l : list nu_packet) : list nu_packet := firstn n l ++ p :: skipn (S n) l.
Definition weight (w : R) (p : nu_packet) : nu_packet := mkn w (ntype p).
Section Step.
(** dt, d3x = dx1 dx2 dx3, MP and M_unit; u^t as emission computes it from the half-step state (make_superphotons.c:244-247) and as
    interact takes it from Ucon_grd, computed from the state at the beginning of the step (step.c:66, rad_utils.c:293) *)
Variables (dt d3x MP M_unit : R) (ut_half ut_grd : zone -> R).
(** None: no such packet *)
Definition happen (s : state) (e : event) : option state :=
  match e with
  | Emit z p => Some (mks (p :: packets s)
      (upd z (radG_ye s z - 1 / (dt * d3x) * ut_half z * nw p * (MP / M_unit) * get_lepton_sign p) (radG_ye s)) (lost_local s))
  | Absorb n z => match nth_error (packets s) n with None => None | Some p =>
      Some (mks (set_nth n (weight 0 p) (packets s))
        (upd z (radG_ye s z + 1 / (dt * d3x) * ut_grd z * nw p * (MP / M_unit) * get_lepton_sign p) (radG_ye s)) (lost_local s)) end
  | Scatter n bias => match nth_error (packets s) n with None => None | Some p =>
      Some (mks (firstn n (packets s) ++ weight ((1 - 1 / bias) * nw p) p :: weight (nw p / bias) p :: skipn (S n) (packets s))
        (radG_ye s) (lost_local s)) end
  | ScatterFails n bias => match nth_error (packets s) n with None => None | Some p =>
      Some (mks (set_nth n (weight ((1 - 1 / bias) * nw p) p) (packets s)) (radG_ye s) (lost_local s)) end
  | Leave n => match nth_error (packets s) n with None => None | Some p =>
      Some (mks (firstn n (packets s) ++ skipn (S n) (packets s)) (radG_ye s) (lost_local s + nw p * get_lepton_sign p)) end
  end.
Fixpoint happens (s : state) (es : list event) : option state :=
  match es with [] => Some s | e :: es => match happen s e with None => None | Some s' => happens s' es end end.
(** The gas in a zone: density, u^t, Y_e and the zone's determinant *)
Record gas := mkg { rho : R; ut : R; Ye : R; g : R }.
(** apply_rad_force on U[RHO] and U[YE] (primtoflux, step.c:246-262) and the recovery of Y_e by Utoprim (utop.c:186); the recovered
    density and u^t are given.  The floors and the repair of Y_e that follow are not part of this. *)
Definition apply_rad_force (f : zone -> gas) (rho' ut' : zone -> R) (radG : zone -> R) (z : zone) : gas :=
  let q := f z in
  let U_RHO := rho q * ut q * g q in
  let U_YE := rho q * ut q * Ye q * g q + dt * radG z in
  mkg (rho' z) (ut' z) (U_YE / U_RHO) (g q).
(** count_leptons: RHO_unit, L_unit; lepton_gas over the zones, lepton_rad over the packets, lepton_lost *)
Definition lepton_cell (RHO_unit L_unit : R) (q : gas) : R :=
  let nb_cell := ut q * rho q * RHO_unit / MP in
  let n_cell := nb_cell * Ye q in
  n_cell * (d3x * L_unit ^ 3 * g q).
Definition lepton_gas (RHO_unit L_unit : R) (zs : list zone) (f : zone -> gas) : R := fold_right (fun z a => lepton_cell RHO_unit L_unit (f z) + a) 0 zs.
Definition lepton_rad (l : list nu_packet) : R := fold_right (fun p a => (if Z.eqb (ntype p) TYPE_TRACER then 0 else nw p * get_lepton_sign p) + a) 0 l.
Definition lepton_tot (RHO_unit L_unit : R) (zs : list zone) (f : zone -> gas) (l : list nu_packet) (lepton_lost : R) : R :=
  lepton_rad l + lepton_gas RHO_unit L_unit zs f + lepton_lost.
End Step.
