(** Property theorems on characteristic speeds and light crossing times. *)
From Coq Require Import Reals Bool List Lia Lra.
From Verif Require Import RLib FluxModel GeomModel GeomSpec NullProofs EosGModel FloorModel VchModel VchSpec VchProofs VchWit.
Import ListNotations.
Open Scope R_scope.

(** C92. For any state of an ideal gas with 1 < gam <= 2 on any space-time, whatever the sign of
    density and energy, no error is raised and the two speeds are exactly those of waves moving at
    the fast speed (floor 1e-20) relative to the fluid; the fluid moves at a speed between them. *)
Theorem C92_speeds : forall G al beta gam p q js, spacetime G al beta -> get_state G (fst (gcon_func G)) (lapse (fst (gcon_func G))) p = Some q ->
  1 < gam <= 2 -> 0 < Rabs (rho p + FluxModel.SMALL) -> (1 <= js < 4)%nat ->
  let r := Rabs (rho p + FluxModel.SMALL) in let e := Rabs (uu p + FluxModel.SMALL) in let P := (gam - 1) * e in
  let w := r + e + P in let bsq := inner G (b_con q) (b_con q) in
  let cs2 := gam * P / w in let va2 := bsq / (bsq + w + FluxModel.SMALL) in
  let c2 := Rmax FluxModel.SMALL (fast2 cs2 va2) in
  0 <= cs2 < 1 /\ 0 <= va2 < 1 /\ 0 < c2 <= 1 /\
  exists vmax vmin, mhd_vchar (fst (gcon_func G)) gam p q js = Speeds vmax vmin /\ vmin < vmax /\
  (forall v, wave (fst (gcon_func G)) (ucon q) c2 (front js v) <-> v = vmin \/ v = vmax) /\
  vmin * ucon q 0%nat < ucon q js < vmax * ucon q 0%nat.
Proof. exact fast_speeds. Qed.
Print Assumptions C92_speeds.
(** They do not exceed the speed of light in that direction. *)
Theorem C92_light : forall G al beta, spacetime G al beta -> forall gam p q, get_state G (fst (gcon_func G)) (lapse (fst (gcon_func G))) p = Some q ->
  1 < gam <= 2 -> 0 < Rabs (rho p + FluxModel.SMALL) -> forall js vmax vmin, (1 <= js < 4)%nat -> mhd_vchar (fst (gcon_func G)) gam p q js = Speeds vmax vmin ->
  Rabs vmax <= light_phase_speed (fst (gcon_func G)) js /\ Rabs vmin <= light_phase_speed (fst (gcon_func G)) js.
Proof. exact vchar_light. Qed.
Print Assumptions C92_light.
Example C92_nonvacuous : exists q, spacetime (drift 0) 1 (drift_beta 0) /\
  get_state (drift 0) (fst (gcon_func (drift 0))) (lapse (fst (gcon_func (drift 0)))) rest = Some q /\ 0 < Rabs (rho rest + FluxModel.SMALL) /\
  mhd_vchar (fst (gcon_func (drift 0))) 2 rest q 1 = Speeds (sqrt (2 / 3)) (- sqrt (2 / 3)).
Proof. destruct rest_speeds as (q & E & S). exists q. split; [exact (drift_st 0)|]. split; [exact E|]. split; [rewrite (proj1 rest_abs); lra|exact S]. Qed.

(** C93. The speed used for the light crossing time is the largest coordinate speed of light in
    that direction: nothing causal is faster, and some ray is as fast. *)
Theorem C93_bound : forall G al beta, spacetime G al beta -> forall mu, (1 <= mu < 4)%nat -> forall K, causal G K ->
  Rabs (K mu) <= light_phase_speed (fst (gcon_func G)) mu * K 0%nat.
Proof. exact light_bound. Qed.
Print Assumptions C93_bound.
Theorem C93_attained : forall G al beta, spacetime G al beta -> forall mu, (1 <= mu < 4)%nat ->
  exists K, lightlike G K /\ Rabs (K mu) = light_phase_speed (fst (gcon_func G)) mu * K 0%nat.
Proof. exact light_attained. Qed.
Print Assumptions C93_attained.
(** In the time dt_light of a zone nothing crosses more than a zone width in any direction (at the
    rate of its centre). *)
Theorem C93_zone : forall dx, (forall mu, (1 <= mu < 4)%nat -> 0 < dx mu) -> forall G al beta, spacetime G al beta -> forall K mu, causal G K -> (1 <= mu < 4)%nat ->
  Rabs (K mu) * dt_light dx (fst (gcon_func G)) <= dx mu * K 0%nat.
Proof. exact cross_zone. Qed.
Print Assumptions C93_zone.
(** A step of at most cour * dt_light_min meets the Courant condition in every zone for whatever is
    causal, and for the characteristic speeds of any fluid state there. *)
Theorem C93_step : forall dx, (forall mu, (1 <= mu < 4)%nat -> 0 < dx mu) -> forall cour zones G al beta dt K, 0 <= cour ->
  spacetime G al beta -> In (fst (gcon_func G)) zones -> 0 <= dt <= cour * dt_light_min dx zones -> causal G K ->
  (Rabs (K 1%nat) / dx 1%nat + Rabs (K 2%nat) / dx 2%nat + Rabs (K 3%nat) / dx 3%nat) * dt <= cour * K 0%nat.
Proof. exact all_zones. Qed.
Print Assumptions C93_step.
Theorem C93_fluid : forall dx, (forall mu, (1 <= mu < 4)%nat -> 0 < dx mu) -> forall cour zones G al beta dt gam p q v, 0 <= cour ->
  spacetime G al beta -> In (fst (gcon_func G)) zones -> 0 <= dt <= cour * dt_light_min dx zones ->
  get_state G (fst (gcon_func G)) (lapse (fst (gcon_func G))) p = Some q -> 1 < gam <= 2 -> 0 < Rabs (rho p + FluxModel.SMALL) ->
  (forall mu, (1 <= mu < 4)%nat -> exists vmax vmin, mhd_vchar (fst (gcon_func G)) gam p q mu = Speeds vmax vmin /\ (v mu = vmax \/ v mu = vmin)) ->
  (Rabs (v 1%nat) / dx 1%nat + Rabs (v 2%nat) / dx 2%nat + Rabs (v 3%nat) / dx 3%nat) * dt <= cour.
Proof. exact all_speeds. Qed.
Print Assumptions C93_fluid.
Example C93_nonvacuous : spacetime (drift 0) 1 (drift_beta 0) /\ light_phase_speed (fst (gcon_func (drift 0))) 1 = 1 /\
  causal (drift 0) (fun i => match i with O => 2 | S O => 1 | _ => 0 end).
Proof. split; [exact (drift_st 0)|exact rest_light]. Qed.
