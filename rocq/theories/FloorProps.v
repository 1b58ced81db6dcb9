(** C91 (floors on density and energy). *)
From Coq Require Import Reals Lra Lia.
From Verif Require Import RLib FluxModel GeomModel GeomSpec SpaceProofs NullProofs EosGModel FloorModel FloorSpec FloorProofs FloorWit FloorMore.
Open Scope R_scope.

(** The routine always finishes, in every space-time, from every state, whatever the
    inversion does, with a Lorentz factor of at most 50... *)
Theorem C91_gamma : forall G al beta, spacetime G al beta -> forall gdet gam scale Utoprim p, let gcon := fst (gcon_func G) in
  exists p' f, fixup1zone G gcon (lapse gcon) gdet gam Utoprim scale p = Some (p', f, true) /\
    exists g, mhd_gamma_calc G (vel p') = Some g /\ 1 <= g <= 50.
Proof. exact gamma_total. Qed.
Print Assumptions C91_gamma.
(** ...marks the zone exactly when a floor is violated... *)
Theorem C91_flag : forall G al beta, spacetime G al beta -> forall gdet gam scale Utoprim p p' f q, let gcon := fst (gcon_func G) in
  fixup1zone G gcon (lapse gcon) gdet gam Utoprim scale p = Some (p', f, true) -> get_state G gcon (lapse gcon) p = Some q ->
  let bsq := dot (b_con q) (b_cov q) in
  (f = true <-> rho p < fst (set_floors gam scale (uu p) bsq) \/ uu p < snd (set_floors gam scale (uu p) bsq)).
Proof. exact flag_iff. Qed.
Print Assumptions C91_flag.
(** ...and changes nothing else. *)
Theorem C91_untouched : forall G al beta, spacetime G al beta -> forall gdet gam scale Utoprim p p' f g, let gcon := fst (gcon_func G) in
  fixup1zone G gcon (lapse gcon) gdet gam Utoprim scale p = Some (p', f, true) -> f = false -> mhd_gamma_calc G (vel p) = Some g -> g <= 50 ->
  rho p' = rho p /\ uu p' = uu p /\ vel p' = vel p /\ mag p' = mag p.
Proof. exact untouched. Qed.
Print Assumptions C91_untouched.
(** Where the region is strongly magnetised, or the inversion of the weak branch fails (and so
    returns its guess), density and energy are raised to the floors and no further, and the
    field is kept... *)
Theorem C91_raised : forall G al beta, spacetime G al beta -> forall gdet gam scale Utoprim p p' f q, let gcon := fst (gcon_func G) in
  fixup1zone G gcon (lapse gcon) gdet gam Utoprim scale p = Some (p', f, true) -> get_state G gcon (lapse gcon) p = Some q ->
  let bsq := dot (b_con q) (b_cov q) in
  (0 < trans_of p bsq \/ (forall c g, Utoprim c g = g)) ->
  rho p' = MY_MAX (rho p) (fst (set_floors gam scale (uu p) bsq)) /\ uu p' = MY_MAX (uu p) (snd (set_floors gam scale (uu p) bsq)) /\
  (forall m, mag p' m = mag p m).
Proof. exact floors_met. Qed.
Print Assumptions C91_raised.
(** ...so that the limits on magnetisation and temperature hold.  Missing: the weak branch with
    a successful inversion, for which it is false (next). *)
Theorem C91_limits_partial : forall G al beta, spacetime G al beta -> forall gdet gam scale Utoprim, 1 < gam -> forall p p' f q, let gcon := fst (gcon_func G) in
  0 < scale <= 1 -> fixup1zone G gcon (lapse gcon) gdet gam Utoprim scale p = Some (p', f, true) -> get_state G gcon (lapse gcon) p = Some q ->
  let bsq := dot (b_con q) (b_cov q) in
  (0 < trans_of p bsq \/ (forall c g, Utoprim c g = g)) -> within_floors bsq (rho p') (uu p').
Proof. exact floors_hold. Qed.
Print Assumptions C91_limits_partial.
(** In the weak branch with an inversion p' that is exact the density can end below its floor
    (flat space, gam = 2, Lorentz factor 65/16, no field). *)
Theorem C91_limits_refuted : exists p p' q qa q' r, let M := drift 0 in let Mi := fst (gcon_func M) in
  get_state M Mi (lapse Mi) p = Some q /\
  (let '(rf, uf) := set_floors 2 (/ 100) (uu p) (dot (b_con q) (b_cov q)) in
   let a := padd p rf uf in
   0 < rho p < rf /\ uf < uu p /\
   get_state M Mi (lapse Mi) a = Some qa /\ get_state M Mi (lapse Mi) p' = Some q' /\ 0 < rho p' /\ 0 < uu p' /\
   same_cons (primtoflux 1 2 p' q') (cadd (primtoflux 1 2 p q) (primtoflux 1 2 a qa)) /\
   fixup1zone M Mi (lapse Mi) 1 2 (fun _ _ => p') (/ 100) p = Some (r, true, true) /\ rho r < rf).
Proof. exact weak_short. Qed.
Print Assumptions C91_limits_refuted.
(** The matter added there is at rest for the normal observer: it brings mass but neither
    momentum nor magnetic flux. *)
Theorem C91_at_rest : forall G al beta, spacetime G al beta -> forall gdet gam p rf uf q, let gcon := fst (gcon_func G) in
  get_state G gcon (lapse gcon) (padd p rf uf) = Some q ->
  let c := primtoflux gdet gam (padd p rf uf) q in
  D c = gdet * MY_MAX 0 (rf - rho p) / al /\ (forall i, (1 <= i < 4)%nat -> Q c i = 0 /\ Bc c i = 0).
Proof. exact added_at_rest. Qed.
Print Assumptions C91_at_rest.
(** The drift velocity of the strong branch has a positive time component, is normalised unless
    clipped (which needs a Lorentz factor of 50), and is perpendicular to the field up to SMALL. *)
Theorem C91_drift : forall G al beta, spacetime G al beta -> forall p q, let gcon := fst (gcon_func G) in
  get_state G gcon (lapse gcon) p = Some q ->
  let bsq := inner G (b_con q) (b_con q) in
  let bp := betapar q in
  0 < ucondr q 0%nat /\ 0 <= bp * bp * bsq < 1 /\
  (bp * bp * bsq <= 1 - 1 / (50 * 50) -> inner G (ucondr q) (ucondr q) = -1) /\
  exists k, 0 < k /\ (forall mu, ucondr q mu = k * (ucon q mu + bp * b_con q mu)) /\
    inner G (ucondr q) (Bcon p) * (bsq + / 10 ^ 20) = k * b_con q 0%nat * / 10 ^ 20.
Proof. exact drift_ok. Qed.
Print Assumptions C91_drift.
(** The velocity y along the field (in the drift frame) is below that of light and solves
    w' B u'^t y / (1 - y^2) = w (u.B) u^t, w and w' being the enthalpies before and after, up to
    SMALL: the momentum along the field is kept. *)
Theorem C91_parallel : forall G al beta, spacetime G al beta -> forall gam p p' q, let gcon := fst (gcon_func G) in
  get_state G gcon (lapse gcon) p = Some q -> 1 < gam -> 0 < rho p' -> 0 <= uu p' ->
  let y := vpar G gam p p' q * ucondr q 0%nat in
  let w p := rho p + gam * uu p in
  -1 < y < 1 /\
  (sqrt (spatial G (mag p) (mag p)) * w p' * ucondr q 0%nat + / 10 ^ 20) * y = inner G (ucon q) (Bcon p) * w p * ucon q 0%nat * (1 - y * y).
Proof. exact parallel_ok. Qed.
Print Assumptions C91_parallel.
(** The new three-velocity is that of the drift plus vpar along the unit vector of the field, up
    to SMALL in the field strength. *)
Theorem C91_along : forall G al beta, spacetime G al beta -> forall gam p p' q,
  let v := vcon G gam p p' q in
  let B := sqrt (spatial G (mag p) (mag p)) in
  let e i := v i - ucondr q i / ucondr q 0%nat in
  v 0%nat = 1 /\ (forall i, (1 <= i < 4)%nat -> (B + / 10 ^ 20) * e i = vpar G gam p p' q * mag p i) /\
  (B + / 10 ^ 20) ^ 2 * spatial G e e = (vpar G gam p p' q * B) ^ 2.
Proof. exact along_ok. Qed.
Print Assumptions C91_along.
(** But what is stored is that three-velocity without its Lorentz factor (see C72): for every
    slower-than-light v... *)
Theorem C91_stored : forall G al beta, spacetime G al beta -> forall v, let gcon := fst (gcon_func G) in v 0%nat = 1 -> inner G v v < 0 ->
  forall i, (1 <= i < 4)%nat -> ucon_to_utcon gcon (fun mu => ut_calc_3vel G gcon v * v mu) i = (v i + beta i) / al.
Proof. exact stored_velocity. Qed.
Print Assumptions C91_stored.
(** ...so that even a flow straight across the field, which the floors should leave alone, is
    slowed down: 3/4 becomes 3/5. *)
Theorem C91_velocity_refuted : exists p q r, let M := drift 0 in let Mi := fst (gcon_func M) in
  get_state M Mi (lapse Mi) p = Some q /\
  inner M (Bcon p) (fun i => if Nat.eqb i 0 then 0 else vel p i) = 0 /\ 1 < trans_of p (dot (b_con q) (b_cov q)) /\
  (forall Utoprim, fixup1zone M Mi (lapse Mi) 1 2 Utoprim (/ 100) p = Some (r, true, true)) /\
  vel p 1%nat = 3 / 4 /\ vel r 1%nat = 3 / 5.
Proof. exact strong_slow. Qed.
Print Assumptions C91_velocity_refuted.
(** The floors fall off with radius; outside r = 1 their scale lies in (0,1] as asked above. *)
Theorem C91_scale : (forall R0 p1 p2 r r', 0 < R0 -> 0 <= p1 -> 0 <= p2 -> 0 < r <= r' -> get_scale R0 p1 p2 r' <= get_scale R0 p1 p2 r) /\
  (forall r, 1 <= r -> 0 < get_scale 50 2 2 r <= 1).
Proof. exact (conj scale_anti scale_ok). Qed.
Print Assumptions C91_scale.
(** the strong branch is reached: the state of the last refutation, now with its floors *)
Example C91_nonvacuous : exists p q, let M := drift 0 in let Mi := fst (gcon_func M) in
  spacetime M 1 (drift_beta 0) /\ get_state M Mi (lapse Mi) p = Some q /\ 0 < trans_of p (dot (b_con q) (b_cov q)).
Proof.
  destruct strong_slow as (p & q & r & E & _ & T & _). exists p, q. cbv zeta. split; [apply drift_st|]. split; [exact E|]. lra.
Qed.
