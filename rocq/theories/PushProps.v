(** Property theorems C18 (contract of the pusher), C19 (conserved momenta), C80
    (interpolation along a packet's path) and C89 (equations of motion). *)
From Coq Require Import Reals Bool Arith List Lia Lra.
From Verif Require Import RLib GeomModel PushModel PushSpec PushProofs PushForce PushHeun.
Import ListNotations.
Open Scope R_scope.

(** C18.  A push that reports success ends after exactly the requested time on a wave
    vector that is null within the tolerance; it used the coarsest of the subdivisions
    1, 2, 4, ..., 256 for which that is so. *)
Theorem C18_success : forall gcon_at killing tol s prev dt s',
  push_X_K tol (push gcon_at killing) false s prev dt = (s', PUSH_SUCCESS) ->
  null_within tol (Kcov s 0%nat) prev s' /\ X s' 0%nat = X s 0%nat + dt /\
  exists n, (n < 9)%nat /\ s' = times (2 ^ n) (push gcon_at killing (dt / 2 ^ n)) s /\
    forall m, (m < n)%nat -> ~ null_within tol (Kcov s 0%nat) prev (times (2 ^ m) (push gcon_at killing (dt / 2 ^ m)) s).
Proof. exact push_success. Qed.
Print Assumptions C18_success.
(** It reports failure exactly when none of these nine subdivisions is good. *)
Theorem C18_failure : forall gcon_at killing tol s prev dt s' st,
  push_X_K tol (push gcon_at killing) false s prev dt = (s', st) ->
  (st = PUSH_FAIL <-> forall m, (m < 9)%nat ->
    ~ null_within tol (Kcov s 0%nat) prev (times (2 ^ m) (push gcon_at killing (dt / 2 ^ m)) s)).
Proof. exact push_failure. Qed.
Print Assumptions C18_failure.
(** Photon or tracer, success or failure, the packet's clock advances by the step. *)
Theorem C18_time : forall tol p tracer s prev dt s' st, keeps_time p -> push_X_K tol p tracer s prev dt = (s', st) ->
  X s' 0%nat = X s 0%nat + dt.
Proof. exact push_time_full. Qed.
Print Assumptions C18_time.
Theorem C18_pushers : (forall g k, keeps_time (push g k)) /\ (forall r rh uc un, keeps_time (push_tracers r rh uc un)).
Proof. exact (conj push_time tracer_time). Qed.
Print Assumptions C18_pushers.
(** The tenth attempt, with 512 substeps, is made but never accepted: a push can end in
    a state that passes the check and still be reported as failed. *)
Theorem C18_last_refuted : exists g tol s prev dt s', 0 < tol /\ Kcov s 0%nat < 0 /\
  push_X_K tol (push g killing_minkowski) false s prev dt = (s', PUSH_FAIL) /\ null_within tol (Kcov s 0%nat) prev s'.
Proof. exact last_refuted. Qed.
Print Assumptions C18_last_refuted.
(** A photon along x in Minkowski space is pushed successfully. *)
Example C18_nonvacuous : exists s', push_X_K (/ 100) (push (fun _ => eta) killing_minkowski) false ph0 0 1 = (s', PUSH_SUCCESS).
Proof. exact straight_succeeds. Qed.

(** C19.  Along any number of pushes with any steps the covariant momentum conjugate to
    a coordinate the metric does not depend on keeps its value: energy always, and
    angular momentum in the modified Kerr-Schild metric. *)
Theorem C19_conserved : forall gcon_at killing tol l s mu, killing mu = true \/ mu = 0%nat ->
  Kcov (pushes gcon_at killing tol l s) mu = Kcov s mu.
Proof. exact (fun g k t l s mu H => pushes_K g k t l mu H s). Qed.
Print Assumptions C19_conserved.
Theorem C19_mks : forall gcon_at tol l s, Kcov (pushes gcon_at killing_mks tol l s) 0%nat = Kcov s 0%nat /\
  Kcov (pushes gcon_at killing_mks tol l s) 3%nat = Kcov s 3%nat.
Proof. exact (fun g t l s => conj (pushes_K g killing_mks t l 0%nat (or_introl eq_refl) s) (pushes_K g killing_mks t l 3%nat (or_introl eq_refl) s)). Qed.
Print Assumptions C19_mks.
(** In Minkowski space packets move on straight lines with velocity -K_i / K_t. *)
Theorem C19_straight : forall tol s prev dt s' st mu, (1 <= mu <= 3)%nat -> Kcov s 0%nat <> 0 ->
  push_X_K tol (push (fun _ => eta) killing_minkowski) false s prev dt = (s', st) ->
  X s' mu = X s mu - dt * (Kcov s mu / Kcov s 0%nat).
Proof. exact straight. Qed.
Print Assumptions C19_straight.
(** Two pushes of a photon that has momentum along x; the other components of its
    momentum are not protected in a metric like this one. *)
Example C19_nonvacuous : Kcov (pushes gex killing_mks 1 [(0, 1); (0, 1 / 2)] ph1) 0%nat = -1 /\
  Kcov (push gex killing_mks 1 ph1) 1%nat <> Kcov ph1 1%nat.
Proof. exact mks_changes. Qed.

(** C80.  The interpolated state is at the time asked for, for any packet with a
    complete history. *)
Theorem C80_time : forall gcon_at killing tol h ti s st,
  X (s0 h) 0%nat < X (s1 h) 0%nat -> X (s1 h) 0%nat < X (s2 h) 0%nat ->
  get_X_K_interp gcon_at killing tol h ti = Some (s, st) -> X s 0%nat = ti.
Proof. exact get_time. Qed.
Print Assumptions C80_time.
(** The program exits exactly for times after the packet's present. *)
Theorem C80_exits : forall gcon_at killing tol h ti, X (s1 h) 0%nat <= X (s2 h) 0%nat ->
  get_X_K_interp gcon_at killing tol h ti = None <-> X (s2 h) 0%nat < ti.
Proof. exact get_exits. Qed.
Print Assumptions C80_exits.
(** After two pushes forward in time a packet has a complete history: its oldest state is the
    one before both, and it can be found at every time up to its present. *)
Theorem C80_complete : forall gcon_at killing tol h prev1 dt1 h1 d1 st1 dt2 h2 d2 st2 ti,
  push_superphoton gcon_at killing tol h prev1 dt1 = (h1, d1, st1) -> push_superphoton gcon_at killing tol h1 d1 dt2 = (h2, d2, st2) ->
  0 < dt1 -> 0 < dt2 -> ti <= X (s2 h) 0%nat + dt1 + dt2 ->
  s0 h2 = s2 h /\ exists s st, get_X_K_interp gcon_at killing tol h2 ti = Some (s, st) /\ X s 0%nat = ti.
Proof. exact complete. Qed.
Print Assumptions C80_complete.
(** Conserved momenta keep their values under interpolation. *)
Theorem C80_conserved : forall gcon_at killing tol h ti s st mu, killing mu = true \/ mu = 0%nat ->
  Kcov (s0 h) mu = Kcov (s1 h) mu -> Kcov (s1 h) mu = Kcov (s2 h) mu ->
  get_X_K_interp gcon_at killing tol h ti = Some (s, st) -> Kcov s mu = Kcov (s2 h) mu.
Proof. exact get_K. Qed.
Print Assumptions C80_conserved.
(** A packet that has just been made by a scattering has zeros for its oldest state.
    Asked for a time before its scattering, the interpolation succeeds and returns its
    position and momentum scaled by the ratio of the times. *)
Theorem C80_newborn : forall gcon_at killing tol h ti, 0 <= tol -> s0 h = zero_state -> 0 < X (s1 h) 0%nat ->
  dot (Kcov (s1 h)) (Kcon (s1 h)) = 0 -> ti < X (s1 h) 0%nat -> X (s1 h) 0%nat <= X (s2 h) 0%nat ->
  exists s, get_X_K_interp gcon_at killing tol h ti = Some (s, PUSH_SUCCESS) /\
    forall mu, X s mu = ti / X (s1 h) 0%nat * X (s1 h) mu /\ Kcov s mu = ti / X (s1 h) 0%nat * Kcov (s1 h) mu.
Proof. exact newborn. Qed.
Print Assumptions C80_newborn.
(** interact asks for the middle of the step whenever the packet scattered, so this
    happens: a photon that scattered at time 1 at x = 4 and went on along x is placed
    3/2 away from its path, with half its energy. *)
Theorem C80_on_path_refuted : exists h ti s, X (s2 h) 0%nat = X (s1 h) 0%nat + 1 /\ X (s2 h) 1%nat = X (s1 h) 1%nat + 1 /\
  0 < ti < X (s1 h) 0%nat /\
  get_X_K_interp (fun _ => eta) killing_minkowski (/ 100) h ti = Some (s, PUSH_SUCCESS) /\
  Rabs (X s 1%nat - (X (s1 h) 1%nat + (ti - X (s1 h) 0%nat))) = 3 / 2 /\ Kcov s 0%nat = 1 / 2 * Kcov (s1 h) 0%nat.
Proof. exact newborn_refuted. Qed.
Print Assumptions C80_on_path_refuted.
(** A packet with a complete history. *)
Example C80_nonvacuous : X (s0 full_history) 0%nat < X (s1 full_history) 0%nat /\ X (s1 full_history) 0%nat < X (s2 full_history) 0%nat /\
  exists s, get_X_K_interp (fun _ => eta) killing_minkowski (/ 100) full_history (3 / 2) = Some (s, PUSH_SUCCESS) /\ X s 1%nat = 3 / 2.
Proof. exact full_history_ok. Qed.

(** C89.  The force is minus half the gradient of the inverse metric contracted twice with the
    covariant momentum, divided by K^t: Hamilton's equation for null geodesics, with the
    gradient taken at points no further away than 1e-6. *)
Theorem C89_force : forall gcon_at killing (x kcov kcon : vec) mu (dg : nat -> nat -> R -> R), killing mu = false -> kcon 0%nat <> 0 ->
  (forall nu kap r, (nu < 4)%nat -> (kap < 4)%nat -> Rabs r <= / 10 ^ 6 -> derivable_pt_lim (fun r => gcon_at (bump x mu r) nu kap) r (dg nu kap r)) ->
  exists xi : nat -> nat -> R, (forall nu kap, (nu < 4)%nat -> (kap < 4)%nat -> Rabs (xi nu kap) < / 10 ^ 6) /\
  get_K_source gcon_at killing x kcov kcon mu =
    - (1 / 2) * sum4 (fun nu => sum4 (fun kap => dg nu kap (xi nu kap) * kcov nu * kcov kap)) / kcon 0%nat.
Proof. exact force. Qed.
Print Assumptions C89_force.
(** A push follows the solution of these equations to second order: the error of one step
    is bounded by its cube. *)
Theorem C89_second_order : forall gcon_at killing s h M2 M3 L (U : vec -> vec -> Prop) (x k : R -> vec),
  0 <= h -> killing 0%nat = true -> x 0 = X s -> k 0 = Kcov s ->
  (forall mu, (mu < 4)%nat -> thrice h M2 M3 (fun t => x t mu) (fun t => velocity gcon_at (x t) (k t) mu)) ->
  (forall mu, (mu < 4)%nat -> thrice h M2 M3 (fun t => k t mu) (fun t => force_at gcon_at killing (x t) (k t) mu)) ->
  (forall t, 0 <= t <= h -> velocity gcon_at (x t) (k t) 0%nat = 1) ->
  smooth_in U gcon_at killing L -> U (x h) (k h) ->
  U (fun mu => X s mu + h * velocity gcon_at (X s) (Kcov s) mu) (fun mu => Kcov s mu + h * force_at gcon_at killing (X s) (Kcov s) mu) ->
  forall mu, (mu < 4)%nat ->
  Rabs (X (push gcon_at killing h s) mu - x h mu) <= (M3 / 12 + L * M2 / 4) * h ^ 3 /\
  Rabs (Kcov (push gcon_at killing h s) mu - k h mu) <= (M3 / 12 + L * M2 / 4) * h ^ 3.
Proof. exact push_second_order. Qed.
Print Assumptions C89_second_order.
(** Whatever the outcome of a push, the contravariant momentum it leaves is the covariant one
    raised with the metric at the place the packet has come to. *)
Theorem C89_raised : forall gcon_at killing tol tracer s prev dt s' st, push_X_K tol (push gcon_at killing) tracer s prev dt = (s', st) ->
  forall mu, Kcon s' mu = raise (Kcov s') (gcon_at (X s')) mu.
Proof. exact raised. Qed.
Print Assumptions C89_raised.
(** A null packet on a bent path, with the bound that C89_second_order gives for it. *)
Example C89_nonvacuous : dot (Kcov sb) (Kcon sb) = 0 /\
  forall mu, (mu < 4)%nat ->
  Rabs (X (push gbent kbent 1 sb) mu - xb 1 mu) <= (/ 250 / 12 + / 5 * (3 / 25) / 4) * 1 ^ 3 /\
  Rabs (Kcov (push gbent kbent 1 sb) mu - kb 1 mu) <= (/ 250 / 12 + / 5 * (3 / 25) / 4) * 1 ^ 3.
Proof. exact bent_pushed. Qed.
