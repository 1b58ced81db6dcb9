(** Property theorems: root finding (C25). *)
From Coq Require Import Reals Bool Lia Lra.
From Verif Require Import RLib RootModel RootSpec RootProofs.
Open Scope R_scope.

(** C25.  The search always terminates, with the same answer for all larger fuel. *)
Theorem C25_terminates : forall f y xmin xmax xtol ytol, 0 < xtol -> xmin < xmax -> forall guess,
  exists n o, o <> Diverge /\ forall k, find_root f y xmin xmax xtol ytol (n + k) guess = o.
Proof. exact find_ends. Qed.
Print Assumptions C25_terminates.
(** What success means: an end point within tolerance; or a point with relative
    error within tolerance; or a point moved by at most xtol in its last Newton
    step; or the middle of a crossing no wider than xtol, inside the interval. *)
Theorem C25_result : forall f y xmin xmax xtol ytol, 0 < xtol -> xmin < xmax -> forall n guess x,
  find_root f y xmin xmax xtol ytol n guess = Success x ->
  (x = xmax \/ x = xmin) /\ rel_error f y ytol x < ytol \/
  rel_error f y ytol x <= ytol \/
  (exists a, Rabs (x - a) <= xtol /\ quotient f (Rabs (/ 10 ^ 7 * a) + xtol) a <> 0 /\
     x = a - (f a - y) / quotient f (Rabs (/ 10 ^ 7 * a) + xtol) a) \/
  xmin <= x <= xmax /\ exists a b, crosses f y a b /\ Rabs (b - a) <= xtol /\ x = (a + b) / 2 /\
    (3 * xtol <= xmax \/ xmax <= - xtol -> xmin <= a <= xmax /\ xmin <= b <= xmax).
Proof. exact find_result. Qed.
Print Assumptions C25_result.
(** For a continuous function bisection ends within xtol of a true root. *)
Theorem C25_continuous : forall f y xmin xmax xtol ytol, 0 < xtol -> xmin < xmax -> forall n guess x,
  continuity f -> (forall s, xmin <= s < xmax -> root_secant f y xtol ytol s = None) ->
  find_root f y xmin xmax xtol ytol n guess = Success x ->
  rel_error f y ytol x < ytol \/ exists z, f z = y /\ Rabs (x - z) <= xtol.
Proof. exact find_continuous_all. Qed.
Print Assumptions C25_continuous.
(** A crossing over the whole interval is never missed, *)
Theorem C25_complete : forall f y xmin xmax xtol ytol, 0 < xtol -> xmin < xmax -> forall guess,
  crosses f y xmin xmax -> 3 * xtol <= xmax \/ xmax <= - xtol ->
  exists n x, forall k, find_root f y xmin xmax xtol ytol (n + k) guess = Success x.
Proof. exact find_complete. Qed.
Print Assumptions C25_complete.
(** unless the interval ends near zero: there a root can be lost. *)
Theorem C25_complete_refuted : exists f y xmin xmax xtol ytol guess, 0 < xtol /\ xmin < guess < xmax /\
  crosses f y xmin xmax /\ forall n, find_root f y xmin xmax xtol ytol (S (S n)) guess = Fail.
Proof. exact complete_refuted. Qed.
Print Assumptions C25_complete_refuted.
(** A returned root can lie outside the interval, *)
Theorem C25_in_range_refuted : exists f y xmin xmax xtol ytol guess x, 0 < xtol /\ 0 < ytol /\ xmin < guess < xmax /\
  (forall n, find_root f y xmin xmax xtol ytol n guess = Success x) /\ xmax < x.
Proof. exact in_range_refuted. Qed.
Print Assumptions C25_in_range_refuted.
(** or miss the target by far. *)
Theorem C25_tolerance_refuted : exists f y xmin xmax xtol ytol guess x, 0 < xtol /\ 0 < ytol /\ xmin < guess < xmax /\
  (forall n, find_root f y xmin xmax xtol ytol n guess = Success x) /\ rel_error f y ytol x > 9 * ytol.
Proof. exact tolerance_refuted. Qed.
Print Assumptions C25_tolerance_refuted.
Example C25_nonvacuous : crosses (fun x => x) (1 / 2) 0 1 /\ 3 * / 10 <= 1 /\
  find_root (fun x => x) 5 0 1 (/ 10) (/ 10) 3 (1 / 2) = Success 5.
Proof. split; [unfold crosses; lra|]. split; [lra|]. apply outside. Qed.
