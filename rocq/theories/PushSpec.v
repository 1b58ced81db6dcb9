(** Vocabulary for the pusher. *)
From Coq Require Import Reals.
From Verif Require Import RLib GeomModel PushModel.
Open Scope R_scope.

(** The wave vector is null up to the tolerance, measured against K0. *)
Definition null_within (tol K0 prev : R) (s : state) :=
  K0 <> 0 /\ Rabs (Kcov s 0%nat * Kcon s 0%nat + Kcov s 1%nat * Kcon s 1%nat + Kcov s 2%nat * Kcon s 2%nat +
    Kcov s 3%nat * Kcon s 3%nat - prev) < tol * K0 ^ 2.
(** A pusher that advances the clock of a packet by its step. *)
Definition keeps_time (p : R -> state -> state) := forall dt s, X (p dt s) 0%nat = X s 0%nat + dt.
(** The equations of motion in coordinate time: velocity K^mu / K^t, and the force the code
    takes from the inverse metric. *)
Definition velocity (gcon_at : vec -> mat) (x k : vec) : vec :=
  fun mu => raise k (gcon_at x) mu / raise k (gcon_at x) 0%nat.
Definition force_at (gcon_at : vec -> mat) (killing : nat -> bool) (x k : vec) : vec :=
  get_K_source gcon_at killing x k (raise k (gcon_at x)).
(** y has derivative y1 on [0, h], and its second and third derivatives are bounded there *)
Definition thrice (h M2 M3 : R) (y y1 : R -> R) : Prop := exists y2 y3 : R -> R, forall t, 0 <= t <= h ->
  derivable_pt_lim y t (y1 t) /\ derivable_pt_lim y1 t (y2 t) /\ derivable_pt_lim y2 t (y3 t) /\ Rabs (y2 t) <= M2 /\ Rabs (y3 t) <= M3.
(** on the region U the right-hand sides are Lipschitz with constant L *)
Definition smooth_in (U : vec -> vec -> Prop) (gcon_at : vec -> mat) (killing : nat -> bool) (L : R) : Prop :=
  forall x k x' k' N, U x k -> U x' k' ->
  (forall mu, (mu < 4)%nat -> Rabs (x mu - x' mu) <= N /\ Rabs (k mu - k' mu) <= N) ->
  forall mu, (mu < 4)%nat -> Rabs (velocity gcon_at x k mu - velocity gcon_at x' k' mu) <= L * N /\
    Rabs (force_at gcon_at killing x k mu - force_at gcon_at killing x' k' mu) <= L * N.
