(** What the floors are to do. *)
From Coq Require Import Reals.
From Verif Require Import FloorModel.
Open Scope R_scope.

(** The same conserved variables. *)
Definition same_cons (a b : cons) : Prop :=
  D a = D b /\ (forall mu, (mu < 4)%nat -> Q a mu = Q b mu) /\ (forall m, (1 <= m < 4)%nat -> Bc a m = Bc b m).
(** Thresholds of decs.h:75-82: density and energy against absolute minima, magnetisation and
    temperature against maxima. *)
Definition within_floors (bsq r u : R) : Prop := 1 / 10 ^ 17 <= r /\ 1 / 10 ^ 20 <= u /\ bsq <= 50 * r /\ bsq <= 2500 * u /\ u <= 50 * r.
