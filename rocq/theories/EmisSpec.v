(** What emissivities mean, independently of the model. *)
From Coq Require Import Reals.
From Coquelicot Require Import Coquelicot.
Open Scope R_scope.

(** Planck's law divided by the cube of the frequency: h and c, kT = Thetae times the rest energy *)
Definition planck_inv (h c kT nu : R) : R := 2 * h / c ^ 2 / (exp (h * nu / kT) - 1).
(** T is the emissivity j integrated over all frequencies *)
Definition spectral_total (j : R -> R) (T : R) : Prop :=
  forall eps, 0 < eps -> exists d0 N0, 0 < d0 < N0 /\
  forall d N, 0 < d <= d0 -> N0 <= N -> exists I, is_RInt j d N I /\ Rabs (I - T) < eps.
(** S is the emissivity j theta nu integrated over all directions and frequencies, theta the angle
    to an axis of symmetry *)
Definition total_power (j : R -> R -> R) (S : R) : Prop :=
  exists T : R -> R, (forall theta, 0 < theta < PI -> spectral_total (j theta) (T theta)) /\
  is_RInt (fun theta => 2 * PI * sin theta * T theta) 0 PI S.
