(** Vocabulary for states on an adiabat. *)
From Coq Require Import Reals ZArith List.
From Verif Require Import IntLib TabModel AdiaModel.
Open Scope R_scope.

(** a holds the nodes imin to imax of the axis, one temperature each *)
Definition traced_on (rho : list R) (a : adiabat) : Prop :=
  (0 <= ad_imin a)%Z /\ (ad_imin a <= ad_imax a)%Z /\
  rd rho (ad_imin a) = Some (ad_lrho_min a) /\ rd rho (ad_imax a) = Some (ad_lrho_max a) /\
  length (ad_lT a) = Z.to_nat (ad_imax a + 1 - ad_imin a).
(** its temperatures lie on the line c + b x *)
Definition straight (rho : list R) (a : adiabat) (c b : R) : Prop :=
  forall i x, (ad_imin a <= i <= ad_imax a)%Z -> rd rho i = Some x -> rd (ad_lT a) (i - ad_imin a) = Some (c + b * x).
