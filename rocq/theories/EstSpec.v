(** Vocabulary for the estimate of the temperature. *)
From Coq Require Import Reals List ZArith Bool.
From Verif Require Import EstModel.
Import ListNotations.
Open Scope R_scope.

(** a zone and constants that make sense *)
Definition physical (z : zonep) : Prop :=
  0 < ME z /\ 0 < CL z /\ 0 < HPL z /\ 1 < game z /\ 0 < L_unit z /\ 0 < U_unit z /\ 0 < T_unit z /\ 0 < kphys_to_num z /\
  0 < Ne z /\ 0 < Thetae_old z /\ 0 < Ucon0 z /\ 0 < cell z /\ 0 < dt z.
(** packets that carry energy *)
Definition shining (ps : list sph) : Prop := ps <> [] /\ forall p, In p ps -> 0 < w p /\ 0 < nu p /\ 0 < dlam p.
(** the records of the packets that are in zone c, in order *)
Definition of_zone {A} (c : zone) (ps : list (zone * A)) : list A :=
  flat_map (fun p => if (let '(i, j, k) := fst p in let '(i', j', k') := c in ((i =? i') && (j =? j') && (k =? k'))%Z) then [snd p] else []) ps.
(** a zone the process computes, and one for which its arrays have an element *)
Definition computed (N1 N2 N3 NG : Z) (c : zone) : Prop := let '(i, j, k) := c in
  (NG <= i < NG + N1 /\ NG <= j < NG + N2 /\ NG <= k < NG + N3)%Z.
Definition stored (N1 N2 N3 NG : Z) (c : zone) : Prop := let '(i, j, k) := c in
  (0 <= i < N1 + 2 * NG /\ 0 <= j < N2 + 2 * NG /\ 0 <= k < N3 + 2 * NG)%Z.

(** optical depth for an invariant absorption coefficient, and the energy, in erg, that
    packets lose to it *)
Definition depth (z : zonep) (a : sph -> R) (p : sph) : R := a p * (HPL z / (ME z * CL z ^ 2)) * (L_unit z * dlam p).
Definition erg (z : zonep) (a : sph -> R) (ps : list sph) : R :=
  fold_right (fun p s => w p * (HPL z * nu p) * (1 - exp (- depth z a p)) + s) 0 ps.
(** per cubic centimetre and second: the zone has volume cell L_unit^3, the step dt T_unit *)
Definition per_volume (z : zonep) (e : R) : R := e / (cell z * L_unit z ^ 3) / (dt z * T_unit z).
