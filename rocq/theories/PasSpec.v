(** What passive scalars are expected to do. *)
From Coq Require Import Reals Bool ZArith List.
From Verif Require Import RLib TabModel PasModel.
Open Scope R_scope.

(** [y] is [x] brought into a table from [lo] to [hi], whose last value is excluded *)
Definition brought_in (lo hi x y : R) : Prop := (x < lo -> y = lo) /\ (lo <= x < hi -> y = x) /\ (hi <= x -> y = hi - TOL).
(** [y] is [x] brought into the interval from 0 to 1 *)
Definition brought_01 (x y : R) : Prop := (x < 0 -> y = 0) /\ (0 <= x <= 1 -> y = x) /\ (1 < x -> y = 1).
(** the density of the gas the floors leave, the part of it that was there before counted
    as mass times u^t *)
Definition diluted (rho ut rho_add ut_add Y : R) : R := Y * (rho * ut) / (rho * ut + rho_add * ut_add).
(** the gas at a point moves with a speed between the characteristic speeds *)
Definition slower_than (c : R * R) (P : point) (dir : nat) : Prop := 0 < p_ucon P 0%nat /\ snd c <= p_ucon P dir / p_ucon P 0%nat <= fst c.
(** and its density is not negative *)
Definition moves (vchar : nat -> point -> R * R) (dir : nat) (P : point) : Prop := 0 <= p_rho P /\ slower_than (vchar dir P) P dir.
Definition inside_range (lo hi x : R) : Prop := lo <= x <= hi.
(** the six states that meet at the faces of zone (i, j, k), from inside and from outside *)
Definition faces (Q : bool -> nat -> point -> Prop) (lo1 hi1 lo2 hi2 lo3 hi3 : Z -> Z -> Z -> point) (i j k : Z) : Prop :=
  (Q true 1%nat (lo1 i j k) /\ Q true 1%nat (hi1 i j k) /\ Q false 1%nat (hi1 (i - 1)%Z j k) /\ Q false 1%nat (lo1 (i + 1)%Z j k)) /\
  (Q true 2%nat (lo2 i j k) /\ Q true 2%nat (hi2 i j k) /\ Q false 2%nat (hi2 i (j - 1)%Z k) /\ Q false 2%nat (lo2 i (j + 1)%Z k)) /\
  (Q true 3%nat (lo3 i j k) /\ Q true 3%nat (hi3 i j k) /\ Q false 3%nat (hi3 i j (k - 1)%Z) /\ Q false 3%nat (lo3 i j (k + 1)%Z)).
(** mass that leaves through a face in a step, at most: the density of the gas at the edge
    times its u^t, times the greatest speed [c] there, times Dt/dx and the face's [g] *)
Definition at_most_out (Dt dx g c : R) (P : point) : R := Dt / dx * (c * (p_rho P * p_ucon P 0%nat) * g).
(** [c1], [c2], [c3] are at least the greatest speeds at the faces of zone (i, j, k) *)
Definition speeds_below (number : nat -> bool) (vchar : nat -> point -> R * R) (g1 g2 g3 : Z -> Z -> Z -> R) (lo1 hi1 lo2 hi2 lo3 hi3 : Z -> Z -> Z -> point) (c1 c2 c3 : R) (i j k : Z) : Prop :=
  (face_speed number vchar 1 g1 (fun i j k => hi1 (i - 1)%Z j k) lo1 i j k <= c1 /\ face_speed number vchar 1 g1 (fun i j k => hi1 (i - 1)%Z j k) lo1 (i + 1)%Z j k <= c1) /\
  (face_speed number vchar 2 g2 (fun i j k => hi2 i (j - 1)%Z k) lo2 i j k <= c2 /\ face_speed number vchar 2 g2 (fun i j k => hi2 i (j - 1)%Z k) lo2 i (j + 1)%Z k <= c2) /\
  (face_speed number vchar 3 g3 (fun i j k => hi3 i j (k - 1)%Z) lo3 i j k <= c3 /\ face_speed number vchar 3 g3 (fun i j k => hi3 i j (k - 1)%Z) lo3 i j (k + 1)%Z <= c3).
