(** Specification vocabulary for metrics and four-vectors. *)
From Coq Require Import Reals List.
Open Scope R_scope.

Definition delta (i j : nat) : R := if Nat.eqb i j then 1 else 0.
Definition sigma4 (f : nat -> R) : R := f 0%nat + (f 1%nat + (f 2%nat + f 3%nat)).
(** A B = 1 as 4x4 matrices. *)
Definition inverse (A B : nat -> nat -> R) : Prop := forall i j, (i < 4)%nat -> (j < 4)%nat ->
  sigma4 (fun k => A i k * B k j) = delta i j.
Definition symmetric (G : nat -> nat -> R) : Prop := forall i j, (i < 4)%nat -> (j < 4)%nat -> G i j = G j i.
(** Inner product of two vectors and of their spatial parts. *)
Definition inner (G : nat -> nat -> R) (a b : nat -> R) : R :=
  sigma4 (fun i => a i * sigma4 (fun j => G i j * b j)).
Definition spatial (G : nat -> nat -> R) (p q : nat -> R) : R :=
  p 1%nat * (G 1%nat 1%nat * q 1%nat + G 1%nat 2%nat * q 2%nat + G 1%nat 3%nat * q 3%nat) +
  p 2%nat * (G 2%nat 1%nat * q 1%nat + G 2%nat 2%nat * q 2%nat + G 2%nat 3%nat * q 3%nat) +
  p 3%nat * (G 3%nat 1%nat * q 1%nat + G 3%nat 2%nat * q 2%nat + G 3%nat 3%nat * q 3%nat).
Definition posdef3 (G : nat -> nat -> R) : Prop := forall p : nat -> R,
  p 1%nat <> 0 \/ p 2%nat <> 0 \/ p 3%nat <> 0 -> 0 < spatial G p p.
(** A space-time metric in 3+1 form: lapse, shift and positive definite
    spatial metric. *)
Definition spacetime (G : nat -> nat -> R) (alpha : R) (beta : nat -> R) : Prop :=
  symmetric G /\ 0 < alpha /\ posdef3 G /\
  G 0%nat 0%nat = - alpha * alpha + spatial G beta beta /\
  (forall i, (1 <= i < 4)%nat ->
     G 0%nat i = G i 1%nat * beta 1%nat + G i 2%nat * beta 2%nat + G i 3%nat * beta 3%nat).
(** No linear relation between four vectors. *)
Definition independent (v0 v1 v2 v3 : nat -> R) : Prop := forall a b c d,
  (forall i, (i < 4)%nat -> a * v0 i + b * v1 i + c * v2 i + d * v3 i = 0) -> a = 0 /\ b = 0 /\ c = 0 /\ d = 0.
Definition same4 (u v : nat -> R) : Prop := forall i, (i < 4)%nat -> u i = v i.
(** Minkowski metric of the tetrad frame. *)
Definition eta (a b : nat) : R := if Nat.eqb a b then (if Nat.eqb a 0 then -1 else 1) else 0.
(** Determinant by expansion along the first row. *)
Fixpoint det (n : nat) (g : nat -> nat -> R) : R :=
  match n with
  | O => 1
  | S m => fold_right (fun j acc => (-1) ^ j * g 0%nat j * det m (fun i k => g (S i) (if Nat.ltb k j then k else S k)) + acc)
             0 (seq 0 n)
  end.
(** Spatial components agree. *)
Definition same3 (u v : nat -> R) : Prop := forall i, (1 <= i < 4)%nat -> u i = v i.
(** A linear map of the spatial components that loses no vector. *)
Definition spatial_image (M : nat -> nat -> R) (v : nat -> R) : nat -> R := fun i =>
  M i 1%nat * v 1%nat + M i 2%nat * v 2%nat + M i 3%nat * v 3%nat.
Definition time_preserving (M : nat -> nat -> R) : Prop := M 0%nat 0%nat = 1 /\
  (forall i, (1 <= i < 4)%nat -> M 0%nat i = 0 /\ M i 0%nat = 0) /\
  (forall p, (forall i, (1 <= i < 4)%nat -> spatial_image M p i = 0) -> forall i, (1 <= i < 4)%nat -> p i = 0).
(** A vector that is a pure multiple of another, in space. *)
Definition scaled (f : R) (u v : nat -> R) : Prop := forall i, (1 <= i < 4)%nat -> v i = f * u i.
