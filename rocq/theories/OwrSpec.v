(** Vocabulary for written tables of opacities. *)
From Coq Require Import Reals ZArith List.
From Verif Require Import IntLib.
Open Scope R_scope.

(** the i-th of n values at equal distances from lo to hi *)
Definition between_ends (lo hi : R) (n i : Z) : R := lo * (1 - IZR i / IZR (n - 1)) + hi * (IZR i / IZR (n - 1)).
(** the list holds what is stored at the elements 0 to size - 1 *)
Definition holds (l : list R) (size : Z) (b : Z -> option R) : Prop :=
  Z.of_nat (length l) = size /\ forall a, (0 <= a < size)%Z -> rd l a = b a.
