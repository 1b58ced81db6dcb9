(** Sums over superphotons and zones; the causal cone. *)
From Coq Require Import Reals ZArith List.
From Verif Require Import GeomSpec.
Import ListNotations.
Open Scope R_scope.

Definition total {A} (f : A -> R) (l : list A) : R := fold_right (fun a s => f a + s) 0 l.
Definition totalZ {A} (f : A -> Z) (l : list A) : Z := fold_right (fun a s => (f a + s)%Z) 0%Z l.
(** Timelike or null, pointing to the future, or zero. *)
Definition causal (G : nat -> nat -> R) (v : nat -> R) : Prop := inner G v v <= 0 /\ 0 <= v 0%nat.
(** T^mu_nu contracted with a vector in its lower index. *)
Definition act (T : nat -> nat -> R) (u : nat -> R) : nat -> R := fun mu => sigma4 (fun nu => T mu nu * u nu).
(** T^{mu nu} with the second index raised is symmetric: T^mu_nu x^nu y_mu is. *)
Definition self_adjoint (G T : nat -> nat -> R) : Prop := forall x y, inner G (act T x) y = inner G x (act T y).
