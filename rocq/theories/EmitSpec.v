(** Vocabulary for emission: momentum, counts and limits, independent of the sampling code. *)
From Coq Require Import Reals ZArith List.
From Verif Require Import XLib.
Import ListNotations.
Open Scope R_scope.

(** sum of f over a list *)
Definition total {A} (f : A -> R) (l : list A) : R := fold_right (fun a s => f a + s) 0 l.
(** a finite factor within limits *)
Definition within (lo hi : R) (c : X) : Prop := exists f, c = Fin f /\ lo <= f <= hi.
(** draws of a generator on [0,1) *)
Definition unit_draws (ds : list R) : Prop := Forall (fun r => 0 <= r < 1) ds.
(** the two momenta add up to 2E in the rest frame of the fluid with velocity U *)
Definition cancel (U K K' : nat -> R) (E : R) : Prop := forall mu, (mu < 4)%nat -> K mu + K' mu = 2 * E * U mu.
(** the weights w w' of momenta K K' leave no net momentum in the rest frame of U *)
Definition no_net (U K K' : nat -> R) (w w' : R) : Prop := exists e, forall mu, (mu < 4)%nat -> w * K mu + w' * K' mu = e * U mu.
(** lying between two numbers *)
Definition between (a b v : R) : Prop := Rmin a b <= v <= Rmax a b.
(** entries of a table of relative probabilities *)
Definition relative (l : list R) (m : R) (t : list X) : Prop :=
  t = map (fun x => Fin (x / m)) l /\ In m l /\ forall x, In x l -> x <= m.
(** electron lepton number carried by a neutrino of each type *)
Definition lepton_number (ty : Z) : R := match ty with 0%Z => 1 | 1%Z => -1 | _ => 0 end.
