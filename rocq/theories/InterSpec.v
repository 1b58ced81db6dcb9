(** Vocabulary for interactions. *)
From Coq Require Import Reals List.
From Verif Require Import RLib GeomModel InterModel.
Import ListNotations.
Open Scope R_scope.

Fixpoint rsum {A} (f : A -> R) (l : list A) : R := match l with [] => 0 | a :: l => f a + rsum f l end.
(** every packet of the process, dealt with or not *)
Definition packets (s : state) : list packet := (done s ++ todo s)%list.
(** total weight, and total momentum of the packets *)
Definition weight (s : state) : R := rsum w (packets s).
Definition momentum (s : state) (mu : nat) : R := rsum (fun p => w p * K p mu) (packets s).
(** weight that was absorbed *)
Definition absorbed (s : state) : R := rsum (fun e => match e with EAbs _ _ x => x | EScat _ _ _ => 0 end) (events s).
(** what the fluid has received: four-force times step and volume *)
Definition impulse (s : state) (mu : nat) : R := rsum (fun zg => snd zg mu) (radG s).
(** the interactions of one packet, latest first *)
Definition of (i : nat) (e : event) : bool := match e with EAbs j _ _ | EScat j _ _ => Nat.eqb i j end.
Definition when (e : event) : R := match e with EAbs _ x _ | EScat _ x _ => x end.
Definition history (i : nat) (s : state) : list event := filter (of i) (events s).

(** Samples for which nothing fails and no packet is thrown away. *)
Definition smooth (m : sample) : Prop := at_ m <> Bad /\ scatter_ok m = true /\ push_ok m = true.
(** Positive sampled depths, non-negative optical depths, biases of at least one. *)
Definition sound (m : sample) : Prop :=
  0 < xabs m /\ 0 <= dabs m /\ Forall (fun c => 0 < xs c /\ 0 <= ds c /\ 1 <= bs c) (chans m).
(** The sampled depth of process c is reached within the step. *)
Definition reached (c : chan) := xs c <= ds c.
(** Process (x, d) is reached no later than (x', d'), as a fraction of the step (with
    the code's guard against division by zero). *)
Definition before (x d x' d' : R) := x * (d' + SMALL) < x' * (d + SMALL).
