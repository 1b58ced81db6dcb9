(** What the accumulators should hold. *)
From Coq Require Import List Reals.
From Verif Require Import AccModel.
Import ListNotations.

(** The sum of everything recorded since the last reset. *)
Definition since_reset (ops : list spec_op) : R :=
  fold_left (fun a o => match o with Record_ _ x => (a + x)%R | Reduce => a | Reset => 0%R end) ops 0%R.
(** Every record is made by an existing rank. *)
Definition by_ranks (n : nat) (ops : list spec_op) := forall r x, In (Record_ r x) ops -> r < n.
