(** Positions of processes and sensible grids. *)
From Coq Require Import List Arith.
From Verif Require Import SlabModel.
Import ListNotations.

(** [c] is the position of a process: one coordinate per dimension, below cpu. *)
Definition position (ds : list dim) (c : list nat) := Forall2 (fun d c0 => c0 < cpu d) ds c.
Definition in_bounds (ds : list dim) (x : list nat) := Forall2 (fun d x0 => x0 < tot d) ds x.
