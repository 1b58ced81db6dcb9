(** Vocabulary for adiabats and for the filter. *)
From Coq Require Import Reals ZArith List.
From Verif Require Import RLib IntLib.
Import ListNotations.
Open Scope R_scope.

(** how many members of l are at most, at least, other than m *)
Definition at_most (m : R) (l : list R) : nat := length (filter (fun x => Rleb x m) l).
Definition at_least (m : R) (l : list R) : nat := length (filter (fun x => Rleb m x) l).
Definition other (m : R) (l : list R) : nat := length (filter (fun x => negb (Reqb x m)) l).
(** m is a member of l with more than half of l on either side, itself included *)
Definition middle (m : R) (l : list R) : Prop :=
  In m l /\ (length l < 2 * at_most m l)%nat /\ (length l < 2 * at_least m l)%nat.
(** the entry (i, j, k) of an n1 by n2 by n3 table, and the entries at most 3 away in
    each index *)
Definition entry (n1 n2 : Z) (tab : list R) (i j k : Z) : R := nth (Z.to_nat (n1 * (k * n2 + j) + i)) tab 0.
Definition steps : list Z := [-3; -2; -1; 0; 1; 2; 3]%Z.
Definition around (n1 n2 : Z) (tab : list R) (i j k : Z) : list R :=
  flat_map (fun c => flat_map (fun b => map (fun a => entry n1 n2 tab (i + a) (j + b) (k + c)) steps) steps) steps.
(** at least 3 away from every edge *)
Definition inner (n1 n2 n3 i j k : Z) : Prop := (3 <= i < n1 - 3 /\ 3 <= j < n2 - 3 /\ 3 <= k < n3 - 3)%Z.
(** what the filter makes of v with m in the middle of its surroundings *)
Definition smoothed (v m w : R) : Prop := (10 * Rabs m < Rabs (m - v) /\ w = m) \/ (Rabs (m - v) <= 10 * Rabs m /\ w = v).
