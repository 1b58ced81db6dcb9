(** Property theorems: grid arrays in files (C79). *)
From Coq Require Import List Arith Lia.
From Verif Require Import SlabModel SlabSpec SlabProofs.
Import ListNotations.

(** C79.  However the grid is divided, and in whatever order the processes write, each
    gets back the values of its own active zones; its ghost zones are untouched. *)
Theorem C79_round_trip : forall V ds procs file c (mem : array V) fresh,
  Forall (position ds) (map fst procs) -> NoDup (map fst procs) -> In (c, mem) procs -> forall m,
  read_array V ds c fresh (write_all V ds procs file) m = if active ds m then Some (mem m) else fresh m.
Proof. exact round_trip. Qed.
Print Assumptions C79_round_trip.
(** Nobody writes outside the file, and no element is written by two processes. *)
Theorem C79_in_bounds : forall ds c x, position ds c -> inside ds c x = true -> in_bounds ds x.
Proof. exact inside_bounds. Qed.
Print Assumptions C79_in_bounds.
Theorem C79_disjoint : forall ds c c' x, position ds c -> position ds c' ->
  inside ds c x = true -> inside ds c' x = true -> c = c'.
Proof. exact inside_unique. Qed.
Print Assumptions C79_disjoint.
(** If the processes divide the grid evenly every element is written; *)
Theorem C79_covered_partial : forall ds x, Forall (fun d => 0 < cpu d /\ tot d = cpu d * len d) ds -> in_bounds ds x ->
  exists c, position ds c /\ inside ds c x = true.
Proof. exact covered. Qed.
Print Assumptions C79_covered_partial.
(** otherwise some are not. *)
Theorem C79_covered_refuted : exists ds x, Forall (fun d => 0 < cpu d <= tot d) ds /\ in_bounds ds x /\
  forall c, position ds c -> inside ds c x = false.
Proof. exact hole_refuted. Qed.
Print Assumptions C79_covered_refuted.
Example C79_nonvacuous : let ds := [mkdim 12 3 3; mkdim 8 2 3; mkdim 5 1 0] in
  position ds [2; 1; 0] /\ active ds [4; 6; 2] = true /\ active ds [2; 6; 2] = false /\
  to_file ds [2; 1; 0] [4; 6; 2] = [9; 7; 2] /\ inside ds [2; 1; 0] [9; 7; 2] = true.
Proof. split; [repeat constructor; cbn; lia|]. vm_compute. repeat split. Qed.
