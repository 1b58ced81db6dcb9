(** Mass of all tracers.  core/tracers.c:367-380. *)
From Coq Require Import Reals Bool List.
Import ListNotations.
Open Scope R_scope.

(** A member of photon_lists: whether its type is TYPE_TRACER (372), and its weight. *)
Record packet := mkp { is_tracer : bool; weight : R }.
(** 371-376: the loop over the list of one thread, [mass] so far *)
Fixpoint add_list (l : list packet) (mass : R) : R :=
  match l with
  | [] => mass
  | ph :: l => add_list l (if is_tracer ph then mass + weight ph else mass)
  end.
(** 368-377: the loop over the threads *)
Fixpoint add_threads (lists : list (list packet)) (mass : R) : R :=
  match lists with
  | [] => mass
  | l :: lists => add_threads lists (add_list l mass)
  end.
(** 367-380 with mpi_reduce (mpi.c:606-610, MPI_Allreduce with MPI_SUM): what every process returns *)
Definition get_total_tracer_mass (procs : list (list (list packet))) : R :=
  fold_right Rplus 0 (map (fun lists => add_threads lists 0) procs).
