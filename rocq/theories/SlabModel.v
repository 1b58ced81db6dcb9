(** Grid arrays in output and restart files: which part of the file each process
    writes and reads.  core/io.c:89-136, 196-213 (the hyperslabs), 2248-2343
    (write_array, read_array), core/mpi.c:77 (global_start). *)
From Coq Require Import List Arith Bool.
Import ListNotations.

Section Slab.
Variable V : Type.

(** One dimension of an array: its global extent, the number of processes along it
    and the ghost zones on each side in memory.  A dimension of components (NVAR,
    NDIM, ...) has one process and no ghost zones. *)
Record dim := mkdim { tot : nat; cpu : nat; ghost : nat }.

(** core/decs.h:55-57 N1 = N1TOT / N1CPU and io.c:91 fcount *)
Definition len (d : dim) := tot d / cpu d.
(** core/mpi.c:77 and io.c:196-210 fstart, for the process at position [c] *)
Definition start (d : dim) (c : nat) := c * tot d / cpu d.

(** Multi-indices are lists, one entry per dimension; arrays are functions of them. *)
Definition array := list nat -> V.

(** The multi-index [x] lies in the block of the process at [c], and its offset there. *)
Fixpoint inside (ds : list dim) (c x : list nat) : bool :=
  match ds, c, x with
  | [], [], [] => true
  | d :: ds, c0 :: c, x0 :: x =>
      (start d c0 <=? x0) && (x0 <? start d c0 + len d) && inside ds c x
  | _, _, _ => false
  end.
(** Where file element [x] is in the memory of the process at [c]: H5Sselect_hyperslab
    pairs the two selections in order, mstart = NG. *)
Fixpoint to_mem (ds : list dim) (c x : list nat) : list nat :=
  match ds, c, x with
  | d :: ds, c0 :: c, x0 :: x => ghost d + (x0 - start d c0) :: to_mem ds c x
  | _, _, _ => []
  end.
Fixpoint to_file (ds : list dim) (c m : list nat) : list nat :=
  match ds, c, m with
  | d :: ds, c0 :: c, m0 :: m => start d c0 + (m0 - ghost d) :: to_file ds c m
  | _, _, _ => []
  end.
(** Memory element [m] is an active zone (not a ghost zone). *)
Fixpoint active (ds : list dim) (m : list nat) : bool :=
  match ds, m with
  | [], [] => true
  | d :: ds, m0 :: m => (ghost d <=? m0) && (m0 <? ghost d + len d) && active ds m
  | _, _ => false
  end.

(** io.c:2248-2309 on one process: copies its active zones into its block. *)
Definition write_array (ds : list dim) (c : list nat) (mem : array) (file : list nat -> option V) :
    list nat -> option V :=
  fun x => if inside ds c x then Some (mem (to_mem ds c x)) else file x.
(** All processes, in the order given. *)
Fixpoint write_all (ds : list dim) (procs : list (list nat * array)) (file : list nat -> option V) :
    list nat -> option V :=
  match procs with
  | [] => file
  | (c, mem) :: procs => write_all ds procs (write_array ds c mem file)
  end.
(** io.c:2311-2343 on one process: overwrites its active zones; None for an element of
    the file that nobody wrote. *)
Definition read_array (ds : list dim) (c : list nat) (mem : list nat -> option V) (file : list nat -> option V) :
    list nat -> option V :=
  fun m => if active ds m then file (to_file ds c m) else mem m.
End Slab.
