(** Random numbers: core/random.c:14-23, core/main.c:102-106, 277-282.  The generator is
    gsl's mt19937, which is not part of the repository and could not be read here.  Taken
    for granted of it: it takes its seed modulo 2^32 and uses 4357 for 0, and what it gives
    then is a function [gen] of that seed and of the number of the draw. *)
From Coq Require Import ZArith List.
Import ListNotations.
Open Scope Z_scope.

(** random.c:14: the largest int *)
Definition INT_MAX : Z := 2147483647.
(** main.c:282: init_random(300 * mpi_myrank()); random.c:19: seed + omp_get_thread_num().
    None: the multiplication or the addition leaves the range of int *)
Definition seed_of (rank thread : Z) : option Z :=
  let seed := 300 * rank in
  if seed <=? INT_MAX then if seed + thread <=? INT_MAX then Some (seed + thread) else None else None.
(** random.c:19, what gsl_rng_set makes of it (taken for granted, see above) *)
Definition effective (seed : Z) : Z := let s := seed mod 4294967296 in if s =? 0 then 4357 else s.

Section Draws.
Context {A : Type}.
Variable gen : Z -> nat -> A.
(** random.c:23: n draws of a generator from its number [from] on *)
Definition draws (seed : Z) (from n : nat) : list A := map (gen (effective seed)) (seq from n).
(** The draws of one thread in a run that is restarted: the number of draws of each part.
    init_first (main.c:111) is called before restart_init (114), and no restart file holds
    the generators, so that each part begins at 0. *)
Definition parts (seed : Z) (ns : list nat) : list (list A) := map (fun n => draws seed 0 n) ns.
End Draws.
