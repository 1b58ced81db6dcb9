(** Creation of tracers.  core/tracers.c:233-270 (set_tracer), 296-365, 382-395. *)
From Coq Require Import Reals Bool ZArith List.
From Verif Require Import RLib XLib IntLib BinModel.
Import ListNotations.
Open Scope R_scope.

Definition INT_MAX : Z := 2147483647.
(** What a call comes to: a value, exit(1), undefined behaviour, or (only in loops) not yet
    finished. *)
Inductive result (A : Type) := Ok (a : A) | Exit | Undef | More.
Arguments Ok {A}. Arguments Exit {A}. Arguments Undef {A}. Arguments More {A}.

(** A zone of a process: its indices, the value of tcrs_in_cell, P[..][RHO] and the square
    root of the metric determinant at its centre. *)
Record zone := mkz { zi : Z; zj : Z; zk : Z; flag : bool; rho : R; gdet : R }.
Definition ijk (z : zone) (dir : nat) : Z := match dir with 1%nat => zi z | 2%nat => zj z | _ => zk z end.
(** The members of struct of_photon that set_tracer fills; the velocities are not
    represented. *)
Record tracer := mkt { id : Z; pos : nat -> R; origin : nat -> option Z; mass : R }.

(** 382-395.  Only the I/O process exits; elsewhere a number that is too large is converted
    to int, which keeps the low 32 bits. *)
Definition tracer_max_id (io : bool) (ntracers : Z) : result Z :=
  if (INT_MAX <? ntracers)%Z && io then Exit
  else let n := (ntracers mod 4294967296)%Z in Ok (if (n <=? INT_MAX)%Z then n else (n - 4294967296)%Z).

(** 343-345.  [fuel] bounds the number of times the condition is evaluated. *)
Fixpoint more (fuel : nat) (ncells total k : Z) : result Z :=
  match fuel with
  | O => More
  | S f => if (INT_MAX <? k * ncells)%Z then Undef
           else if (k * ncells <? total)%Z then more f ncells total (k + 1) else Ok k
  end.
Definition tcrs_p_cell (fuel : nat) (ncells total : Z) : result Z :=
  if (ncells =? 0)%Z then Undef
  else let q := (total / ncells)%Z in more fuel ncells total (if (q >? 1)%Z then q else 1%Z).

Section Sample.
Variable m : grid.
(** the random numbers of this process in the order they are drawn *)
Variable rnd : nat -> R.

(** 302-312, 236-263: tracer number [q] of this process; SDLOOP draws three numbers.  The
    origin is where Xtoijk finds it. *)
Definition make_tracer (z : zone) (k last : Z) (q : nat) : tracer :=
  let x dir := coord m CORN (ijk z) dir + rnd (3 * q + (dir - 1))%nat * dx m dir in
  mkt last x (Xtoijk m (fun n => Fin (x n))) (rho z * gdet z * dx m 1%nat * dx m 2%nat * dx m 3%nat / IZR k).
(** 296-314, with [n] tracers to go *)
Fixpoint sample_cell (z : zone) (k : Z) (n : nat) (last : Z) (q : nat) (head : list tracer) : list tracer :=
  match n with
  | O => head
  | S n => sample_cell z k n (last + 1)%Z (S q) (make_tracer z k last q :: head)
  end.
(** the loop 349-353; last_id must stay an int *)
Fixpoint sample_zones (k : Z) (zs : list zone) (last : Z) (q : nat) (head : list tracer) : result (list tracer) :=
  match zs with
  | [] => Ok head
  | z :: zs =>
      if flag z then
        if (INT_MAX <? last + k)%Z then Undef
        else sample_zones k zs (last + k) (q + Z.to_nat k) (sample_cell z k (Z.to_nat k) last q head)
      else sample_zones k zs last q head
  end.

(** swap_ph (rad_utils.c:558-570) onto thread [i] *)
Fixpoint push_head {A} (ls : list (list A)) (i : nat) (x : A) : list (list A) :=
  match ls, i with
  | [], _ => []
  | l :: ls, O => (x :: l) :: ls
  | l :: ls, S i => l :: push_head ls i x
  end.
(** 355-364: the inner loop runs over the threads from thread_start on, the outer one
    starts it again *)
Fixpoint deal {A} (nthreads start ip : nat) (l : list A) (lists : list (list A)) : list (list A) :=
  match l with
  | [] => lists
  | x :: l => deal nthreads start (S ip) l (push_head lists ((start + ip) mod nthreads) x)
  end.

(** 322-365 on process [rank] of [nprocs], with its zones in the order of ZLOOP; [ncells] is
    what mpi_reduce_int gives, NTOT = N1TOT * N2TOT * N3TOT.  The product 1.5 * p * rank is
    at most 1.5 * 2^31 and is exact in double precision. *)
Definition sample_all_tracers (fuel : nat) (ntracers NTOT ncells nprocs rank : Z) (nthreads start : nat) (zs : list zone)
    (lists : list (list tracer)) : result (list (list tracer)) :=
  match tracer_max_id (rank =? 0)%Z ntracers with
  | Ok total =>
      if (INT_MAX <? NTOT)%Z then Undef
      else if (total <? NTOT)%Z then Exit
      else
        let p := (total / nprocs)%Z in
        let id_global := (3 * p * rank / 2)%Z in
        if (INT_MAX <? id_global)%Z then Undef
        else match tcrs_p_cell fuel ncells total with
        | Ok k =>
            match sample_zones k zs id_global 0 [] with
            | Ok l => Ok (deal nthreads start 0 l lists)
            | Exit => Exit | Undef => Undef | More => More
            end
        | Exit => Exit | Undef => Undef | More => More
        end
  | Exit => Exit | Undef => Undef | More => More
  end.
End Sample.
(** 340-342: the reduction over the processes of the numbers of tracer cells *)
Definition cells (zs : list zone) : Z := Z.of_nat (length (filter flag zs)).
Definition reduce (procs : list (list zone)) : Z := fold_right (fun zs n => (cells zs + n)%Z) 0%Z procs.
