(** Vocabulary for the creation of tracers. *)
From Coq Require Import Reals Bool ZArith List.
From Verif Require Import RLib BinModel TracModel.
Import ListNotations.
Open Scope R_scope.

(** all tracers of a process *)
Definition tracers (lists : list (list tracer)) : list tracer := concat lists.
Fixpoint sumR (l : list R) : R := match l with [] => 0 | a :: l => a + sumR l end.
(** the tracer says it comes from zone (i, j, k) *)
Definition eqo (a : option Z) (b : Z) : bool := match a with Some a => Z.eqb a b | None => false end.
Definition comes_from (z : zone) (t : tracer) : bool := eqo (origin t 1%nat) (zi z) && eqo (origin t 2%nat) (zj z) && eqo (origin t 3%nat) (zk z).
(** mass density times proper volume element of a zone *)
Definition zone_mass (m : grid) (z : zone) : R := rho z * gdet z * (dx m 1%nat * dx m 2%nat * dx m 3%nat).
(** zones of a process: different ones, with indices that are ints *)
Definition zones_ok (zs : list zone) : Prop := NoDup (map (fun z => (zi z, zj z, zk z)) zs) /\
  forall z, In z zs -> forall dir, (0 <= ijk z dir < INT_MAX)%Z.
(** the numbers a, a+1, ..., a+n-1 *)
Definition run (a : Z) (n : nat) : list Z := map (fun i => (a + Z.of_nat i)%Z) (seq 0 n).
(** all processes of a run sample, each from its own zones with its own random numbers, and
    all of them come to an end *)
Definition all_sample (m : nat -> grid) (rnd : nat -> nat -> R) (fuel : nat) (ntracers NTOT : Z) (nthreads : nat) (start : nat -> nat)
    (procs : list (list zone)) (outs : list (list (list tracer))) : Prop :=
  length outs = length procs /\
  forall r zs ls, nth_error procs r = Some zs -> nth_error outs r = Some ls ->
    sample_all_tracers (m r) (rnd r) fuel ntracers NTOT (reduce procs) (Z.of_nat (length procs)) (Z.of_nat r) nthreads (start r) zs
      (repeat [] nthreads) = Ok ls.
Definition all_ids (outs : list (list (list tracer))) : list Z := map id (concat (map tracers outs)).
