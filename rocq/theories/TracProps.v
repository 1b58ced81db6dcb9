(** Property theorems C30 (identifiers of tracers), C31 (numbers of tracers) and C88 (masses
    and places of tracers). *)
From Coq Require Import Reals Bool ZArith List Lia.
From Verif Require Import RLib BinModel TracModel TracSpec TracProofs.
Import ListNotations.
Open Scope R_scope.

(** C30.  The tracers of one process have different identifiers. *)
Theorem C30_rank : forall m rnd fuel n NTOT nc np rank nt start zs ls,
  sample_all_tracers m rnd fuel n NTOT nc np rank nt start zs (repeat [] nt) = Ok ls ->
  (0 <= n <= INT_MAX)%Z -> (0 < nt)%nat -> (0 < nc <= NTOT)%Z -> NoDup (map id (tracers ls)).
Proof. exact rank_unique. Qed.
Print Assumptions C30_rank.
(** All identifiers of a run are different if no process makes more tracers than half as many
    again as its share; k is the number per tracer cell.  What is missing is the case of
    processes that make more. *)
Theorem C30_unique_partial : forall m rnd fuel n NTOT nt start procs outs,
  all_sample m rnd fuel n NTOT nt start procs outs -> (0 <= n <= INT_MAX)%Z -> (0 < nt)%nat -> (0 < reduce procs <= NTOT)%Z ->
  forall k, (n <= k * reduce procs < n + reduce procs)%Z ->
  (forall zs, In zs procs -> (k * cells zs <= 3 * (n / Z.of_nat (length procs)) / 2)%Z) -> NoDup (all_ids outs).
Proof. exact unique. Qed.
Print Assumptions C30_unique_partial.
(** They are different when all processes have the same number of tracer cells and at least
    two tracers per cell are asked for. *)
Theorem C30_even_partial : forall m rnd fuel n NTOT nt start procs outs,
  all_sample m rnd fuel n NTOT nt start procs outs -> (0 <= n <= INT_MAX)%Z -> (0 < nt)%nat -> (0 < reduce procs <= NTOT)%Z ->
  forall c, (forall zs, In zs procs -> cells zs = c) -> (2 * reduce procs <= n)%Z -> NoDup (all_ids outs).
Proof. exact unique_even. Qed.
Print Assumptions C30_even_partial.
(** False in general: two processes with nine zones each, all of the one and one of the other
    with tracers, and 18 tracers asked for. *)
Theorem C30_refuted : exists n NTOT procs o0 o1 x, (n = NTOT)%Z /\ (NTOT = Z.of_nat (length (concat procs)))%Z /\
  all_sample (fun _ => unit_grid) (fun _ _ => 1 / 2) 2 n NTOT 1 (fun _ => 0%nat) procs [o0; o1] /\
  In x (map id (tracers o0)) /\ In x (map id (tracers o1)).
Proof. exact clash_uneven. Qed.
Print Assumptions C30_refuted.
(** False even when every zone of the grid has tracers and the processes have equally many:
    16 zones and 17 tracers asked for. *)
Theorem C30_full_refuted : exists n NTOT procs o0 o1 x, (NTOT < n)%Z /\ (NTOT = Z.of_nat (length (concat procs)))%Z /\
  (forall zs, In zs procs -> length zs = 8%nat /\ forall z, In z zs -> flag z = true) /\
  all_sample (fun _ => unit_grid) (fun _ _ => 1 / 2) 2 n NTOT 1 (fun _ => 0%nat) procs [o0; o1] /\
  In x (map id (tracers o0)) /\ In x (map id (tracers o1)).
Proof. exact clash_even. Qed.
Print Assumptions C30_full_refuted.
(** A run to which C30_even_partial applies. *)
Example C30_nonvacuous : exists procs outs, all_sample (fun _ => unit_grid) (fun _ _ => 1 / 2) 2 32 16 1 (fun _ => 0%nat) procs outs /\
  (forall zs, In zs procs -> cells zs = 8%Z) /\ (reduce procs = 16)%Z /\ (forall zs, In zs procs -> zones_ok zs).
Proof. exact even_happens. Qed.

(** C31.  A run makes k tracers per tracer cell, k at least one, where k is the only number
    for which the total is at least what was asked for and exceeds it by less than the number
    of cells. *)
Theorem C31_count : forall m rnd fuel n NTOT nt start procs outs,
  all_sample m rnd fuel n NTOT nt start procs outs -> (0 <= n <= INT_MAX)%Z -> (0 < nt)%nat -> (0 < reduce procs <= NTOT)%Z ->
  forall k, (n <= k * reduce procs < n + reduce procs)%Z ->
  (1 <= k)%Z /\ Z.of_nat (length (concat (map tracers outs))) = (k * reduce procs)%Z.
Proof. exact all_count. Qed.
Print Assumptions C31_count.
Theorem C31_exists : forall m rnd fuel n NTOT nt start procs outs,
  all_sample m rnd fuel n NTOT nt start procs outs -> (0 <= n <= INT_MAX)%Z -> (0 < nt)%nat -> (0 < reduce procs <= NTOT)%Z ->
  exists k, (n <= k * reduce procs < n + reduce procs)%Z.
Proof. exact (fun m rnd fuel n NTOT nt start procs outs A N T C => match some_k m rnd fuel n NTOT nt start procs outs A N T C with ex_intro _ k (conj _ (conj _ (conj B _))) => ex_intro _ k B end). Qed.
Print Assumptions C31_exists.
(** The search for the number per cell evaluates its condition at most twice. *)
Theorem C31_terminates : forall m rnd fuel n NTOT nc np rank nt start zs lists, (0 <= n)%Z -> (0 <= nc <= NTOT)%Z -> (2 <= fuel)%nat ->
  sample_all_tracers m rnd fuel n NTOT nc np rank nt start zs lists <> More.
Proof. exact terminates. Qed.
Print Assumptions C31_terminates.
(** Each tracer cell gets the same number of tracers, and no other cell gets any. *)
Theorem C31_even : forall m rnd fuel n NTOT nc np rank nt start zs ls,
  sample_all_tracers m rnd fuel n NTOT nc np rank nt start zs (repeat [] nt) = Ok ls ->
  (0 <= n <= INT_MAX)%Z -> (0 < nt)%nat -> (0 < nc <= NTOT)%Z -> (forall dir, 0 < dx m dir) -> (forall i, 0 <= rnd i < 1) -> zones_ok zs ->
  forall z k, In z zs -> (n <= k * nc < n + nc)%Z ->
  Z.of_nat (length (filter (comes_from z) (tracers ls))) = if flag z then k else 0%Z.
Proof. exact rank_even_cells. Qed.
Print Assumptions C31_even.
(** Without a tracer cell anywhere the number per cell is a division by zero. *)
Theorem C31_no_cells : forall m rnd fuel n NTOT np rank nt start zs lists, (0 <= n <= INT_MAX)%Z -> (NTOT <= n)%Z ->
  (3 * (n / np) * rank / 2 <= INT_MAX)%Z -> sample_all_tracers m rnd fuel n NTOT 0 np rank nt start zs lists = Undef.
Proof. exact no_cells. Qed.
Print Assumptions C31_no_cells.
(** A number of tracers that tracer_max_id accepts can overflow the search for the number per
    cell. *)
Theorem C31_overflow_refuted : exists zs, cells zs = 2%Z /\ forall m rnd fuel nt start lists, (2 <= fuel)%nat ->
  sample_all_tracers m rnd fuel INT_MAX 2 (cells zs) 1 0 nt start zs lists = Undef.
Proof. exact overflow. Qed.
Print Assumptions C31_overflow_refuted.
(** The run of C30_nonvacuous makes 32 tracers. *)
Example C31_nonvacuous : exists procs outs, all_sample (fun _ => unit_grid) (fun _ _ => 1 / 2) 2 32 16 1 (fun _ => 0%nat) procs outs /\
  length (concat (map tracers outs)) = 32%nat.
Proof. exact even_makes. Qed.

(** C88.  The tracers that come from a tracer cell share its mass. *)
Theorem C88_cell : forall m rnd fuel n NTOT nc np rank nt start zs ls,
  sample_all_tracers m rnd fuel n NTOT nc np rank nt start zs (repeat [] nt) = Ok ls ->
  (0 <= n <= INT_MAX)%Z -> (0 < nt)%nat -> (0 < nc <= NTOT)%Z -> (forall dir, 0 < dx m dir) -> (forall i, 0 <= rnd i < 1) -> zones_ok zs ->
  forall z, In z zs -> sumR (map mass (filter (comes_from z) (tracers ls))) = if flag z then zone_mass m z else 0.
Proof. exact rank_cell_mass. Qed.
Print Assumptions C88_cell.
(** All tracers of a process together have the mass of its tracer cells. *)
Theorem C88_total : forall m rnd fuel n NTOT nc np rank nt start zs ls,
  sample_all_tracers m rnd fuel n NTOT nc np rank nt start zs (repeat [] nt) = Ok ls ->
  (0 <= n <= INT_MAX)%Z -> (0 < nt)%nat -> (0 < nc <= NTOT)%Z ->
  sumR (map mass (tracers ls)) = sumR (map (zone_mass m) (filter flag zs)).
Proof. exact rank_mass. Qed.
Print Assumptions C88_total.
(** Every tracer is inside a tracer cell, and inside the one it names as its origin. *)
Theorem C88_place : forall m rnd fuel n NTOT nc np rank nt start zs ls,
  sample_all_tracers m rnd fuel n NTOT nc np rank nt start zs (repeat [] nt) = Ok ls ->
  (0 <= n <= INT_MAX)%Z -> (0 < nt)%nat -> (0 < nc <= NTOT)%Z -> (forall dir, 0 < dx m dir) -> (forall i, 0 <= rnd i < 1) -> zones_ok zs ->
  forall t, In t (tracers ls) -> exists z, In z zs /\ flag z = true /\ comes_from z t = true /\
    forall dir, coord m CORN (ijk z) dir <= pos t dir < coord m CORN (fun d => (ijk z d + 1)%Z) dir.
Proof. exact rank_place. Qed.
Print Assumptions C88_place.
(** The threads get equally many tracers, up to one. *)
Theorem C88_threads : forall m rnd fuel n NTOT nc np rank nt start zs ls i j,
  sample_all_tracers m rnd fuel n NTOT nc np rank nt start zs (repeat [] nt) = Ok ls -> (i < nt)%nat -> (j < nt)%nat ->
  (length (nth i ls []) <= length (nth j ls []) + 1)%nat.
Proof. exact rank_even. Qed.
Print Assumptions C88_threads.
(** The eight cells of unit mass on either process of the same run. *)
Example C88_nonvacuous : exists procs outs, all_sample (fun _ => unit_grid) (fun _ _ => 1 / 2) 2 32 16 1 (fun _ => 0%nat) procs outs /\
  forall ls, In ls outs -> sumR (map mass (tracers ls)) = 8.
Proof. exact even_mass. Qed.
