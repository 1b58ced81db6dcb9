(** Property theorems: output accumulators (C52, C55, C66). *)
From Coq Require Import List Arith Reals Lra.
From Verif Require Import AccModel AccSpec AccProofs.
Import ListNotations.

(** C55.  Resetting clears every element of every accumulator but radG_int, *)
Theorem C55_cleared_partial : forall z v v' a i, reset_dump_variables z v = Some v' -> a <> A_radG_int ->
  i < declared z a -> v' a i = 0%R.
Proof. exact others_cleared. Qed.
Print Assumptions C55_cleared_partial.
(** and stays inside the arrays as long as there are no more radiation types than
    components of radG_int. *)
Theorem C55_in_bounds : forall z v, RAD_NUM_TYPES z <= NDIM + NRADCOMP z ->
  exists v', reset_dump_variables z v = Some v'.
Proof. exact reset_defined. Qed.
Print Assumptions C55_in_bounds.
(** radG_int is not cleared in any build with fewer types than components; *)
Theorem C55_radG_kept : forall z v v', reset_dump_variables z v = Some v' -> 0 < N123G z ->
  RAD_NUM_TYPES z < NDIM + NRADCOMP z ->
  exists i, i < declared z A_radG_int /\ v' A_radG_int i = v A_radG_int i.
Proof. exact radG_kept. Qed.
Print Assumptions C55_radG_kept.
(** whole zones keep the sums of the previous interval, *)
Theorem C55_radG_zones : forall z v v' zone mu, reset_dump_variables z v = Some v' -> mu < NDIM + NRADCOMP z ->
  RAD_NUM_TYPES z * N123G z <= zone * (NDIM + NRADCOMP z) ->
  v' A_radG_int (zone * (NDIM + NRADCOMP z) + mu) = v A_radG_int (zone * (NDIM + NRADCOMP z) + mu).
Proof. exact radG_whole_zone. Qed.
Print Assumptions C55_radG_zones.
(** for light, for instance, three quarters of the zones. *)
Theorem C55_light_refuted : exists z v v' zone mu, RAD_NUM_TYPES z = 1 /\ NRADCOMP z = 0 /\
  reset_dump_variables z v = Some v' /\ zone < N123G z /\ mu < NDIM /\
  v' A_radG_int (zone * NDIM + mu) = v A_radG_int (zone * NDIM + mu) /\ v A_radG_int (zone * NDIM + mu) <> 0%R.
Proof. exact light_refuted. Qed.
Print Assumptions C55_light_refuted.
Example C55_nonvacuous : let z := mksizes 1000 3 2 4 3 60 0 0 in
  RAD_NUM_TYPES z < NDIM + NRADCOMP z /\ RAD_NUM_TYPES z * N123G z <= 500 * (NDIM + NRADCOMP z).
Proof. cbv. split; repeat constructor. Qed.

(** C52.  After a restart every accumulator the file holds is zero, whatever was saved, *)
Theorem C52_lost : forall z file fresh v' a i, restart_init z file fresh = Some v' -> a <> A_radG_int ->
  i < declared z a -> v' a i = 0%R.
Proof. exact restart_lost. Qed.
Print Assumptions C52_lost.
(** so none of the sums goes on from the value saved. *)
Theorem C52_continue_refuted : exists z file fresh v', restart_init z file fresh = Some v' /\
  forall a, In a [A_nuLnu; A_Nem; A_Nabs; A_Nsc; A_Nem_phys; A_Nabs_phys; A_Jrad; A_dtau_avg; A_en_int_avg] ->
  saved a = true /\ exists i, i < declared z a /\ v' a i <> file a i.
Proof. exact restart_refuted. Qed.
Print Assumptions C52_continue_refuted.

(** C66.  However often the spectrum is reduced, its total over the ranks is what was
    recorded since the last reset, *)
Theorem C66_total : forall n ops, 0 < n -> by_ranks n ops -> rsum (nuLnu (spec_run n ops)) = since_reset ops.
Proof. exact spectrum_total. Qed.
Print Assumptions C66_total.
(** and after a reduction the first rank holds all of it. *)
Theorem C66_root : forall n ops, 0 < n -> by_ranks n ops ->
  let s := spec_run n (ops ++ [Reduce]) in
  nth 0 (nuLnu s) 0%R = since_reset ops /\ forall i, 0 < i -> nth i (nuLnu s) 0%R = 0%R.
Proof. exact spectrum_root. Qed.
Print Assumptions C66_root.
Example C66_nonvacuous : let ops := [Record_ 0 1; Record_ 1 2; Reduce; Record_ 1 4; Reduce; Record_ 0 8]%R in
  by_ranks 2 ops /\ since_reset ops = 15%R.
Proof.
  split.
  - intros r x H. cbn in H. repeat (destruct H as [H|H]; [inversion H; auto|]). contradiction.
  - unfold since_reset. cbn. lra.
Qed.
