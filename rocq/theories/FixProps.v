(** Property theorems C14 (repair of bad zones, fixup_utoprim). *)
From Coq Require Import ZArith List Bool QArith.
Import ListNotations.
From Verif Require Import ExchModel FixModel FixSpec FixProofs.
Open Scope Z_scope.

(** The repair loop ends for every grid size, state, pattern of bad zones and
    behaviour of fixup1zone. *)
Theorem C14_terminates : forall fx n P pflag,
  exists fuel r, forall fuel', (fuel <= fuel')%nat ->
  fixup_utoprim fx n fuel' P pflag = Some r.
Proof. exact terminates. Qed.
Print Assumptions C14_terminates.

(** Usable zones keep their values, zones left bad too, ghost zones too; a
    repaired zone gets fixup1zone applied to a convex combination of the final
    values of adjacent zones that were usable or were repaired in an earlier
    sweep, each of these with positive weight; its magnetic field (components
    from 5) is its own. *)
Theorem C14_sources : forall fx n fuel P pflag P' f' called,
  fixup_utoprim fx n fuel P pflag = Some (P', f', called) ->
  exists lvl : v3 -> nat,
  (forall z, near n z -> usable n pflag z -> lvl z = 0%nat /\ f' z = 1 /\ P' z = P z) /\
  (forall z, near n z -> ~ usable n pflag z -> f' z = 0 -> P' z = P z) /\
  (forall z, near n z -> ~ usable n pflag z -> f' z <> 0 ->
     inside n z /\ (0 < lvl z)%nat /\
     exists x ok, fx z x = (P' z, ok) /\ f' z = (if ok then 1 else -333) /\
       convex_of (fun w => f' w = 1 /\ (lvl w < lvl z)%nat) P' z x /\
       (forall ip, (5 <= ip)%nat -> x ip = P z ip)).
Proof. exact sources. Qed.
Print Assumptions C14_sources.

(** A single usable zone in the block or its first ghost layer suffices for
    all zones to be repaired, provided fixup1zone never reports a failure
    (theorem C67_gamma_defined: it does not when the spatial metric is positive
    semidefinite). *)
Theorem C14_complete : forall fx n, (forall d, 0 < get d n) ->
  forall fuel P pflag P' f' called g,
  (forall z x, snd (fx z x) = true) ->
  fixup_utoprim fx n fuel P pflag = Some (P', f', called) ->
  near n g -> usable n pflag g ->
  (forall z, inside n z -> f' z = 1) /\ called = false.
Proof. exact complete. Qed.
Print Assumptions C14_complete.

(** Without any usable zone nothing is changed and the floors are applied. *)
Theorem C14_hopeless : forall fx n, (forall d, 0 < get d n) ->
  forall fuel P pflag P' f' called,
  fixup_utoprim fx n fuel P pflag = Some (P', f', called) ->
  (forall z, near n z -> ~ usable n pflag z) ->
  called = true /\ (forall z, P' z = P z) /\ (forall z, inside n z -> f' z = 0).
Proof. exact hopeless. Qed.
Print Assumptions C14_hopeless.

(** Whatever fixup1zone does: a zone left bad touches no good zone, or touches
    one whose own repair failed. *)
Theorem C14_leftover : forall fx n, (forall d, 0 < get d n) ->
  forall fuel P pflag P' f' called,
  fixup_utoprim fx n fuel P pflag = Some (P', f', called) ->
  forall z, inside n z -> f' z = 0 ->
  (forall w, adjacent z w -> f' w <> 1) \/ (exists w, adjacent z w /\ f' w = -333).
Proof. exact leftover. Qed.
Print Assumptions C14_leftover.

(** If fixup1zone reports a failure (flag -333), zones may stay bad although a
    usable zone is connected to them, and the fallback is skipped. *)
Theorem C14_poisoned_refuted : exists fx n P pflag fuel P' f' called g,
  (forall d, 0 < get d n) /\ near n g /\ usable n pflag g /\
  fixup_utoprim fx n fuel P pflag = Some (P', f', called) /\
  called = false /\ exists z, inside n z /\ f' z = 0.
Proof. exact poisoned. Qed.
Print Assumptions C14_poisoned_refuted.

(** Four zones in a row, the first good with density 8: the second is repaired
    in the first sweep, the third in the second, the fourth in the third. *)
Definition ex_flag (z : v3) : Z := if v3_eqb z (V3 0 0 0) then 0 else 1.
Example C14_nonvacuous :
  (forall d, 0 < get d (V3 4 1 1)) /\ near (V3 4 1 1) (V3 0 0 0) /\ usable (V3 4 1 1) ex_flag (V3 0 0 0) /\
  match fixup_utoprim (fun z x => (x, true)) (V3 4 1 1) 3 (fun z ip => if v3_eqb z (V3 0 0 0) then 8%Q else 1%Q) ex_flag with
  | Some (P', f', called) =>
      map (fun i => Qred (P' (V3 i 0 0) 0%nat)) [0; 1; 2; 3] = [8%Q; 8%Q; 8%Q; 8%Q] /\
      map (fun i => f' (V3 i 0 0)) [0; 1; 2; 3] = [1; 1; 1; 1] /\ called = false
  | None => False end /\
  fixup_utoprim (fun z x => (x, true)) (V3 4 1 1) 2 (fun z ip => 1%Q) ex_flag = None.
Proof.
  split; [intros [| |]; reflexivity|]. split; [intros [| |]; split; discriminate|].
  split; [split; [reflexivity|exists D1; split; [discriminate|reflexivity]]|].
  split; vm_compute; repeat split; reflexivity.
Qed.
