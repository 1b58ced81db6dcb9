(** Property theorems: restart files on disk (C49, C50). *)
From Coq Require Import List Arith.
From Verif Require Import RestartModel RestartSpec RestartProofs.
Import ListNotations.

(** C49.  Once a restart file has been finished, the pointer names a complete file
    exactly at the crash points outside the writing of a temporary file. *)
Theorem C49_between_writes_partial : forall ds l, crash ds l -> 0 < completed l ->
  (usable (run empty l) <-> ~ in_progress l).
Proof. exact crash_usable. Qed.
Print Assumptions C49_between_writes_partial.
(** At any crash point, also inside a write, the two files finished last are there and
    complete, so that the pointer can be repaired by hand; *)
Theorem C49_previous_kept : forall ds l k, crash ds l -> k < completed l -> completed l <= k + 2 ->
  exists q, temp (run empty l) k = Some (Complete (k + 1) q).
Proof. exact crash_previous. Qed.
Print Assumptions C49_previous_kept.
(** the program itself exits although two complete files are there. *)
Theorem C49_usable_refuted : exists ds l, crash ds l /\ 2 <= completed l /\
  resume (run empty l) = Exits /\ temp (run empty l) 1 <> None /\ temp (run empty l) 0 <> None.
Proof. exact pointer_refuted. Qed.
Print Assumptions C49_usable_refuted.
Example C49_nonvacuous :
  let l := firstn 6 (session [Temp; Perm; Temp] 0 0) in
  completed l = 1 /\ usable (run empty l) /\ ~ usable (run empty (firstn 7 (session [Temp; Perm; Temp] 0 0))).
Proof.
  split; [reflexivity|split].
  - exists 0, 1, 0. split; reflexivity.
  - intros (k & r & p & A & B). vm_compute in A. discriminate.
Qed.

(** C50.  After an uninterrupted run exactly the two newest temporary files exist, *)
Theorem C50_two_newest : forall ds k, let l := session ds 0 0 in
  temp (run empty l) k <> None <-> k < completed l <= k + 2.
Proof. exact done_two. Qed.
Print Assumptions C50_two_newest.
(** one temporary file having been finished for each that was asked for; *)
Theorem C50_one_each : forall ds,
  completed (session ds 0 0) = List.length (filter (fun d => match d with Temp => true | _ => false end) ds).
Proof. exact done_count. Qed.
Print Assumptions C50_one_each.
(** at any point of it there are at most three, with consecutive numbers; *)
Theorem C50_at_most_three_partial : forall ds l, crash ds l ->
  exists lo, forall k, temp (run empty l) k <> None -> lo <= k < lo + 3.
Proof. exact crash_three. Qed.
Print Assumptions C50_at_most_three_partial.
(** a permanent file, once finished, stays as it was. *)
Theorem C50_permanent : forall ds l k r p, crash ds l -> In (OClose Perm k r p) l ->
  perm (run empty l) k = Some (Complete r p).
Proof. exact crash_perm. Qed.
Print Assumptions C50_permanent.
(** With crashes and restarts old files stay behind, and more than three accumulate. *)
Theorem C50_at_most_three_refuted : exists runs f, life runs empty = Some f /\
  forall k, In k [0; 2; 4; 5] -> temp f k <> None.
Proof. exact leak_refuted. Qed.
Print Assumptions C50_at_most_three_refuted.
Example C50_nonvacuous :
  let f := run empty (session [Temp; Temp; Perm; Temp; Perm; Temp] 0 0) in
  temp f 1 = None /\ temp f 2 = Some (Complete 3 1) /\ temp f 3 = Some (Complete 4 2) /\
  perm f 0 = Some (Complete 2 1) /\ perm f 1 = Some (Complete 3 2) /\ last f = Names 3.
Proof. vm_compute. repeat split. Qed.
