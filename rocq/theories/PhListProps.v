(** Property theorems C01-C04 and C69 (packet lists). *)
From Coq Require Import ZArith List Bool Lia Permutation.
Import ListNotations.
From Verif Require Import PhListModel PhListSpec PhListProofs.

(** C01.  Removing the packet at [x]: succeeds (no bad dereference), frees
    exactly [x], the list loses exactly that packet, cursor goes to the
    successor, the part before the cursor is still linked to it, and memory
    outside the list prefix and [x] is untouched. *)
Theorem C01_list_remove : forall (A : Type) (h : heap A) head pre x a post,
  llist h head (pre ++ (x, a) :: post) ->
  NoDup (locs (pre ++ (x, a) :: post)) ->
  exists h' head',
    list_remove h x head (last_loc pre) = Some (h', head_loc post, head') /\
    llist h' head' (pre ++ post) /\
    lseg h' head' pre (head_loc post) /\ llist h' (head_loc post) post /\
    h' x = None /\
    agree_off (x :: locs pre) h h'.
Proof. exact @list_remove_correct. Qed.
Print Assumptions C01_list_remove.

Definition ex_heap : heap nat := heap_of [(5, (50, 7)); (7, (70, 3)); (3, (30, null))].
Example C01_nonvacuous :
  llist ex_heap 5 ([(5, 50)] ++ (7, 70) :: [(3, 30)]) /\
  NoDup (locs ([(5, 50)] ++ (7, 70) :: [(3, 30)])) /\
  exists h', list_remove ex_heap 7 5 5 = Some (h', 3, 5) /\ h' 5 = Some (50, 3) /\ h' 7 = None.
Proof.
  repeat split; try discriminate.
  - cbn. exists 7; repeat split; try discriminate. exists 3; repeat split; try discriminate.
    exists 0; split; reflexivity.
  - repeat constructor; cbn; intuition discriminate.
  - eexists. split; [reflexivity|]. split; reflexivity.
Qed.

(** C02.  Moving one packet, and draining a whole list. *)
Theorem C02_swap_ph : forall (A : Type) (h : heap A) x a dl rec rl,
  llist h x ((x, a) :: dl) -> llist h rec rl ->
  NoDup (locs ((x, a) :: dl ++ rl)) ->
  exists h',
    swap_ph h x rec = Some (h', head_loc dl, x) /\
    llist h' (head_loc dl) dl /\ llist h' x ((x, a) :: rl) /\
    agree_off [x] h h'.
Proof. exact @swap_ph_correct. Qed.
Print Assumptions C02_swap_ph.

Theorem C02_drain : forall (A : Type) l fuel (h : heap A) p dst dl,
  (length l < fuel)%nat ->
  llist h p l -> llist h dst dl -> NoDup (locs (l ++ dl)) ->
  exists h', drain fuel h p dst = Some (h', head_loc (rev l ++ dl)) /\
    llist h' (head_loc (rev l ++ dl)) (rev l ++ dl) /\
    agree_off (locs l) h h'.
Proof. exact @drain_correct. Qed.
Print Assumptions C02_drain.

Definition ex_heap2 : heap nat :=
  heap_of [(5, (50, 7)); (7, (70, null)); (2, (20, null))].
Example C02_nonvacuous :
  llist ex_heap2 5 [(5, 50); (7, 70)] /\ llist ex_heap2 2 [(2, 20)] /\
  NoDup (locs ([(5, 50); (7, 70)] ++ [(2, 20)])) /\
  exists h', drain 3 ex_heap2 5 2 = Some (h', 7) /\
    h' 7 = Some (70, 5) /\ h' 5 = Some (50, 2) /\ h' 2 = Some (20, 0).
Proof.
  repeat split; try discriminate.
  - exists 7; repeat split; try discriminate. exists 0; split; reflexivity.
  - exists 0; split; reflexivity.
  - repeat constructor; cbn; intuition discriminate.
  - eexists. split; [reflexivity|]. repeat split; reflexivity.
Qed.

(** C03.  The push pass over all threads: every thread list is left with
    exactly its survivors in order (with the pushed payload), failed packets
    are freed, the loss counter grows by the number removed, the total by the
    number of survivors, the tracer count by the surviving tracers; nothing
    outside the lists is touched. *)
Theorem C03_push_pass : forall (A : Type) (needs : A -> bool) (push : A -> A * bool)
    (trac : A -> bool) ls fuel (h : heap A) heads c1 c2 c3,
  Forall (fun l => length l < fuel)%nat ls ->
  llists h heads ls -> NoDup (concat (map locs ls)) ->
  exists h' heads',
    push_all needs push trac fuel h heads c1 c2 c3 =
    Some (h', heads',
      (c1 + zsum (fun l => Z.of_nat (length l)) ls
          - zsum (fun l => Z.of_nat (length (flat_map (survives needs push) l))) ls,
       c2 + zsum (fun l => Z.of_nat (length (flat_map (survives needs push) l))) ls,
       c3 + zsum (fun l => count trac (flat_map (survives needs push) l)) ls))%Z /\
    llists h' heads' (map (flat_map (survives needs push)) ls) /\
    (forall x, In x (concat (map locs ls)) ->
       ~ In x (concat (map (fun l => locs (flat_map (survives needs push) l)) ls)) -> h' x = None) /\
    agree_off (concat (map locs ls)) h h'.
Proof. exact @push_all_correct. Qed.
Print Assumptions C03_push_pass.

(** Three packets, the middle one fails, the last needs no push, two threads. *)
Example C03_nonvacuous :
  let h := heap_of [(5, (50, 7)); (7, (71, 3)); (3, (200, null)); (2, (21, null))] in
  llists h [5; 2] [[(5, 50); (7, 71); (3, 200)]; [(2, 21)]] /\
  NoDup (concat (map locs [[(5, 50); (7, 71); (3, 200)]; [(2, 21)]])) /\
  exists h', push_all (fun a => a <? 100) (fun a => (S a, Nat.even a)) (fun a => a =? 51)
     10 h [5; 2] 0 0 0 = Some (h', [5; 0], (2, 2, 1)%Z) /\
     h' 5 = Some (51, 3) /\ h' 7 = None /\ h' 2 = None.
Proof.
  repeat split.
  - repeat constructor; try discriminate.
    + exists 7; repeat split; try discriminate. exists 3; repeat split; try discriminate.
      exists 0; split; reflexivity.
    + exists 0; split; reflexivity.
  - repeat constructor; cbn; intuition discriminate.
  - eexists. split; [reflexivity|]. repeat split; reflexivity.
Qed.

(** C04.  The local boundary pass over all threads followed by merging of the
    hand-over lists.  [kept], [lost] and [merged] are the three destinations;
    together they are all packets (each exactly once, payload as moved); the
    counters are exact; lost packets are freed; the hand-over count equals the
    length of the merged list. *)
Theorem C04_bound_pass : forall (A : Type) (move : A -> A) (inactive : A -> A -> bool)
    (leaves trac : A -> bool) fuel (h : heap A) heads ls c1 c2 c3,
  Forall (fun l => length l < fuel)%nat ls ->
  llists h heads ls -> NoDup (concat (map locs ls)) ->
  exists h' heads' kept merged lost,
    bound_local move inactive leaves trac fuel h (map (fun p => (p, null)) heads) c1 c2 c3 =
    Some (h', heads', head_loc merged,
          (c1 + Z.of_nat (length lost), c2 - Z.of_nat (length lost),
           c3 - count trac lost, Z.of_nat (length merged)))%Z /\
    llists h' heads' kept /\
    llist h' (head_loc merged) merged /\
    kept = map (fun l => sent_to Keep move inactive leaves l) ls /\
    lost = concat (map (fun l => sent_to Lose move inactive leaves l) ls) /\
    Permutation merged (concat (map (fun l => sent_to Hand move inactive leaves l) ls)) /\
    Permutation (concat kept ++ lost ++ merged) (concat (map (moved move) ls)) /\
    (forall x, In x (locs lost) -> h' x = None) /\
    agree_off (concat (map locs ls)) h h'.
Proof. exact @bound_local_correct. Qed.
Print Assumptions C04_bound_pass.

Example C04_nonvacuous :
  let h := heap_of [(5, (50, 7)); (7, (71, 3)); (3, (200, null)); (2, (21, null))] in
  llists h [5; 2] [[(5, 50); (7, 71); (3, 200)]; [(2, 21)]] /\
  NoDup (concat (map locs [[(5, 50); (7, 71); (3, 200)]; [(2, 21)]])) /\
  exists h', bound_local S (fun _ a' => 100 <? a') (fun a => Nat.odd a) (fun a => a =? 201)
     10 h [(5, 0); (2, 0)] 10 20 30 = Some (h', [5; 0], 2, (11, 19, 29, 2)%Z) /\
     h' 5 = Some (51, 0) /\ h' 2 = Some (22, 7) /\ h' 7 = Some (72, 0) /\ h' 3 = None.
Proof.
  repeat split.
  - repeat constructor; try discriminate.
    + exists 7; repeat split; try discriminate. exists 3; repeat split; try discriminate.
      exists 0; split; reflexivity.
    + exists 0; split; reflexivity.
  - repeat constructor; cbn; intuition discriminate.
  - eexists. split; [reflexivity|]. repeat split; reflexivity.
Qed.

(** C69.  Tracer pruning removes exactly the doomed packets. *)
Theorem C69_prune : forall (A : Type) (doomed : A -> bool) l fuel (h : heap A) p,
  (length l < fuel)%nat -> llist h p l -> NoDup (locs l) ->
  exists h' head',
    prune_thread doomed fuel h p = Some (h', head') /\
    llist h' head' (filter (fun xa => negb (doomed (snd xa))) l) /\
    (forall x a, In (x, a) l -> doomed a = true -> h' x = None) /\
    agree_off (locs l) h h'.
Proof. exact @prune_thread_correct. Qed.
Print Assumptions C69_prune.

Example C69_nonvacuous :
  llist ex_heap 5 [(5, 50); (7, 70); (3, 30)] /\ NoDup (locs [(5, 50); (7, 70); (3, 30)]) /\
  exists h', prune_thread (fun a => 40 <? a) 10 ex_heap 5 = Some (h', 3) /\
    h' 5 = None /\ h' 7 = None /\ h' 3 = Some (30, 0).
Proof.
  repeat split; try discriminate.
  - exists 7; repeat split; try discriminate. exists 3; repeat split; try discriminate.
    exists 0; split; reflexivity.
  - repeat constructor; cbn; intuition discriminate.
  - eexists. split; [reflexivity|]. repeat split; reflexivity.
Qed.
