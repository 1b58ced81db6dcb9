(** Property theorems C05 and C06 (packet exchange). *)
From Coq Require Import ZArith List Bool Lia Permutation.
Import ListNotations.
From Verif Require Import SumLib ExchModel ExchSpec ExchProofs.
Open Scope Z_scope.

(** C05, conservation.  Every packet handed over arrives exactly once, on a
    process of the grid, at the same point of the domain. *)
Theorem C05_conserved : forall g mpi, good_cfg g ->
  (forall c p, valid g c -> In p (mpi c) -> handed_over g c (pos p)) ->
  exists arrived,
    Permutation (everything g (exchange g mpi)) arrived /\
    Forall2 (fun s r => pid (snd r) = pid (snd s) /\ valid g (fst r) /\
                        same_point g (pos (snd s)) (pos (snd r)) /\
                        (~ corner_wrap g (fst s) (pos (snd s)) -> owns g (fst r) (pos (snd r))))
            (everything g mpi) arrived.
Proof. exact exchange_correct. Qed.
Print Assumptions C05_conserved.

(** C05, ownership.  Full claim: every arrived packet is owned by its holder.
    Proved except for packets in the [corner_wrap] situation (missing part;
    it is false there, see [C05_ownership_refuted]). *)
Theorem C05_ownership_partial : forall g mpi, good_cfg g ->
  (forall c p, valid g c -> In p (mpi c) -> handed_over g c (pos p)) ->
  (forall c p, valid g c -> In p (mpi c) -> ~ corner_wrap g c (pos p)) ->
  forall c p, valid g c -> In p (exchange g mpi c) -> owns g c (pos p).
Proof. exact ownership_partial. Qed.
Print Assumptions C05_ownership_partial.

(** C05, packet counters: per process the total changes by arrivals minus
    departures, and the sum over all processes does not change. *)
Theorem C05_counters : forall g mpi, good_cfg g ->
  (forall c p, valid g c -> In p (mpi c) -> handed_over g c (pos p)) ->
  (forall c, valid g c -> step_tot_change g mpi c =
     Z.of_nat (length (exchange g mpi c)) - Z.of_nat (length (mpi c))) /\
  zs (step_tot_change g mpi) (ranks g) = 0.
Proof. exact counters_balance. Qed.
Print Assumptions C05_counters.

(** 2 x 2 x 3 processes of width 10, X3 periodic. *)
Definition ex_cfg : cfg := Cfg (V3 2 2 3) (V3 0 0 0) (V3 10 10 10) false false true.
Definition ex_mpi (c : rank) : list pkt :=
  match c with
  | V3 0 0 0 => [Pkt 1 (V3 12 5 (-3)); Pkt 2 (V3 5 14 7)]
  | V3 1 1 2 => [Pkt 3 (V3 15 15 32)]
  | _ => []
  end.
Example C05_nonvacuous :
  good_cfg ex_cfg /\
  (forall c p, valid ex_cfg c -> In p (ex_mpi c) -> handed_over ex_cfg c (pos p)) /\
  (forall c p, valid ex_cfg c -> In p (ex_mpi c) -> ~ corner_wrap ex_cfg c (pos p)) /\
  exchange ex_cfg ex_mpi (V3 1 0 2) = [Pkt 1 (V3 12 5 27)] /\
  exchange ex_cfg ex_mpi (V3 0 1 0) = [Pkt 2 (V3 5 14 7)] /\
  exchange ex_cfg ex_mpi (V3 1 1 0) = [Pkt 3 (V3 15 15 2)].
Proof.
  assert (C : forall c p, In p (ex_mpi c) ->
    c = V3 0 0 0 /\ (p = Pkt 1 (V3 12 5 (-3)) \/ p = Pkt 2 (V3 5 14 7)) \/
    c = V3 1 1 2 /\ p = Pkt 3 (V3 15 15 32)).
  { intros [a b e] p H. unfold ex_mpi in H.
    destruct a as [|[?|?|]|?]; try destruct H; destruct b as [|[?|?|]|?]; try destruct H;
    destruct e as [|[?|[?|?|]|]|?]; try destruct H; cbn in H; intuition auto. }
  split; [intros [| |]; cbn; lia|]. split; [|split].
  - intros c p _ H. apply C in H as [[-> [-> | ->]]|[-> ->]]; split; try reflexivity;
      intros [| |]; unfold in_domain, startx_rad, stopx_rad, stopx_proc, startx_proc; cbn; try lia; try discriminate.
  - intros c p _ H. apply C in H as [[-> [-> | ->]]|[-> ->]]; unfold corner_wrap, outside, in_domain,
      startx_rad, stopx_rad, stopx_proc, startx_proc; cbn; lia.
  - repeat split; vm_compute; reflexivity.
Qed.

(** C05, ownership, refuted: a packet that crosses X1, X2 and the periodic X3
    edge at once, with three processes along X3, ends on a process that does
    not own its position (all packets here satisfy [handed_over]). *)
Theorem C05_ownership_refuted : exists g mpi,
  good_cfg g /\
  (forall c p, valid g c -> In p (mpi c) -> handed_over g c (pos p)) /\
  exists c p, valid g c /\ In p (exchange g mpi c) /\ ~ owns g c (pos p).
Proof. exact ownership_refuted. Qed.
Print Assumptions C05_ownership_refuted.

(** C06.  Any starting thread, any list, any (non-zero) number of threads:
    nothing remains, thread [i] gets [news[i]] in front of its old list, the
    [news] together are the received packets, and no thread gets more than
    ceil(n / threads) of them (written without division). *)
Theorem C06_distribute : forall thread_start recv lists, lists <> [] ->
  exists lists' news,
    distribute thread_start recv lists = Some ([], lists') /\
    length news = length lists /\ length lists' = length lists /\
    (forall i nw l, nth_error news i = Some nw -> nth_error lists i = Some l ->
        nth_error lists' i = Some (nw ++ l)) /\
    Permutation (concat news) recv /\
    (forall nw, In nw news -> length nw * length lists < length recv + length lists)%nat.
Proof. exact distribute_correct. Qed.
Print Assumptions C06_distribute.

Example C06_nonvacuous :
  let P n := Pkt n (V3 0 0 0) in
  distribute 5 [P 1; P 2; P 3; P 4; P 5]%nat [[P 10]; []; []; [P 11]]%nat =
  Some ([], [[P 10]; [P 2; P 1]; [P 4; P 3]; [P 5; P 11]])%nat.
Proof. reflexivity. Qed.
