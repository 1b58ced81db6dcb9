(** C125, C126 *)
From Coq Require Import Reals ZArith List Bool Lra Lia Permutation.
From Verif Require Import RLib XLib TypModel TypSpec TypProofs TypMore.
Import ListNotations.
Open Scope R_scope.

(** Each number printed is that species' part of the weight of all radiation packets, in percent. *)
Theorem C125_share : forall N ranks, (N = 3 \/ N = 4)%nat -> Forall (legal N) (concat ranks) -> sumw (radiation (concat ranks)) <> 0 ->
  printed N ranks = Some (map (fun t => Fin (100 * sumw (of_type t (concat ranks)) / sumw (radiation (concat ranks)))) (seq 0 N)).
Proof. exact printed_share. Qed.
Print Assumptions C125_share.

(** With weights that are not negative, and some radiation, the numbers are between 0 and 100 and add up to 100. *)
Theorem C125_percent : forall N ranks, (N = 3 \/ N = 4)%nat -> Forall (legal N) (concat ranks) ->
  Forall (fun p => 0 <= pw p) (concat ranks) -> 0 < sumw (radiation (concat ranks)) ->
  exists xs, printed N ranks = Some (map Fin xs) /\ length xs = N /\ Forall (fun x => 0 <= x <= 100) xs /\ fold_right Rplus 0 xs = 100.
Proof. exact printed_percent. Qed.
Print Assumptions C125_percent.

(** They do not depend on which rank or thread holds a packet. *)
Theorem C125_placement : forall N r1 r2, Permutation (concat r1) (concat r2) -> printed N r1 = printed N r2.
Proof. exact printed_place. Qed.
Print Assumptions C125_placement.

(** The array of counters is left exactly when a packet is neither a tracer nor of a species there is. *)
Theorem C125_index : forall N ranks, printed N ranks = None <-> ~ Forall (legal N) (concat ranks).
Proof. exact printed_index. Qed.
Print Assumptions C125_index.

(** Without radiation packets every number is 0/0. *)
Theorem C125_empty : forall N ranks, (N = 3 \/ N = 4)%nat -> Forall (fun p => ptype p = (-1)%Z) (concat ranks) ->
  printed N ranks = Some (map (fun _ => NaN) (seq 0 N)).
Proof. exact printed_empty. Qed.
Print Assumptions C125_empty.

(** So it is not true that legal packets of positive weight always give percentages. *)
Theorem C125_percent_refuted : exists N ranks, (N = 3 \/ N = 4)%nat /\ Forall (legal N) (concat ranks) /\
  Forall (fun p => 0 < pw p) (concat ranks) /\ ~ exists xs, printed N ranks = Some (map Fin xs).
Proof.
  exists 3%nat, [[mkpk (-1) 2]; []]. split; [auto|]. split; [repeat constructor|]. split; [repeat constructor; cbn; lra|].
  intros (xs & E). rewrite printed_empty in E; [|auto|repeat constructor]. destruct xs; discriminate.
Qed.
Print Assumptions C125_percent_refuted.

Example C125_nonvacuous : printed 3 [[mkpk 0 1; mkpk (-1) 7]; [mkpk 2 3]] = Some [Fin 25; Fin 0; Fin 75].
Proof.
  rewrite printed_share; [|auto| |].
  - cbn. repeat f_equal; field.
  - cbn [concat app]. repeat (apply Forall_cons; [unfold legal; cbn; lia|]). apply Forall_nil.
  - cbn. lra.
Qed.

(** Each rank's buffer is filled to its end and not beyond, with its tracked packets in the order of the lists. *)
Theorem C126_rows : forall (P Row : Type) (row : P -> Row) tr lists,
  io_track P Row row tr lists = Some (rows row tr lists) /\ num_tracked P tr lists = length (rows row tr lists).
Proof. intros. split; [apply io_rows|]. unfold num_tracked, rows. rewrite num_all, map_length. reflexivity. Qed.
Print Assumptions C126_rows.

(** In a run the i-th log writes file i, which still holds at the end what every rank had then; files of higher
    number are those the run found. *)
Theorem C126_files : forall (P Row : Type) (row : P -> Row) tr Nph d logs, 0 < Nph -> exists o,
  run P Row row tr Nph d logs = Some o /\ (forall i l, nth_error logs i = Some l -> dir Row o i = Some (map (rows row tr) l)) /\
  (forall j, (length logs <= j)%nat -> dir Row o j = d j).
Proof.
  intros P Row row tr Nph d logs H. destruct (run_gen row tr Nph logs H 0 d) as (o & E & _ & A & B).
  exists o. split; [exact E|]. split; [exact A|]. intros j L. apply B. right. exact L.
Qed.
Print Assumptions C126_files.

(** No file is touched if no packets are to be tracked. *)
Theorem C126_off : forall (P Row : Type) (row : P -> Row) tr Nph d logs, Nph <= 0 ->
  exists o, run P Row row tr Nph d logs = Some o /\ forall i, dir Row o i = d i.
Proof. intros. eexists. split; [apply run_off; assumption|reflexivity]. Qed.
Print Assumptions C126_off.

(** A continued run numbers its files from 0 again: what the first run wrote there is lost. *)
Theorem C126_restart : forall (P Row : Type) (row : P -> Row) tr Nph d logs1 logs2 o1 o2 i l, 0 < Nph ->
  run P Row row tr Nph d logs1 = Some o1 -> run P Row row tr Nph (dir Row o1) logs2 = Some o2 ->
  nth_error logs2 i = Some l -> dir Row o2 i = Some (map (rows row tr) l).
Proof.
  intros P Row row tr Nph d logs1 logs2 o1 o2 i l H _ E2 G.
  destruct (C126_files P Row row tr Nph (dir Row o1) logs2 H) as (o & E & A & _).
  rewrite E in E2. injection E2 as <-. exact (A i l G).
Qed.
Print Assumptions C126_restart.

Theorem C126_restart_refuted : exists (tr : nat -> bool) Nph logs1 logs2 o1 o2, 0 < Nph /\
  run nat nat (fun x => x) tr Nph (fun _ => None) logs1 = Some o1 /\
  run nat nat (fun x => x) tr Nph (dir nat o1) logs2 = Some o2 /\
  exists l, In l logs1 /\ dir nat o1 0 = Some (map (rows (fun x => x) tr) l) /\
  forall i, dir nat o2 i <> Some (map (rows (fun x => x) tr) l).
Proof.
  destruct (C126_files nat nat (fun x => x) (fun _ => true) 1 (fun _ => None) [[[[5%nat]]]] ltac:(lra)) as (o1 & E1 & A1 & B1).
  destruct (C126_files nat nat (fun x => x) (fun _ => true) 1 (dir nat o1) [[[[6%nat]]]] ltac:(lra)) as (o2 & E2 & A2 & B2).
  exists (fun _ => true), 1, [[[[5%nat]]]], [[[[6%nat]]]], o1, o2. split; [lra|]. split; [exact E1|]. split; [exact E2|].
  exists [[[5%nat]]]. split; [left; reflexivity|]. split; [apply A1; reflexivity|]. intros [|i].
  - rewrite (A2 0%nat _ eq_refl). discriminate.
  - rewrite B2 by (cbn; lia). rewrite B1 by (cbn; lia). discriminate.
Qed.
Print Assumptions C126_restart_refuted.

Example C126_nonvacuous : io_track nat nat S Nat.even [[1; 2]; []; [4; 5]]%nat = Some [3; 5]%nat.
Proof. reflexivity. Qed.
