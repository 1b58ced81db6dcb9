(** C133: random numbers of processes, threads and restarts. *)
From Coq Require Import ZArith List Lia.
From Verif Require Import RngModel.
Import ListNotations.
Open Scope Z_scope.

(** what is drawn without an interruption *)
Definition uninterrupted {A} (gen : Z -> nat -> A) (seed : Z) (ns : list nat) : list A := map (gen (effective seed)) (seq 0 (list_sum ns)).

Lemma seed_some r t s : seed_of r t = Some s -> s = 300 * r + t /\ s <= INT_MAX.
Proof.
  unfold seed_of. destruct (Z.leb_spec (300 * r) INT_MAX); [|discriminate]. destruct (Z.leb_spec (300 * r + t) INT_MAX); [|discriminate]. intros [= <-]. auto.
Qed.
Lemma effective_val s : 0 <= s <= INT_MAX -> (s = 0 /\ effective s = 4357) \/ (s <> 0 /\ effective s = s).
Proof.
  intros H. unfold effective, INT_MAX in *. rewrite Z.mod_small by lia. destruct (Z.eqb_spec s 0); [left|right]; auto.
Qed.

(** With up to 300 threads, two generators have the same state only in one case: the first
    thread of process 0, whose seed 0 is replaced by 4357, and thread 157 of process 14. *)
Theorem C133_distinct : forall nthreads r t r' t' s s', nthreads <= 300 -> 0 <= r -> 0 <= r' -> 0 <= t < nthreads -> 0 <= t' < nthreads ->
  seed_of r t = Some s -> seed_of r' t' = Some s' -> effective s = effective s' ->
  (r = r' /\ t = t') \/ (r = 0 /\ t = 0 /\ r' = 14 /\ t' = 157) \/ (r = 14 /\ t = 157 /\ r' = 0 /\ t' = 0).
Proof.
  intros n r t r' t' s s' N R R' T T' S S' E.
  destruct (seed_some _ _ _ S) as [-> L]. destruct (seed_some _ _ _ S') as [-> L'].
  destruct (effective_val (300 * r + t)) as [[A B]|[A B]]; [lia| |]; destruct (effective_val (300 * r' + t')) as [[A' B']|[A' B']]; try lia; rewrite B, B' in E; lia.
Qed.
Print Assumptions C133_distinct.

(** So with up to 157 threads all of them differ, *)
Theorem C133_few_threads : forall nthreads r t r' t' s s', nthreads <= 157 -> 0 <= r -> 0 <= r' -> 0 <= t < nthreads -> 0 <= t' < nthreads ->
  seed_of r t = Some s -> seed_of r' t' = Some s' -> effective s = effective s' -> r = r' /\ t = t'.
Proof.
  intros n r t r' t' s s' N R R' T T' S S' E. destruct (C133_distinct 300 r t r' t' s s') as [H|[H|H]]; try lia; auto.
Qed.
Print Assumptions C133_few_threads.

(** and no seed leaves the range of int with up to seven million processes. *)
Theorem C133_defined : forall r t, 0 <= r <= 7000000 -> 0 <= t <= 300 -> exists s, seed_of r t = Some s /\ 0 <= s.
Proof.
  intros r t R T. exists (300 * r + t). unfold seed_of, INT_MAX. destruct (Z.leb_spec (300 * r) 2147483647); [|lia].
  destruct (Z.leb_spec (300 * r + t) 2147483647); [|lia]. split; [reflexivity|lia].
Qed.
Print Assumptions C133_defined.

(** Two different threads of a run draw the same numbers: within 300 threads, *)
Theorem C133_default_seed_refuted : exists r t r' t' s s', (r, t) <> (r', t') /\ 0 <= t < 300 /\ 0 <= t' < 300 /\
  seed_of r t = Some s /\ seed_of r' t' = Some s' /\ forall A (gen : Z -> nat -> A) from n, draws gen s from n = draws gen s' from n.
Proof. exists 0, 0, 14, 157, 0, 4357. split; [discriminate|]. split; [lia|]. split; [lia|]. split; [reflexivity|]. split; reflexivity. Qed.
Print Assumptions C133_default_seed_refuted.

(** and every thread from 300 on draws those of a thread of the next process. *)
Theorem C133_many_threads : forall r t s, 0 <= r -> 300 <= t -> seed_of r t = Some s ->
  seed_of (r + 1) (t - 300) = Some s.
Proof.
  intros r t s R T S. destruct (seed_some _ _ _ S) as [-> L]. unfold seed_of.
  destruct (Z.leb_spec (300 * (r + 1)) INT_MAX); [|lia]. destruct (Z.leb_spec (300 * (r + 1) + (t - 300)) INT_MAX); [|lia]. f_equal. lia.
Qed.
Print Assumptions C133_many_threads.
Theorem C133_many_threads_refuted : exists r t r' t' s, (r, t) <> (r', t') /\ 0 <= t < 301 /\ 0 <= t' < 301 /\ seed_of r t = Some s /\ seed_of r' t' = Some s.
Proof. exists 0, 300, 1, 0, 300. split; [discriminate|]. split; [lia|]. split; [lia|]. split; reflexivity. Qed.
Print Assumptions C133_many_threads_refuted.

Lemma firstn_seq k n from : (k <= n)%nat -> firstn k (seq from n) = seq from k.
Proof.
  revert n from. induction k as [|k IH]; intros n from H; [reflexivity|]. destruct n as [|n]; [lia|]. cbn [seq firstn]. rewrite IH by lia. reflexivity.
Qed.
(** After a restart a thread draws again what it drew from the start: of any two parts of a
    run the shorter is the beginning of the longer. *)
Theorem C133_restart : forall A (gen : Z -> nat -> A) seed ns i j p q, nth_error (parts gen seed ns) i = Some p -> nth_error (parts gen seed ns) j = Some q ->
  (List.length p <= List.length q)%nat -> p = firstn (List.length p) q.
Proof.
  intros A gen seed ns i j p q P Q L. unfold parts in *. rewrite nth_error_map in P, Q.
  destruct (nth_error ns i) as [n|]; [|discriminate]. destruct (nth_error ns j) as [m|]; [|discriminate]. cbn in P, Q. injection P as <-. injection Q as <-.
  unfold draws in *. rewrite !map_length, !seq_length in *. rewrite firstn_map, firstn_seq by lia. reflexivity.
Qed.
Print Assumptions C133_restart.
(** A run in one part draws what the generator gives in order; one in two does not. *)
Theorem C133_one_part : forall A (gen : Z -> nat -> A) seed n, concat (parts gen seed [n]) = uninterrupted gen seed [n].
Proof. intros. unfold parts, uninterrupted, draws. cbn [map concat list_sum fold_right]. rewrite app_nil_r, Nat.add_0_r. reflexivity. Qed.
Print Assumptions C133_one_part.
(** A generator that is kept goes on where it was. *)
Theorem C133_kept : forall A (gen : Z -> nat -> A) seed n n', draws gen seed 0 n ++ draws gen seed n n' = uninterrupted gen seed [n; n'].
Proof. intros. unfold draws, uninterrupted. rewrite <- map_app, <- seq_app. cbn [list_sum fold_right]. rewrite Nat.add_0_r. reflexivity. Qed.
Print Assumptions C133_kept.
Theorem C133_restart_refuted : exists (gen : Z -> nat -> nat) seed ns, concat (parts gen seed ns) <> uninterrupted gen seed ns.
Proof. exists (fun _ k => k), 0, [2; 2]%nat. discriminate. Qed.
Print Assumptions C133_restart_refuted.

Example C133_nonvacuous : seed_of 3 7 = Some 907 /\ effective 907 = 907 /\ effective 0 = 4357 /\ draws (fun s k => (s, k)) 907 1 2 = [(907, 1%nat); (907, 2%nat)].
Proof. repeat split. Qed.
