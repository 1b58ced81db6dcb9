From Coq Require Import List Arith Bool Lia.
From Verif Require Import SlabModel SlabSpec.
Import ListNotations.

Lemma start_next d c : 0 < cpu d -> start d c + len d <= start d (S c).
Proof.
  intros P. unfold start, len.
  assert (E := Nat.div_mod (c * tot d) (cpu d) ltac:(lia)).
  assert (F := Nat.div_mod (tot d) (cpu d) ltac:(lia)).
  apply Nat.div_le_lower_bound; [lia|]. rewrite Nat.mul_add_distr_l. cbn [Nat.mul]. lia.
Qed.
Lemma start_mono d c c' : 0 < cpu d -> c < c' -> start d c + len d <= start d c'.
Proof.
  intros P. induction c' as [|c' IH]; intros H; [lia|].
  destruct (Nat.eq_dec c c') as [->|N]; [apply start_next; auto|].
  assert (A := start_next d c' P). specialize (IH ltac:(lia)). lia.
Qed.
Lemma start_end d c : c < cpu d -> start d c + len d <= tot d.
Proof.
  intros H. assert (A := start_mono d c (cpu d) ltac:(lia) H).
  unfold start in A at 2. rewrite Nat.mul_comm, Nat.div_mul in A by lia. exact A.
Qed.

Lemma inside_unique ds : forall c c' x, position ds c -> position ds c' -> inside ds c x = true -> inside ds c' x = true -> c = c'.
Proof.
  induction ds as [|d ds IH]; intros c c' x P P' I I'; inversion P; inversion P'; subst; auto.
  destruct x as [|x0 x]; [discriminate|]. cbn [inside] in I, I'.
  rewrite !andb_true_iff in I, I'. destruct I as ((A & B) & C), I' as ((A' & B') & C').
  apply Nat.leb_le in A. apply Nat.leb_le in A'. apply Nat.ltb_lt in B. apply Nat.ltb_lt in B'.
  f_equal; [|eapply IH; eauto].
  destruct (lt_eq_lt_dec y y0) as [[L|E]|L]; auto.
  - assert (M := start_mono d y y0 ltac:(lia) L). lia.
  - assert (M := start_mono d y0 y ltac:(lia) L). lia.
Qed.

Lemma inside_bounds ds : forall c x, position ds c -> inside ds c x = true -> in_bounds ds x.
Proof.
  induction ds as [|d ds IH]; intros c x P I; inversion P; subst; destruct x as [|x0 x]; try discriminate; constructor.
  - cbn [inside] in I. rewrite !andb_true_iff in I. destruct I as ((A & B) & C). apply Nat.ltb_lt in B.
    assert (M := start_end d y H1). lia.
  - cbn [inside] in I. rewrite !andb_true_iff in I. destruct I as ((A & B) & C). eapply IH; eauto.
Qed.

Lemma active_inside ds : forall c m, position ds c -> active ds m = true ->
  inside ds c (to_file ds c m) = true /\ to_mem ds c (to_file ds c m) = m.
Proof.
  induction ds as [|d ds IH]; intros c m P A; inversion P; subst; destruct m as [|m0 m]; try discriminate; auto.
  cbn [active] in A. rewrite !andb_true_iff in A. destruct A as ((A & B) & C).
  apply Nat.leb_le in A. apply Nat.ltb_lt in B. destruct (IH l' m H3 C) as (I & E).
  cbn [to_file inside to_mem]. rewrite I, E. split.
  - rewrite !andb_true_iff. repeat split; [apply Nat.leb_le|apply Nat.ltb_lt]; lia.
  - f_equal. lia.
Qed.

Section S.
Variable V : Type.

Lemma write_all_other ds procs : forall (file : list nat -> option V) x,
  (forall c mem, In (c, mem) procs -> inside ds c x = false) -> write_all V ds procs file x = file x.
Proof.
  induction procs as [|(c, mem) procs IH]; intros file x H; auto. cbn [write_all].
  rewrite IH by (intros c' mem' I; apply (H c' mem'); right; auto).
  unfold write_array. rewrite (H c mem) by (left; auto). reflexivity.
Qed.

Lemma write_all_block ds procs : forall file c (mem : array V) x,
  Forall (position ds) (map fst procs) -> NoDup (map fst procs) -> In (c, mem) procs -> inside ds c x = true ->
  write_all V ds procs file x = Some (mem (to_mem ds c x)).
Proof.
  induction procs as [|(c', mem') procs IH]; intros file c mem x P N I X; [destruct I|].
  cbn [map fst] in P, N. inversion P; inversion N; subst. cbn [write_all]. destruct I as [I|I].
  - inversion I; subst. rewrite write_all_other.
    + unfold write_array. rewrite X. reflexivity.
    + intros c2 mem2 J. destruct (inside ds c2 x) eqn:E; auto. exfalso. apply H5.
      assert (c = c2); [|subst; apply in_map_iff; exists (c2, mem2); auto].
      apply (inside_unique ds c c2 x); auto. rewrite Forall_forall in H2. apply H2.
      apply in_map_iff. exists (c2, mem2). auto.
  - apply IH; auto.
Qed.

Lemma round_trip ds procs file c (mem : array V) fresh : Forall (position ds) (map fst procs) -> NoDup (map fst procs) ->
  In (c, mem) procs -> forall m,
  read_array V ds c fresh (write_all V ds procs file) m = if active ds m then Some (mem m) else fresh m.
Proof.
  intros P N I m. unfold read_array. destruct (active ds m) eqn:A; auto.
  assert (Pc : position ds c).
  { rewrite Forall_forall in P. apply P. apply in_map_iff. exists (c, mem). auto. }
  destruct (active_inside ds c m Pc A) as (X & E).
  rewrite (write_all_block ds procs file c mem _ P N I X), E. reflexivity.
Qed.
End S.

(** The block that holds a given element, when the extents divide. *)
Lemma start_exact d c : 0 < cpu d -> tot d = cpu d * len d -> start d c = c * len d.
Proof.
  intros P E. unfold start. rewrite E at 1. replace (c * (cpu d * len d)) with (c * len d * cpu d) by ring.
  apply Nat.div_mul. lia.
Qed.
Lemma covered ds : forall x, Forall (fun d => 0 < cpu d /\ tot d = cpu d * len d) ds -> in_bounds ds x ->
  exists c, position ds c /\ inside ds c x = true.
Proof.
  induction ds as [|d ds IH]; intros x D B; inversion B; subst.
  - exists []. split; [constructor|reflexivity].
  - pose proof (Forall_inv D) as (P & E). pose proof (Forall_inv_tail D) as D'.
    destruct (IH l' D' H3) as (c & Pc & I).
    assert (L : 0 < len d) by (destruct (len d); [rewrite E in H1; lia|lia]).
    assert (M := Nat.div_mod y (len d) ltac:(lia)). assert (U := Nat.mod_upper_bound y (len d) ltac:(lia)).
    exists (y / len d :: c). split.
    + constructor; auto. apply Nat.div_lt_upper_bound; [lia|]. rewrite Nat.mul_comm, <- E. exact H1.
    + cbn [inside]. rewrite I, (start_exact d _ P E), !andb_true_iff. rewrite Nat.mul_comm.
      repeat split; [apply Nat.leb_le|apply Nat.ltb_lt]; lia.
Qed.

Lemma hole_refuted : exists ds x, Forall (fun d => 0 < cpu d <= tot d) ds /\ in_bounds ds x /\
  forall c, position ds c -> inside ds c x = false.
Proof.
  exists [mkdim 5 2 3], [4]. repeat split.
  - constructor; [cbn; lia|constructor].
  - constructor; [cbn; lia|constructor].
  - intros c P. inversion P; subst. inversion H3; subst. cbn [cpu] in H1.
    destruct y as [|[|y]]; [reflexivity|reflexivity|lia].
Qed.
