From Coq Require Import List Arith Bool Reals Lia Lra.
From Verif Require Import AccModel AccSpec.
Import ListNotations.

Lemma acc_cases (P : acc -> Prop) : (forall a, In a all_accs -> P a) -> forall a, P a.
Proof. intros H a. apply H. destruct a; cbn; tauto. Qed.

Lemma reset_some z v v' : reset_dump_variables z v = Some v' ->
  v' = (fun a i => if i <? cleared z a then 0%R else v a i).
Proof. unfold reset_dump_variables. destruct (forallb _ _); intros H; inversion H; auto. Qed.

Lemma reset_defined z v : RAD_NUM_TYPES z <= NDIM + NRADCOMP z -> exists v', reset_dump_variables z v = Some v'.
Proof.
  intros H. unfold reset_dump_variables.
  assert (E : forallb (fun a => cleared z a <=? declared z a) all_accs = true); [|rewrite E; eauto].
  apply forallb_forall. intros a _. apply Nat.leb_le. destruct a; cbn [cleared declared]; try lia.
  rewrite Nat.mul_comm. apply Nat.mul_le_mono_l. exact H.
Qed.

Lemma others_cleared z v v' a i : reset_dump_variables z v = Some v' -> a <> A_radG_int -> i < declared z a -> v' a i = 0%R.
Proof.
  intros H N I. apply reset_some in H. subst v'.
  assert (E : cleared z a = declared z a) by (destruct a; cbn [cleared declared]; congruence || lia).
  destruct (Nat.ltb_spec i (cleared z a)); [reflexivity|lia].
Qed.

(** radG_int[zone][mu] at flat index zone * (NDIM + NRADCOMP) + mu *)
Lemma radG_element z v v' zone mu : reset_dump_variables z v = Some v' -> mu < NDIM + NRADCOMP z ->
  let i := zone * (NDIM + NRADCOMP z) + mu in
  v' A_radG_int i = if i <? RAD_NUM_TYPES z * N123G z then 0%R else v A_radG_int i.
Proof. intros H M. cbv zeta. apply reset_some in H. subst v'. reflexivity. Qed.

Lemma radG_kept z v v' : reset_dump_variables z v = Some v' -> 0 < N123G z -> RAD_NUM_TYPES z < NDIM + NRADCOMP z ->
  exists i, i < declared z A_radG_int /\ v' A_radG_int i = v A_radG_int i.
Proof.
  intros H N T. apply reset_some in H. subst v'. exists (RAD_NUM_TYPES z * N123G z). split.
  - cbn [declared]. rewrite (Nat.mul_comm (RAD_NUM_TYPES z)). apply Nat.mul_lt_mono_pos_l; auto.
  - cbn [cleared]. rewrite Nat.ltb_irrefl. reflexivity.
Qed.
(** How many zones keep theirs, for the shipped builds *)
Lemma radG_whole_zone z v v' zone mu : reset_dump_variables z v = Some v' -> mu < NDIM + NRADCOMP z ->
  RAD_NUM_TYPES z * N123G z <= zone * (NDIM + NRADCOMP z) ->
  v' A_radG_int (zone * (NDIM + NRADCOMP z) + mu) = v A_radG_int (zone * (NDIM + NRADCOMP z) + mu).
Proof.
  intros H M L. apply reset_some in H. subst v'. cbn [cleared].
  destruct (Nat.ltb_spec (zone * (NDIM + NRADCOMP z) + mu) (RAD_NUM_TYPES z * N123G z)); [lia|reflexivity].
Qed.

Lemma light_refuted : exists z v v' zone mu, RAD_NUM_TYPES z = 1 /\ NRADCOMP z = 0 /\
  reset_dump_variables z v = Some v' /\ zone < N123G z /\ mu < NDIM /\
  v' A_radG_int (zone * NDIM + mu) = v A_radG_int (zone * NDIM + mu) /\ v A_radG_int (zone * NDIM + mu) <> 0%R.
Proof.
  pose (z := mksizes 1000 1 0 1 3 5 0 0). pose (v := fun (a : acc) (i : nat) => 1%R).
  destruct (reset_defined z v) as (v' & E); [unfold z, NDIM; cbn; lia|].
  exists z, v, v', 250, 0. repeat split; auto; try (unfold z, NDIM; cbn; lia).
  - apply reset_some in E. subst v'. reflexivity.
  - unfold v. lra.
Qed.

Lemma restart_lost z file fresh v' a i : restart_init z file fresh = Some v' -> a <> A_radG_int -> i < declared z a ->
  v' a i = 0%R.
Proof. intros H N I. apply (others_cleared z _ _ a i H N I). Qed.

Lemma restart_refuted : exists z file fresh v', restart_init z file fresh = Some v' /\
  forall a, In a [A_nuLnu; A_Nem; A_Nabs; A_Nsc; A_Nem_phys; A_Nabs_phys; A_Jrad; A_dtau_avg; A_en_int_avg] ->
  saved a = true /\ exists i, i < declared z a /\ v' a i <> file a i.
Proof.
  pose (z := mksizes 1000 1 0 1 3 5 1 1). pose (v := fun (a : acc) (i : nat) => 1%R).
  destruct (reset_defined z (restart_read v (fun _ _ => 0%R))) as (v' & E); [unfold z, NDIM; cbn; lia|].
  exists z, v, (fun _ _ => 0%R), v'. split; [exact E|]. intros a I.
  split; [cbn in I; repeat (destruct I as [<-|I]; [reflexivity|]); destruct I|].
  assert (L : 0 < declared z a) by (cbn in I; repeat (destruct I as [<-|I]; [vm_compute; lia|]); destruct I).
  exists 0. split; [exact L|].
  rewrite (restart_lost z v (fun _ _ => 0%R) v' a 0 E); [unfold v; lra| |exact L]. intros ->. cbn in I. repeat (destruct I as [I|I]; [discriminate|]). destruct I.
Qed.

(** ** The spectrum *)
Lemma add_at_length l : forall r x, length (add_at l r x) = length l.
Proof. induction l; intros [|r] x; cbn; auto. Qed.
Lemma add_at_sum l : forall r x, r < length l -> rsum (add_at l r x) = (rsum l + x)%R.
Proof.
  induction l as [|y l IH]; intros r x H; [cbn in H; lia|]. destruct r as [|r]; cbn; [lra|].
  cbn in H. unfold rsum in *. rewrite IH by lia. lra.
Qed.
Lemma rsum_zeros l : (forall x, In x l -> x = 0%R) -> rsum l = 0%R.
Proof. induction l as [|y l IH]; cbn; intros H; auto. rewrite (H y) by auto. unfold rsum in IH. rewrite IH by auto. lra. Qed.
Lemma rsum_map0 l : rsum (map (fun _ : R => 0%R) l) = 0%R.
Proof. apply rsum_zeros. intros x H. apply in_map_iff in H. destruct H as (_ & H & _). auto. Qed.

Definition sinv (n : nat) (s : spec) (a : R) :=
  length (nuLnu s) = n /\ rsum (nuLnu s) = a /\ length (nuLnu_local s) = n /\
  (forall i, 0 < i -> nth i (nuLnu_local s) 0%R = 0%R).

Lemma tl_zeros l : (forall i, 0 < i -> nth i l 0%R = 0%R) -> rsum (tl l) = 0%R.
Proof.
  intros H. destruct l as [|y l]; auto. apply rsum_zeros. intros x I. cbn [tl] in I.
  apply In_nth with (d := 0%R) in I. destruct I as (k & _ & E). rewrite <- E. apply (H (S k)). lia.
Qed.

Lemma sinv_step n s a o : 0 < n -> sinv n s a -> (forall r x, o = Record_ r x -> r < n) ->
  sinv n (spec_step s o) (match o with Record_ _ x => (a + x)%R | Reduce => a | Reset => 0%R end).
Proof.
  intros N (A & B & C & D) H. destruct o as [r x| |]; unfold sinv; cbn [spec_step nuLnu nuLnu_local].
  - rewrite add_at_length, add_at_sum; [repeat split; auto; congruence|].
    rewrite A. apply (H r x). reflexivity.
  - destruct (nuLnu_local s) as [|y l] eqn:E; [cbn in C; lia|].
    assert (T := tl_zeros _ D). cbn [tl] in T. cbn [length] in *.
    repeat split; auto.
    + unfold rsum in *. cbn [fold_right]. rewrite T, B. lra.
    + intros [|i] I; [lia|]. apply (D (S i)). lia.
  - rewrite map_length, rsum_map0. repeat split; auto.
Qed.

Lemma sinv_run n ops : 0 < n -> by_ranks n ops -> sinv n (spec_run n ops) (since_reset ops).
Proof.
  intros N. unfold spec_run, since_reset.
  assert (I0 : sinv n (spec_init n) 0%R).
  { unfold spec_init, sinv. cbn [nuLnu nuLnu_local]. rewrite repeat_length. repeat split; auto.
    - apply rsum_zeros. intros x H. apply repeat_spec in H. auto.
    - intros i _. apply nth_repeat. }
  assert (G : forall s a, sinv n s a -> by_ranks n ops -> sinv n (fold_left spec_step ops s)
    (fold_left (fun a o => match o with Record_ _ x => (a + x)%R | Reduce => a | Reset => 0%R end) ops a));
    [|intros H; apply G; auto].
  clear I0. induction ops as [|o ops IH]; intros s a I H; auto.
  cbn [fold_left]. apply IH.
  - apply sinv_step; auto. intros r x ->. apply (H r x). left. reflexivity.
  - intros r x J. apply (H r x). right. exact J.
Qed.

Lemma spectrum_total n ops : 0 < n -> by_ranks n ops -> rsum (nuLnu (spec_run n ops)) = since_reset ops.
Proof. intros N H. apply (sinv_run n ops N H). Qed.

Lemma spectrum_root n ops : 0 < n -> by_ranks n ops ->
  let s := spec_run n (ops ++ [Reduce]) in
  nth 0 (nuLnu s) 0%R = since_reset ops /\ forall i, 0 < i -> nth i (nuLnu s) 0%R = 0%R.
Proof.
  intros N H. cbv zeta. unfold spec_run. rewrite fold_left_app. cbn [fold_left]. fold (spec_run n ops).
  destruct (sinv_run n ops N H) as (A & B & C & D). cbn [spec_step nuLnu].
  destruct (nuLnu_local (spec_run n ops)) as [|y l]; [cbn in C; lia|].
  split; [exact B|]. intros [|i] I; [lia|]. apply (D (S i)). lia.
Qed.
