From Coq Require Import Reals ZArith List Bool Lra Lia Permutation.
From Verif Require Import RLib XLib TypModel TypSpec.
Import ListNotations.
Open Scope R_scope.

Lemma sumw_app a b : sumw (a ++ b) = sumw a + sumw b.
Proof. unfold sumw. induction a; cbn; [lra|rewrite IHa; lra]. Qed.
Lemma sumw_perm a b : Permutation a b -> sumw a = sumw b.
Proof. induction 1; unfold sumw in *; cbn; try lra. Qed.
Lemma filter_perm {T} (f : T -> bool) a b : Permutation a b -> Permutation (filter f a) (filter f b).
Proof.
  induction 1; cbn.
  - constructor.
  - destruct (f x); auto.
  - destruct (f x), (f y); try reflexivity. constructor.
  - etransitivity; eauto.
Qed.

Lemma count_none N l : fold_left (count1 N) l None = None.
Proof. induction l; cbn; auto. Qed.

Lemma count1_legal N c p : legal N p ->
  exists c', count1 N (Some c) p = Some c' /\ forall t, c' t = c t + sumw (of_type t [p]).
Proof.
  intros H. cbn. unfold TYPE_TRACER, of_type. cbn [filter].
  destruct (Z.eqb_spec (ptype p) (-1)) as [E|E].
  - eexists. split; [reflexivity|]. intros t. destruct (Z.eqb_spec (ptype p) (Z.of_nat t)); [lia|]. cbn. lra.
  - destruct H as [H|H]; [contradiction|].
    rewrite (proj2 (Z.leb_le _ _) (proj1 H)), (proj2 (Z.ltb_lt _ _) (proj2 H)). cbn [andb].
    eexists. split; [reflexivity|]. intros t. unfold bump.
    destruct (Nat.eqb_spec t (Z.to_nat (ptype p))) as [F|F]; destruct (Z.eqb_spec (ptype p) (Z.of_nat t)) as [G|G]; cbn; try lra; lia.
Qed.

Lemma counts_legal N l : forall c, Forall (legal N) l ->
  exists c', fold_left (count1 N) l (Some c) = Some c' /\ forall t, c' t = c t + sumw (of_type t l).
Proof.
  induction l as [|p l IH]; intros c H.
  - eexists. split; [reflexivity|]. intros t. cbn. lra.
  - inversion_clear H. destruct (count1_legal N c p H0) as (c1 & E1 & F1).
    destruct (IH c1 H1) as (c2 & E2 & F2). exists c2. cbn [fold_left]. rewrite E1. split; [exact E2|].
    intros t. rewrite F2, F1. change (p :: l) with ([p] ++ l). unfold of_type. rewrite filter_app, sumw_app. lra.
Qed.

Lemma counts_illegal N l : forall c, ~ Forall (legal N) l -> fold_left (count1 N) l (Some c) = None.
Proof.
  induction l as [|p l IH]; intros c H; [destruct H; constructor|]. cbn [fold_left].
  destruct (Z.eqb_spec (ptype p) (-1)) as [E|E].
  - cbn [count1]. unfold TYPE_TRACER. rewrite (proj2 (Z.eqb_eq _ _) E). apply IH. intros G. apply H. constructor; [left; exact E|exact G].
  - destruct (Z.leb 0 (ptype p) && Z.ltb (ptype p) (Z.of_nat N)) eqn:F.
    + cbn [count1]. unfold TYPE_TRACER. rewrite (proj2 (Z.eqb_neq _ _) E), F. apply IH. intros G. apply H. constructor; [|exact G].
      right. apply andb_prop in F. destruct F as [F1 F2]. apply Z.leb_le in F1. apply Z.ltb_lt in F2. lia.
    + cbn [count1]. unfold TYPE_TRACER. rewrite (proj2 (Z.eqb_neq _ _) E), F. apply count_none.
Qed.

Lemma reduced_legal N ranks : Forall (legal N) (concat ranks) ->
  exists c, reduced N ranks = Some c /\ forall t, c t = sumw (of_type t (concat ranks)).
Proof.
  induction ranks as [|l rest IH]; intros H.
  - eexists. split; [reflexivity|]. reflexivity.
  - cbn [concat] in H. apply Forall_app in H. destruct H as [H1 H2]. destruct (IH H2) as (b & Eb & Fb).
    destruct (counts_legal N l (fun _ => 0) H1) as (a & Ea & Fa). cbn [reduced]. unfold rank_counts. rewrite Ea, Eb.
    eexists. split; [reflexivity|]. intros t. cbn [concat]. unfold of_type in *. rewrite filter_app, sumw_app, Fa, Fb. lra.
Qed.

Lemma reduced_illegal N ranks : ~ Forall (legal N) (concat ranks) -> reduced N ranks = None.
Proof.
  induction ranks as [|l rest IH]; intros H; [destruct H; constructor|]. cbn [reduced concat] in *. unfold rank_counts.
  assert (D : Forall (legal N) l \/ ~ Forall (legal N) l).
  { destruct (Forall_dec (legal N)) with (l := l) as [D|D]; auto. intros p. unfold legal.
    destruct (Z.eq_dec (ptype p) (-1)); [left; auto|]. destruct (Z_le_dec 0 (ptype p)); [|right; lia].
    destruct (Z_lt_dec (ptype p) (Z.of_nat N)); [left; lia|right; lia]. }
  destruct D as [D|D].
  - rewrite IH; [destruct (fold_left _ _ _); reflexivity|]. intros G. apply H. apply Forall_app. auto.
  - rewrite (counts_illegal N l _ D). reflexivity.
Qed.

Lemma fold_sum c l : forall s, fold_left (fun s (t : nat) => s + c t) l s = s + fold_left (fun s t => s + c t) l 0.
Proof. induction l; intros s; cbn; [lra|]. rewrite (IHl (s + c a)), (IHl (0 + c a)). lra. Qed.
Lemma total_S N c : total (S N) c = total N c + c N.
Proof. unfold total. rewrite seq_S, fold_left_app. cbn. lra. Qed.
Lemma total_ext N c d : (forall t, c t = d t) -> total N c = total N d.
Proof. intros H. induction N; [reflexivity|]. rewrite !total_S, IHN, H. reflexivity. Qed.
Lemma total_plus N c d : total N (fun t => c t + d t) = total N c + total N d.
Proof. induction N; [cbn; lra|]. rewrite !total_S, IHN. lra. Qed.

Lemma total_one N p : legal N p -> total N (fun t => sumw (of_type t [p])) = sumw (radiation [p]).
Proof.
  intros H. unfold radiation, of_type. cbn [filter].
  destruct (Z.eqb_spec (ptype p) (-1)) as [E|E]; cbn [negb].
  - clear H. induction N; [reflexivity|]. rewrite total_S, IHN. destruct (Z.eqb_spec (ptype p) (Z.of_nat N)); [lia|]. cbn. lra.
  - destruct H as [H|H]; [contradiction|]. induction N; [lia|]. rewrite total_S.
    destruct (Z.eqb_spec (ptype p) (Z.of_nat N)) as [F|F].
    + assert (Z0 : forall M, (M <= N)%nat -> total M (fun t => sumw (if Z.eqb (ptype p) (Z.of_nat t) then [p] else [])) = 0).
      { induction M; intros L; [reflexivity|]. rewrite total_S, IHM by lia. destruct (Z.eqb_spec (ptype p) (Z.of_nat M)); [lia|]. cbn. lra. }
      rewrite Z0 by lia. cbn. lra.
    + rewrite IHN by lia. cbn. lra.
Qed.

Lemma total_types N l : Forall (legal N) l -> total N (fun t => sumw (of_type t l)) = sumw (radiation l).
Proof.
  induction 1 as [|p l H HF IH].
  - cbn. clear. induction N; [reflexivity|]. rewrite total_S, IHN. lra.
  - rewrite (total_ext N _ (fun t => sumw (of_type t [p]) + sumw (of_type t l))).
    + rewrite total_plus, IH, total_one by exact H. change (p :: l) with ([p] ++ l). unfold radiation. rewrite filter_app, sumw_app. reflexivity.
    + intros t. change (p :: l) with ([p] ++ l). unfold of_type. rewrite filter_app, sumw_app. reflexivity.
Qed.

Lemma share_val N c t : total N c <> 0 -> share N c t = Fin (c t / total N c * 100).
Proof. intros H. unfold share. rewrite xdiv_fin by exact H. reflexivity. Qed.

(** tracked packets *)
Section T.
Context {P Row : Type} (row : P -> Row) (tr : P -> bool).
Lemma num1 l : forall n, fold_left (fun n p => if tr p then S n else n) l n = (n + length (filter tr l))%nat.
Proof. induction l as [|p l IH]; intros n; cbn; [lia|]. rewrite IH. destruct (tr p); cbn; lia. Qed.
Lemma num_all lists : forall n, fold_left (fun n l => fold_left (fun n p => if tr p then S n else n) l n) lists n
  = (n + length (filter tr (concat lists)))%nat.
Proof. induction lists as [|l ls IH]; intros n; cbn; [lia|]. rewrite IH, num1, filter_app, app_length. lia. Qed.
Lemma put1 size l : forall b, (length b + length (filter tr l) <= size)%nat ->
  fold_left (put P Row row tr size) l (Some b) = Some (b ++ map row (filter tr l)).
Proof.
  induction l as [|p l IH]; intros b H; [cbn; rewrite app_nil_r; reflexivity|].
  cbn [fold_left filter put] in *. destruct (tr p); cbn [length map] in *.
  - rewrite (proj2 (Nat.ltb_lt (length b) size)) by lia. rewrite IH by (rewrite app_length; cbn; lia). rewrite <- app_assoc. reflexivity.
  - apply IH. exact H.
Qed.
Lemma put_all size lists : forall b, (length b + length (filter tr (concat lists)) <= size)%nat ->
  fold_left (fun b l => fold_left (put P Row row tr size) l b) lists (Some b) = Some (b ++ rows row tr lists).
Proof.
  unfold rows. induction lists as [|l ls IH]; intros b H; cbn in *; [rewrite app_nil_r; reflexivity|].
  rewrite filter_app, app_length in H. rewrite put1 by lia. rewrite IH by (rewrite app_length, map_length; lia).
  rewrite filter_app, map_app, app_assoc. reflexivity.
Qed.
Lemma io_rows lists : io_track P Row row tr lists = Some (rows row tr lists).
Proof. unfold io_track. rewrite put_all; [reflexivity|]. unfold num_tracked. rewrite num_all. cbn. lia. Qed.
Lemma datasets_rows ranks : datasets P Row row tr ranks = Some (map (rows row tr) ranks).
Proof. induction ranks; cbn; [reflexivity|]. rewrite io_rows, IHranks. reflexivity. Qed.

Lemma run_gen Nph logs : 0 < Nph -> forall k d, exists o,
  fold_left (track_ph P Row row tr Nph) logs (Some (mkout Row k d)) = Some o /\ track_id Row o = (k + length logs)%nat /\
  (forall i l, nth_error logs i = Some l -> dir Row o (k + i) = Some (map (rows row tr) l)) /\
  (forall j, (j < k \/ k + length logs <= j)%nat -> dir Row o j = d j).
Proof.
  intros H. induction logs as [|l logs IH]; intros k d.
  - eexists. split; [reflexivity|]. cbn. split; [lia|]. split; [|reflexivity]. intros [|i] l; discriminate.
  - cbn [fold_left track_ph]. rewrite datasets_rows. rewrite (Rltb_true 0 Nph H). cbn [track_id dir].
    match goal with |- context [mkout _ (S k) ?f] => destruct (IH (S k) f) as (o & E & I & A & B) end.
    exists o. split; [exact E|]. cbn [length]. split; [lia|]. split.
    + intros [|i] l' G; cbn in G.
      * injection G as <-. rewrite Nat.add_0_r, B by lia. rewrite Nat.eqb_refl. reflexivity.
      * replace (k + S i)%nat with (S k + i)%nat by lia. apply A. exact G.
    + intros j Hj. rewrite B by lia. destruct (Nat.eqb_spec j k); [lia|]. reflexivity.
Qed.
Lemma run_off Nph logs : Nph <= 0 -> forall o, fold_left (track_ph P Row row tr Nph) logs (Some o) = Some o.
Proof.
  intros H. induction logs as [|l logs IH]; intros o; [reflexivity|]. cbn [fold_left track_ph]. rewrite datasets_rows.
  rewrite (Rltb_false 0 Nph H). apply IH.
Qed.
End T.
