From Coq Require Import Reals List ZArith Arith Lia Lra Sorted.
From Verif Require Import RLib TimeModel TimeSpec.
Import ListNotations.
Open Scope R_scope.

Lemma SMALL_pos : 0 < SMALL.
Proof. unfold SMALL. apply Rinv_0_lt_compat, pow_lt. lra. Qed.
Lemma INR_unbounded r : exists n, r < INR n.
Proof.
  exists (Z.to_nat (up r)). rewrite INR_IZR_INZ. pose proof (proj1 (archimed r)).
  apply Rlt_le_trans with (IZR (up r)); [lra|]. apply IZR_le. lia.
Qed.
Lemma mpi_min_glb m l : forall x, m <= x -> Forall (fun y => m <= y) l -> m <= mpi_min x l.
Proof.
  induction l as [|y l IH]; intros x X F; [exact X|]. inversion F; subst. cbn [mpi_min]. apply IH; [|assumption].
  rewrite MY_MIN_min. now apply Rmin_glb.
Qed.
Lemma mpi_min_le l : forall x, mpi_min x l <= x /\ Forall (fun y => mpi_min x l <= y) l.
Proof.
  induction l as [|y l IH]; intros x; cbn [mpi_min]; [split; [lra|constructor]|].
  destruct (IH (MY_MIN x y)) as [A B]. rewrite MY_MIN_min in *. pose proof (Rmin_l x y). pose proof (Rmin_r x y).
  split; [lra|]. constructor; [lra|exact B].
Qed.
Lemma grown_le dt n : grown dt n <= SAFE * dt /\ grown dt n <= n.
Proof. unfold grown. rcases; lra. Qed.
Lemma grown_ge m dt n : m <= SAFE * dt -> m <= n -> m <= grown dt n.
Proof. unfold grown. rcases; lra. Qed.

Section Run.
Variables (rad : bool) (tf DTd DTl DTr : R) (DNr : nat).
Notation step_time := (step_time rad tf).
Notation body := (body rad tf DTd DTl DTr DNr).
Notation iter := (iter rad tf DTd DTl DTr DNr).
Notation start := (start DTd DTl DTr).
Notation main := (main rad tf DTd DTl DTr DNr).

Lemma step_growth t0 d0 n ns : 0 < d0 -> t0 + d0 <= tf -> let '(t1, d1) := step_time t0 d0 n ns in
  d1 <= SAFE * d0 \/ rad = true /\ d1 <= SMALL + d0 / SAFE.
Proof.
  intros P L. unfold TimeModel.step_time.
  set (m := mpi_min (grown d0 n) (map (grown d0) ns)).
  assert (M : m <= SAFE * d0) by (pose proof (proj1 (mpi_min_le (map (grown d0) ns) (grown d0 n))); pose proof (proj1 (grown_le d0 n)); unfold m; lra).
  clearbody m. destruct rad; rcases; solve [left; lra | right; split; [reflexivity|lra]].
Qed.
Lemma step_clip t0 d0 n ns : let '(t1, d1) := step_time t0 d0 n ns in t1 = t0 + d0 /\ t1 + d1 <= tf.
Proof. unfold TimeModel.step_time. rcases; split; lra. Qed.
(** the next step is at least [m], or takes the time exactly to the end *)
Lemma step_lower m dl t0 d0 n ns : 0 < m -> m <= d0 -> m <= dl -> m <= SMALL ->
  rad = true \/ Forall (fun x => dl <= x) (n :: ns) ->
  let '(t1, d1) := step_time t0 d0 n ns in m <= d1 \/ t1 + d1 = tf.
Proof.
  intros M D DL MS H. unfold TimeModel.step_time.
  set (q := mpi_min (grown d0 n) (map (grown d0) ns)).
  assert (G : rad = true \/ m <= q).
  { destruct H as [H|H]; [now left|right]. inversion H as [|? ? H1 H2]; subst. assert (m <= SAFE * d0) by (unfold SAFE; lra).
    apply mpi_min_glb; [apply grown_ge; lra|]. rewrite Forall_forall in *. intros y Y. apply in_map_iff in Y as (z & <- & Z).
    apply grown_ge; [assumption|]. specialize (H2 z Z). cbn in H2. lra. }
  clearbody q.
  assert (0 < d0 / SAFE) by (unfold SAFE; lra).
  destruct rad; rcases; try (right; lra); left; lra.
Qed.

Lemma body_t lim s : t (body lim s) = t s + dt s.
Proof. unfold TimeModel.body. destruct (step_time _ _ _ _) as [t1 d1] eqn:E. unfold TimeModel.step_time in E. injection E as <- _. destruct (Rltb _ tf); reflexivity. Qed.
Lemma body_dt lim s : dt (body lim s) = snd (step_time (t s) (dt s) (fst lim) (snd lim)).
Proof. unfold TimeModel.body. destruct (step_time _ _ _ _) as [t1 d1]. destruct (Rltb _ tf); reflexivity. Qed.

(** induction over the loop *)
Lemma iter_ind (Q : state -> Prop) lims : (forall s, Q s -> t s < tf -> Q (body (lims (nstep s)) s)) ->
  forall n s, Q s -> Q (iter n lims s).
Proof.
  intros B. induction n as [|n IH]; intros s H; cbn [TimeModel.iter]; [exact H|].
  destruct (Rltb_spec (t s) tf); [|exact H]. apply IH. now apply B.
Qed.

(** ** C28 *)
Lemma never_past lims dl dt0 : 0 < dl -> 0 < dt0 -> dt0 <= tf -> rad = true \/ limits_above dl lims ->
  forall n, t (iter n lims (start dt0)) <= tf /\ (t (iter n lims (start dt0)) < tf -> 0 < dt (iter n lims (start dt0)) <= tf - t (iter n lims (start dt0))).
Proof.
  intros DL D0 DT H n.
  assert (I : forall n, let s := iter n lims (start dt0) in t s <= tf /\ t s + dt s <= tf /\ (0 < dt s \/ t s = tf)).
  { clear n. intros n. apply iter_ind.
    - intros s (A & B & C) L.
      pose proof (step_clip (t s) (dt s) (fst (lims (nstep s))) (snd (lims (nstep s)))) as S1.
      assert (P : 0 < dt s) by (destruct C; lra).
      set (m := Rmin (Rmin (dt s) dl) SMALL).
      assert (MP : 0 < m) by (unfold m; apply Rmin_pos; [apply Rmin_pos; assumption|apply SMALL_pos]).
      assert (M1 : m <= dt s /\ m <= dl /\ m <= SMALL) by (unfold m; pose proof (Rmin_l (dt s) dl); pose proof (Rmin_r (dt s) dl); pose proof (Rmin_l (Rmin (dt s) dl) SMALL); pose proof (Rmin_r (Rmin (dt s) dl) SMALL); lra).
      pose proof (step_lower m dl (t s) (dt s) (fst (lims (nstep s))) (snd (lims (nstep s))) MP ltac:(lra) ltac:(lra) ltac:(lra)) as S2.
      specialize (S2 ltac:(destruct H as [H|H]; [now left|right; apply H])).
      cbv beta zeta. rewrite body_t, body_dt. destruct (step_time _ _ _ _) as [t1 d1]. cbn [snd]. destruct S1 as [-> S1].
      split; [lra|]. split; [lra|]. destruct S2 as [S2|S2]; [left; lra|].
      destruct (Rle_lt_dec d1 0); [right; lra|now left].
    - cbn. lra. }
  specialize (I n). cbv zeta in I. destruct I as (A & B & C). split; [exact A|]. intros L. destruct C; lra.
Qed.
Lemma reaches lims dl dt0 : 0 < dl -> 0 < dt0 -> dt0 <= tf -> rad = true \/ limits_above dl lims ->
  exists N, forall n, (N <= n)%nat -> t (iter n lims (start dt0)) = tf.
Proof.
  intros DL D0 DT H.
  set (m := Rmin (Rmin dt0 dl) SMALL).
  assert (MP : 0 < m) by (unfold m; apply Rmin_pos; [apply Rmin_pos; assumption|apply SMALL_pos]).
  assert (M1 : m <= dt0 /\ m <= dl /\ m <= SMALL) by (unfold m; pose proof (Rmin_l dt0 dl); pose proof (Rmin_r dt0 dl); pose proof (Rmin_l (Rmin dt0 dl) SMALL); pose proof (Rmin_r (Rmin dt0 dl) SMALL); lra).
  clearbody m. destruct M1 as (M1 & M2 & M3).
  assert (K : forall n s, t s + dt s <= tf -> (m <= dt s \/ t s + dt s = tf) -> t s <= tf -> tf <= t s + INR n * m -> t (iter n lims s) = tf).
  { induction n as [|n IH]; intros s A B C E; cbn [TimeModel.iter]; [cbn in E; lra|].
    destruct (Rltb_spec (t s) tf) as [L|L]; [|lra].
    pose proof (step_clip (t s) (dt s) (fst (lims (nstep s))) (snd (lims (nstep s)))) as S1.
    destruct B as [B|B].
    - pose proof (step_lower m dl (t s) (dt s) (fst (lims (nstep s))) (snd (lims (nstep s))) MP B M2 M3) as S2.
      specialize (S2 ltac:(destruct H as [H|H]; [now left|right; apply H])).
      apply IH; rewrite ?body_t, ?body_dt; destruct (step_time _ _ _ _) as [t1 d1]; cbn [snd]; destruct S1 as [-> S1]; try lra.
      rewrite S_INR in E. lra.
    - destruct n as [|n].
      + cbn [TimeModel.iter]. rewrite body_t. exact B.
      + cbn [TimeModel.iter]. rewrite body_t, Rltb_false by lra. rewrite body_t. exact B. }
  destruct (INR_unbounded (tf / m)) as (N & HN).
  exists N. intros n L. apply K; cbn [t dt TimeModel.start]; [lra|left; lra|lra|].
  apply le_INR in L. apply Rlt_le in HN. assert (T : tf = tf / m * m) by (field; lra). rewrite T. rewrite Rplus_0_l. apply Rmult_le_compat_r; lra.
Qed.

(** ** C29 *)
Lemma dumps_app a b : dumps (a ++ b) = (dumps a ++ dumps b)%list.
Proof. induction a as [|[] a IH]; cbn; congruence. Qed.
Lemma body_events lim s : let s' := body lim s in
  (t s' < tf /\ tdump s <= t s' /\ dumps (events s') = (dumps (events s) ++ [(dump_id s, t s')])%list /\
     dump_id s' = S (dump_id s) /\ tdump s' = tdump s + DTd /\ dumped s' = true) \/
  (~ (t s' < tf /\ tdump s <= t s') /\ dumps (events s') = dumps (events s) /\ dump_id s' = dump_id s /\ tdump s' = tdump s /\ dumped s' = false).
Proof.
  cbv zeta. rewrite body_t. unfold TimeModel.body. destruct (step_time (t s) (dt s) (fst lim) (snd lim)) as [t1 d1] eqn:E.
  unfold TimeModel.step_time in E. injection E as <- _. destruct (Rltb_spec (t s + dt s) tf) as [L|L].
  - cbn [events dump_id tdump dumped]. destruct (Rleb_spec (tdump s) (t s + dt s)) as [M|M].
    + left. split; [exact L|]. split; [exact M|]. split; [|auto]. rewrite !dumps_app. cbn [dumps app].
      f_equal. destruct (Rleb (tlog s) _), (_ =? 0)%nat, (Rleb (trestart s) _); reflexivity.
    + right. split; [tauto|]. split; [|auto]. rewrite !dumps_app. cbn [dumps app].
      destruct (Rleb (tlog s) _), (_ =? 0)%nat, (Rleb (trestart s) _); cbn; rewrite app_nil_r; reflexivity.
  - right. split; [tauto|]. cbn. auto.
Qed.
Lemma body_nofinal lim s : Forall (fun e => ~ is_final e) (events s) -> Forall (fun e => ~ is_final e) (events (body lim s)).
Proof.
  intros F. unfold TimeModel.body. destruct (step_time _ _ _ _) as [t1 d1]. destruct (Rltb t1 tf); [|exact F]. cbn [events].
  repeat apply Forall_app_2 || (apply Forall_app; split); try exact F;
    match goal with |- Forall _ (if ?b then _ else _) => destruct b end; repeat constructor; intros [].
Qed.

Definition sched (s : state) : Prop :=
  map fst (dumps (events s)) = seq 0 (dump_id s) /\ tdump s = INR (dump_id s) * DTd /\ (1 <= dump_id s)%nat /\
  (dumped s = true -> t s < tf) /\
  (forall k x, (1 <= k)%nat -> nth_error (dumps (events s)) k = Some (k, x) -> INR k * DTd <= x < tf) /\
  Forall (fun e => ~ is_final e) (events s).
Lemma sched_len s : sched s -> List.length (dumps (events s)) = dump_id s.
Proof. intros (A & _). rewrite <- (map_length fst), A. apply seq_length. Qed.
Lemma sched_body lim s : sched s -> sched (body lim s).
Proof.
  intros H. pose proof (sched_len s H) as LN. destruct H as (A & B & C & D & E & F).
  assert (NF := body_nofinal lim s F).
  destruct (body_events lim s) as [(T & U & V & W & X & Y)|(T & V & W & X & Y)].
    + split; [|split; [|split; [|split; [|split]]]].
      * rewrite V, W, map_app, A, seq_S. reflexivity.
      * rewrite X, W, S_INR, B. ring.
      * lia.
      * intros _. exact T.
      * intros k x K. rewrite V. destruct (lt_eq_lt_dec k (dump_id s)) as [[Q|Q]|Q].
        -- rewrite nth_error_app1 by lia. now apply E.
        -- subst k. rewrite nth_error_app2 by lia. rewrite LN, Nat.sub_diag. cbn [nth_error]. intros [= <-]. rewrite <- B. lra.
        -- intros N. assert (k < List.length (dumps (events s) ++ [(dump_id s, t (body lim s))]))%nat by (apply nth_error_Some; congruence).
           rewrite app_length, LN in H. cbn in H. lia.
      * exact NF.
    + unfold sched. rewrite V, W, X, Y. repeat split; try assumption; try discriminate; now apply E with (k := k).
Qed.
Lemma sched_iter lims dt0 n : sched (iter n lims (start dt0)).
Proof.
  apply iter_ind; [intros; now apply sched_body|].
  - unfold sched. cbn. split; [reflexivity|]. split; [lra|]. split; [lia|]. split; [discriminate|]. split.
    + intros [|k] x K; [lia|]. destruct k; discriminate.
    + repeat constructor. intros [].
Qed.
(** what a complete run writes *)
Lemma main_shape fuel lims dt0 ev : main fuel lims dt0 = Some ev ->
  exists pre id, ev = (pre ++ [Final id (t (iter fuel lims (start dt0)))])%list /\ tf <= t (iter fuel lims (start dt0)) /\
    pre = events (iter fuel lims (start dt0)) /\ id = dump_id (iter fuel lims (start dt0)).
Proof.
  unfold TimeModel.main, finish. pose proof (sched_iter lims dt0 fuel) as (_ & _ & _ & D & _).
  set (s := iter fuel lims (start dt0)) in *. destruct (Rltb_spec (t s) tf) as [|L]; [discriminate|].
  destruct (dumped s) eqn:DD; [specialize (D eq_refl); lra|]. intros [= <-].
  exists (events s), (dump_id s). split; [reflexivity|]. split; [lra|]. auto.
Qed.
Lemma main_numbered fuel lims dt0 ev : main fuel lims dt0 = Some ev ->
  map fst (dumps ev) = seq 0 (List.length (dumps ev)) /\
  (exists pre id x, ev = (pre ++ [Final id x])%list /\ tf <= x /\ Forall (fun e => ~ is_final e) pre) /\
  (forall k x, (1 <= k)%nat -> (S k < List.length (dumps ev))%nat -> nth_error (dumps ev) k = Some (k, x) -> INR k * DTd <= x < tf).
Proof.
  intros M. apply main_shape in M as (pre & id & -> & T & P & I).
  pose proof (sched_iter lims dt0 fuel) as S. pose proof (sched_len _ S) as LN. destruct S as (A & _ & _ & _ & E & F). subst pre id.
  set (s := iter fuel lims (start dt0)) in *. rewrite dumps_app. cbn [dumps].
  split; [|split].
  - rewrite map_app, app_length, A, LN. cbn [List.length map fst]. rewrite Nat.add_1_r, seq_S. reflexivity.
  - exists (events s), (dump_id s), (t s). split; [reflexivity|]. split; [exact T|exact F].
  - intros k x K L. rewrite app_length, LN in L. cbn in L. rewrite nth_error_app1 by lia. now apply E.
Qed.
(** strictly increasing times: at most one dump per step *)
Definition incr (l : list (nat * R)) : Prop := StronglySorted (fun a b => snd a < snd b) l.
Lemma incr_snoc l x : incr l -> Forall (fun a => snd a < snd x) l -> incr (l ++ [x]).
Proof.
  intros I F. induction I as [|a l I IH H]; [repeat constructor|]. inversion F; subst. cbn. apply SSorted_cons; [now apply IH|].
  apply Forall_app. split; [exact H|repeat constructor; assumption].
Qed.
Lemma increasing fuel lims dl dt0 ev : 0 < dl -> 0 < dt0 -> dt0 <= tf -> rad = true \/ limits_above dl lims ->
  main fuel lims dt0 = Some ev -> incr (dumps ev) /\ exists pre id, ev = (pre ++ [Final id tf])%list.
Proof.
  intros DL D0 DT H M.
  assert (I : forall n, let s := iter n lims (start dt0) in incr (dumps (events s)) /\ Forall (fun a => snd a <= t s /\ snd a < tf) (dumps (events s))).
  { assert (I : forall n s, (t s <= tf /\ t s + dt s <= tf /\ (0 < dt s \/ t s = tf)) /\ incr (dumps (events s)) /\ Forall (fun a => snd a <= t s /\ snd a < tf) (dumps (events s)) ->
       let s' := iter n lims s in (t s' <= tf /\ t s' + dt s' <= tf /\ (0 < dt s' \/ t s' = tf)) /\ incr (dumps (events s')) /\ Forall (fun a => snd a <= t s' /\ snd a < tf) (dumps (events s'))).
    { intros n s0 H0. cbv zeta. apply (iter_ind (fun s => (t s <= tf /\ t s + dt s <= tf /\ (0 < dt s \/ t s = tf)) /\ incr (dumps (events s)) /\ Forall (fun a => snd a <= t s /\ snd a < tf) (dumps (events s)))); [|exact H0]. clear s0 H0 n. intros s ((A & B & C) & I & F) L.
      assert (P : 0 < dt s) by (destruct C; lra). split.
      - pose proof (step_clip (t s) (dt s) (fst (lims (nstep s))) (snd (lims (nstep s)))) as S1.
        set (m := Rmin (Rmin (dt s) dl) SMALL).
        assert (MP : 0 < m) by (unfold m; apply Rmin_pos; [apply Rmin_pos; assumption|apply SMALL_pos]).
        assert (M1 : m <= dt s /\ m <= dl /\ m <= SMALL) by (unfold m; pose proof (Rmin_l (dt s) dl); pose proof (Rmin_r (dt s) dl); pose proof (Rmin_l (Rmin (dt s) dl) SMALL); pose proof (Rmin_r (Rmin (dt s) dl) SMALL); lra).
        pose proof (step_lower m dl (t s) (dt s) (fst (lims (nstep s))) (snd (lims (nstep s))) MP ltac:(lra) ltac:(lra) ltac:(lra)) as S2.
        specialize (S2 ltac:(destruct H as [H|H]; [now left|right; apply H])).
        rewrite body_t, body_dt. destruct (step_time _ _ _ _) as [t1 d1]. cbn [snd]. destruct S1 as [-> S1].
        split; [lra|]. split; [lra|]. destruct S2 as [S2|S2]; [left; lra|]. destruct (Rle_lt_dec d1 0); [right; lra|now left].
      - destruct (body_events (lims (nstep s)) s) as [(T & U & V & _)|(T & V & _)]; rewrite V.
        + split.
          * apply incr_snoc; [exact I|]. eapply Forall_impl; [|exact F]. intros a [Q _]. cbn [snd]. rewrite body_t. lra.
          * apply Forall_app. split; [|repeat constructor; cbn [snd]; lra]. eapply Forall_impl; [|exact F]. intros a Q. cbn [snd]. rewrite body_t. lra.
        + split; [exact I|]. eapply Forall_impl; [|exact F]. intros a Q. cbn [snd]. rewrite body_t. lra. }
    intros n. specialize (I n (start dt0)). cbv zeta in I. cbv zeta. apply I. cbn. split; [lra|]. split; [repeat constructor|]. repeat constructor; cbn; lra. }
  pose proof (never_past lims dl dt0 DL D0 DT H fuel) as [NP _].
  apply main_shape in M as (pre & id & -> & T & -> & ->). specialize (I fuel). cbv zeta in I. destruct I as [I F].
  set (s := iter fuel lims (start dt0)) in *. assert (TT : t s = tf) by lra. rewrite TT. split.
  - rewrite dumps_app. cbn [dumps]. apply incr_snoc; [exact I|]. eapply Forall_impl; [|exact F]. cbn [snd]. intros a Q. lra.
  - eauto.
Qed.
(** no dump is late by a whole interval *)
Lemma on_time lims dt0 : 0 < DTd -> (forall n, dt (iter n lims (start dt0)) <= DTd) -> forall n,
  let s := iter n lims (start dt0) in t s < tf -> forall k, (1 <= k)%nat -> INR k * DTd <= t s ->
  exists x, nth_error (dumps (events s)) k = Some (k, x) /\ INR k * DTd <= x < INR k * DTd + DTd.
Proof.
  intros DP D n.
  set (Q s := (forall k, dt (iter k lims s) <= DTd) /\ sched s /\ (t s < tf -> t s < tdump s) /\
    forall k x, (1 <= k)%nat -> nth_error (dumps (events s)) k = Some (k, x) -> x < INR k * DTd + DTd).
  assert (I : Q (iter n lims (start dt0))).
  { apply iter_ind.
    - intros s (DD & SC & A & B) L. split; [|split; [|split]].
      + intros k. specialize (DD (S k)). cbn [TimeModel.iter] in DD. rewrite Rltb_true in DD by exact L. exact DD.
      + now apply sched_body.
      + pose proof (DD 0%nat) as D0. cbn in D0. specialize (A L).
        destruct (body_events (lims (nstep s)) s) as [(T & U & V & W & X & Y)|(T & V & W & X & Y)]; rewrite X; rewrite body_t in *; [lra|].
        intros TF. destruct (Rlt_le_dec (t s + dt s) (tdump s)); tauto.
      + pose proof (DD 0%nat) as D0. cbn in D0. specialize (A L). pose proof (sched_len s SC) as LN. destruct SC as (_ & TD & _).
        intros k x K. destruct (body_events (lims (nstep s)) s) as [(T & U & V & W & X & Y)|(T & V & W & X & Y)]; rewrite V; [|now apply B].
        destruct (lt_eq_lt_dec k (dump_id s)) as [[Z|Z]|Z].
        * rewrite nth_error_app1 by lia. now apply B.
        * subst k. rewrite nth_error_app2 by lia. rewrite LN, Nat.sub_diag. cbn [nth_error]. intros [= <-]. rewrite body_t, <- TD. lra.
        * intros N. assert (k < List.length (dumps (events s) ++ [(dump_id s, t (body (lims (nstep s)) s))]))%nat as H by (apply nth_error_Some; congruence).
          rewrite app_length, LN in H. cbn in H. lia.
    - split; [exact D|]. split; [apply (sched_iter lims dt0 0)|]. cbn. split; [intros; lra|].
      intros [|[|k]] x K; [lia|discriminate|discriminate]. }
  intros s TF k K T. subst s. set (s := iter n lims (start dt0)) in *. destruct I as (_ & SC & A & B). specialize (A TF).
  pose proof (sched_len s SC) as LN. destruct SC as (S1 & TD & _ & _ & S2 & _).
  assert (KD : (k < dump_id s)%nat) by (apply INR_lt; rewrite TD in A; nra).
  destruct (nth_error (dumps (events s)) k) as [[i x]|] eqn:E; [|apply nth_error_None in E; lia].
  assert (i = k) as ->.
  { apply (map_nth_error fst) in E. rewrite S1 in E. cbn [fst] in E.
    rewrite (nth_error_nth' _ 0%nat) in E by (rewrite seq_length; lia). rewrite seq_nth in E by lia. cbn in E. congruence. }
  exists x. split; [reflexivity|]. split; [now apply (S2 k x K)|now apply (B k x K)].
Qed.
End Run.

(** ** Refutations *)
Lemma overshoot : exists dt0 tf lims n, 0 < dt0 /\ 0 < tf /\ limits_above (/ 10) lims /\
  tf < t (iter false tf 1 1 1 100 n lims (start 1 1 1 dt0)).
Proof.
  exists 2, 1, (fun _ => (1, [])), 1%nat. split; [lra|]. split; [lra|]. split; [intros n; repeat constructor; cbn; lra|].
  cbn [iter]. cbn [t start]. rewrite Rltb_true by lra. rewrite body_t. cbn. lra.
Qed.
(** with a vanishing limit (no radiation) the run never ends *)
Lemma stalls : exists dt0 tf lims, 0 < dt0 <= tf /\ forall n, t (iter false tf 1 1 1 100 n lims (start 1 1 1 dt0)) < tf.
Proof.
  exists (1 / 2), 1, (fun _ => (0, [])). split; [lra|]. intros n.
  assert (I : (t (iter false 1 1 1 1 100 n (fun _ => (0, [])) (start 1 1 1 (1 / 2))) = 0 /\ dt (iter false 1 1 1 1 100 n (fun _ => (0, [])) (start 1 1 1 (1 / 2))) = 1 / 2) \/
     (t (iter false 1 1 1 1 100 n (fun _ => (0, [])) (start 1 1 1 (1 / 2))) = 1 / 2 /\ dt (iter false 1 1 1 1 100 n (fun _ => (0, [])) (start 1 1 1 (1 / 2))) = 0)).
  { apply (iter_ind false 1 1 1 1 100 (fun s => (t s = 0 /\ dt s = 1 / 2) \/ (t s = 1 / 2 /\ dt s = 0))); [|left; cbn; lra].
    intros s H L. rewrite body_t, body_dt. cbn [fst snd]. unfold step_time, grown, SAFE. cbn [map mpi_min snd].
    right. destruct H as [[-> ->]|[-> ->]]; split; try lra; rcases; lra. }
  destruct I as [[-> _]|[-> _]]; lra.
Qed.
Lemma growth_fallback : exists t0 d0 tf n, 0 < d0 /\ 0 < n /\ t0 + d0 < tf /\ SAFE * d0 < snd (step_time true tf t0 d0 n []).
Proof.
  exists 0, SMALL, 1, (SMALL / 2). pose proof SMALL_pos. assert (SM : SMALL <= / 10) by (unfold SMALL; lra).
  split; [lra|]. split; [lra|]. split; [lra|].
  unfold step_time, grown, SAFE. cbn [map mpi_min snd]. rcases; lra.
Qed.
