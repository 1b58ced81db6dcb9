(** Property theorems: time-step control and output schedule (C28, C29, C87). *)
From Coq Require Import Reals List Arith Lia Lra Sorted.
From Verif Require Import RLib TimeModel TimeSpec TimeProofs TimeSched.
Import ListNotations.
Open Scope R_scope.

(** C28.  If the first step fits into the run, time never passes the end and every
    step of the loop is positive (with radiation: whatever the limits are). *)
Theorem C28_never_past : forall rad tf DTd DTl DTr DNr lims dl dt0, 0 < dl -> 0 < dt0 -> dt0 <= tf ->
  rad = true \/ limits_above dl lims -> forall n,
  let s := iter rad tf DTd DTl DTr DNr n lims (start DTd DTl DTr dt0) in
  t s <= tf /\ (t s < tf -> 0 < dt s <= tf - t s).
Proof. exact never_past. Qed.
Print Assumptions C28_never_past.
(** The final time is reached exactly, and stays. *)
Theorem C28_reaches : forall rad tf DTd DTl DTr DNr lims dl dt0, 0 < dl -> 0 < dt0 -> dt0 <= tf ->
  rad = true \/ limits_above dl lims ->
  exists N, forall n, (N <= n)%nat -> t (iter rad tf DTd DTl DTr DNr n lims (start DTd DTl DTr dt0)) = tf.
Proof. exact reaches. Qed.
Print Assumptions C28_reaches.
(** A step grows by at most the safety factor, unless (with radiation) the
    too-small-step fallback is taken. *)
Theorem C28_growth : forall rad tf t0 d0 n ns, 0 < d0 -> t0 + d0 <= tf ->
  let '(t1, d1) := step_time rad tf t0 d0 n ns in d1 <= 13 / 10 * d0 \/ rad = true /\ d1 <= / 10 ^ 20 + d0 / (13 / 10).
Proof. exact step_growth. Qed.
Print Assumptions C28_growth.
Theorem C28_growth_refuted : exists t0 d0 tf n, 0 < d0 /\ 0 < n /\ t0 + d0 < tf /\ 13 / 10 * d0 < snd (step_time true tf t0 d0 n []).
Proof. exact growth_fallback. Qed.
Print Assumptions C28_growth_refuted.
(** The first step is not limited: it can pass the end. *)
Theorem C28_never_past_refuted : exists dt0 tf lims n, 0 < dt0 /\ 0 < tf /\ limits_above (/ 10) lims /\
  tf < t (iter false tf 1 1 1 100 n lims (start 1 1 1 dt0)).
Proof. exact overshoot. Qed.
Print Assumptions C28_never_past_refuted.
(** Without radiation a vanishing limit stalls the run for ever. *)
Theorem C28_reaches_refuted : exists dt0 tf lims, 0 < dt0 <= tf /\ forall n, t (iter false tf 1 1 1 100 n lims (start 1 1 1 dt0)) < tf.
Proof. exact stalls. Qed.
Print Assumptions C28_reaches_refuted.
Example C28_nonvacuous : t (iter false 1 1 1 1 100 3 (fun _ => (1, [])) (start 1 1 1 (1 / 2))) = 1 /\ limits_above 1 (fun _ => (1, [])).
Proof.
  split; [|intros n; repeat constructor; cbn; lra]. cbn [iter]. cbn [t start]. rewrite Rltb_true by lra.
  rewrite body_t. cbn [t dt start]. rewrite Rltb_true by lra. rewrite body_t, body_t, body_dt. cbn [t dt start fst snd].
  unfold step_time, grown, SAFE. cbn [map mpi_min snd]. rcases; try lra; rewrite body_t, body_t, body_dt; cbn [t dt start fst snd]; unfold step_time, grown, SAFE; cbn [map mpi_min snd]; rcases; lra.
Qed.

(** C29.  Dump files are numbered consecutively from 0; exactly one final dump is
    written, last, once the run is over; each other periodic dump k is written not
    before its due time k DTd. *)
Theorem C29_numbered : forall rad tf DTd DTl DTr DNr fuel lims dt0 ev, main rad tf DTd DTl DTr DNr fuel lims dt0 = Some ev ->
  map fst (dumps ev) = seq 0 (List.length (dumps ev)) /\
  (exists pre id x, ev = (pre ++ [Final id x])%list /\ tf <= x /\ Forall (fun e => ~ is_final e) pre) /\
  (forall k x, (1 <= k)%nat -> (S k < List.length (dumps ev))%nat -> nth_error (dumps ev) k = Some (k, x) -> INR k * DTd <= x < tf).
Proof. exact main_numbered. Qed.
Print Assumptions C29_numbered.
(** At most one dump per step: dump times strictly increase, and the last is the final time. *)
Theorem C29_increasing : forall rad tf DTd DTl DTr DNr fuel lims dl dt0 ev, 0 < dl -> 0 < dt0 -> dt0 <= tf ->
  rad = true \/ limits_above dl lims -> main rad tf DTd DTl DTr DNr fuel lims dt0 = Some ev ->
  StronglySorted (fun a b => snd a < snd b) (dumps ev) /\ exists pre id, ev = (pre ++ [Final id tf])%list.
Proof. exact increasing. Qed.
Print Assumptions C29_increasing.
(** If no step is longer than the dump interval, every dump that is due has been
    written, less than one interval late. *)
Theorem C29_on_time : forall rad tf DTd DTl DTr DNr lims dt0, 0 < DTd ->
  (forall n, dt (iter rad tf DTd DTl DTr DNr n lims (start DTd DTl DTr dt0)) <= DTd) -> forall n,
  let s := iter rad tf DTd DTl DTr DNr n lims (start DTd DTl DTr dt0) in
  t s < tf -> forall k, (1 <= k)%nat -> INR k * DTd <= t s ->
  exists x, nth_error (dumps (events s)) k = Some (k, x) /\ INR k * DTd <= x < INR k * DTd + DTd.
Proof. exact on_time. Qed.
Print Assumptions C29_on_time.
Example C29_nonvacuous : main false 1 1 1 1 100 1 (fun _ => (1, [])) 1 = Some [Dump 0 0; Final 1 1].
Proof.
  unfold main. cbn [iter]. cbn [t start]. rewrite Rltb_true by lra. unfold finish. rewrite body_t. cbn [t dt start].
  rewrite Rltb_false by lra. unfold body. cbn [t dt start fst snd]. unfold step_time. rewrite (Rltb_false (0 + 1) 1) by lra.
  cbn [dumped dump_id events start]. cbn [app]. rewrite Rplus_0_l. reflexivity.
Qed.

(** C87.  Over a complete run no log entry and no permanent restart file is early; *)
Theorem C87_not_early : forall rad tf DTd DTl DTr DNr fuel lims dt0 ev, main rad tf DTd DTl DTr DNr fuel lims dt0 = Some ev ->
  not_early DTl tf (logs ev) /\ not_early DTr tf (perms ev).
Proof. exact (fun rad tf DTd DTl DTr DNr fuel lims dt0 ev M => conj (logs_not_early rad tf DTd DTl DTr DNr fuel lims dt0 ev M) (perms_not_early rad tf DTd DTl DTr DNr fuel lims dt0 ev M)). Qed.
Print Assumptions C87_not_early.
(** if no step is longer than the interval, all that are due are there, less than one
    interval late. *)
Theorem C87_logs : forall rad tf DTd DTl DTr DNr lims dt0, 0 < DTl ->
  (forall n, dt (iter rad tf DTd DTl DTr DNr n lims (start DTd DTl DTr dt0)) <= DTl) -> forall n,
  let s := iter rad tf DTd DTl DTr DNr n lims (start DTd DTl DTr dt0) in t s < tf -> punctual DTl (t s) (logs (events s)).
Proof. exact logs_punctual. Qed.
Print Assumptions C87_logs.
Theorem C87_permanent : forall rad tf DTd DTl DTr DNr lims dt0, 0 < DTr ->
  (forall n, dt (iter rad tf DTd DTl DTr DNr n lims (start DTd DTl DTr dt0)) <= DTr) -> forall n,
  let s := iter rad tf DTd DTl DTr DNr n lims (start DTd DTl DTr dt0) in t s < tf -> punctual DTr (t s) (perms (events s)).
Proof. exact perms_punctual. Qed.
Print Assumptions C87_permanent.
(** While the run goes on, temporary restart files are written at the multiples of DNr and
    at no other step, each once, *)
Theorem C87_temporary : forall rad tf DTd DTl DTr DNr lims dt0 n, (0 < DNr)%nat ->
  let s := iter rad tf DTd DTl DTr DNr n lims (start DTd DTl DTr dt0) in t s < tf ->
  NoDup (map fst (temps (events s))) /\
  forall k, In k (map fst (temps (events s))) <-> (1 <= k <= nstep s)%nat /\ exists j, k = (j * DNr)%nat.
Proof. exact temps_iff. Qed.
Print Assumptions C87_temporary.
(** so fewer than DNr steps are lost in a crash (between steps). *)
Theorem C87_recent : forall rad tf DTd DTl DTr DNr lims dt0 n, (0 < DNr)%nat ->
  let s := iter rad tf DTd DTl DTr DNr n lims (start DTd DTl DTr dt0) in t s < tf -> (DNr <= nstep s)%nat ->
  exists k, In k (map fst (temps (events s))) /\ (nstep s - k < DNr)%nat.
Proof. exact temps_recent. Qed.
Print Assumptions C87_recent.
(** Two steps of one half into a run of length 3, with output at every half. *)
Example C87_nonvacuous : let s := iter false 3 1 (1 / 2) (1 / 2) 2 2 (fun _ => (1 / 2, [])) (start 1 (1 / 2) (1 / 2) (1 / 2)) in
  t s < 3 /\ (2 <= nstep s)%nat /\ logs (events s) = [1 / 2; 1] /\ temps (events s) = [(2%nat, 1)].
Proof.
  assert (E : iter false 3 1 (1 / 2) (1 / 2) 2 2 (fun _ => (1 / 2, [])) (start 1 (1 / 2) (1 / 2) (1 / 2)) =
    body false 3 1 (1 / 2) (1 / 2) 2 (1 / 2, []) (body false 3 1 (1 / 2) (1 / 2) 2 (1 / 2, []) (start 1 (1 / 2) (1 / 2) (1 / 2)))).
  { cbn [iter]. cbn [t start]. rewrite Rltb_true by lra. rewrite body_t. cbn [t dt start]. rewrite Rltb_true by lra. reflexivity. }
  assert (F : body false 3 1 (1 / 2) (1 / 2) 2 (1 / 2, []) (start 1 (1 / 2) (1 / 2) (1 / 2)) =
    {| t := 0 + 1 / 2; dt := 1 / 2; tdump := 1; tlog := 1 / 2 + 1 / 2; trestart := 1 / 2 + 1 / 2; nstep := 1; dump_id := 1; dumped := false;
       events := [Dump 0 0; Log (0 + 1 / 2); RestartPerm (0 + 1 / 2)] |}).
  { unfold body. cbn [t dt tdump tlog trestart nstep dump_id events start fst snd]. unfold step_time, grown, SAFE. cbn [map mpi_min].
    rcases; try lra; reflexivity. }
  cbv zeta. rewrite E, F. clear E F. unfold body. cbn [t dt tdump tlog trestart nstep dump_id events fst snd]. unfold step_time, grown, SAFE. cbn [map mpi_min].
  rcases; try lra. change (2 mod 2 =? 0)%nat with true. cbn [t nstep events app logs temps]. split; [lra|]. split; [lia|]. split; [f_equal; [lra|f_equal; lra]|do 2 f_equal; lra].
Qed.
