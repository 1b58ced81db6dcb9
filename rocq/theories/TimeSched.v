(** Log entries and restart files over a run. *)
From Coq Require Import Reals List ZArith Arith Lia Lra Sorted.
From Verif Require Import RLib TimeModel TimeSpec TimeProofs.
Import ListNotations.
Open Scope R_scope.

Lemma logs_app a b : logs (a ++ b) = (logs a ++ logs b)%list.
Proof. induction a as [|[] a IH]; cbn; congruence. Qed.
Lemma perms_app a b : perms (a ++ b) = (perms a ++ perms b)%list.
Proof. induction a as [|[] a IH]; cbn; congruence. Qed.
Lemma temps_app a b : temps (a ++ b) = (temps a ++ temps b)%list.
Proof. induction a as [|[] a IH]; cbn; congruence. Qed.

Section Run.
Variables (rad : bool) (tf DTd DTl DTr : R) (DNr : nat).
Notation body := (body rad tf DTd DTl DTr DNr).
Notation iter := (iter rad tf DTd DTl DTr DNr).
Notation start := (start DTd DTl DTr).
Notation main := (main rad tf DTd DTl DTr DNr).

(** one schedule: a list of times and a due time *)
Section One.
Variables (times : list event -> list R) (due : state -> R) (D : R).
Hypothesis B : forall lim s, let s' := body lim s in
  (t s' < tf /\ due s <= t s' /\ times (events s') = (times (events s) ++ [t s'])%list /\ due s' = due s + D) \/
  (~ (t s' < tf /\ due s <= t s') /\ times (events s') = times (events s) /\ due s' = due s).
Definition ok (s : state) : Prop := due s = INR (S (List.length (times (events s)))) * D /\ not_early D tf (times (events s)).
Lemma ok_body lim s : ok s -> ok (body lim s).
Proof using B.
  intros [A E]. unfold ok. destruct (B lim s) as [(T & U & V & W)|(T & V & W)]; rewrite V, W; [|split; assumption]. split.
  - rewrite app_length, A. cbn [List.length]. rewrite Nat.add_1_r, !S_INR. ring.
  - intros k x N. destruct (lt_eq_lt_dec k (List.length (times (events s)))) as [[Q|Q]|Q].
    + rewrite nth_error_app1 in N by lia. now apply E.
    + subst k. rewrite nth_error_app2 in N by lia. rewrite Nat.sub_diag in N. cbn [nth_error] in N.
      assert (x = t (body lim s)) as -> by congruence. rewrite <- A. lra.
    + assert (H : (k < List.length (times (events s) ++ [t (body lim s)]))%nat) by (apply nth_error_Some; congruence).
      rewrite app_length in H. cbn in H. lia.
Qed.
Lemma ok_iter lims s n : ok s -> ok (iter n lims s).
Proof using B. intros H. apply iter_ind; [|exact H]. intros; now apply ok_body. Qed.
Lemma punctual_iter lims n : forall s, 0 < D -> (forall k, dt (iter k lims s) <= D) -> ok s -> (t s < tf -> t s < due s) ->
  (forall k x, nth_error (times (events s)) k = Some x -> x < INR (S k) * D + D) ->
  t (iter n lims s) < tf -> punctual D (t (iter n lims s)) (times (events (iter n lims s))).
Proof using B.
  intros s DP DD O A L T.
  set (Q s := (forall k, dt (iter k lims s) <= D) /\ ok s /\ (t s < tf -> t s < due s) /\
    forall k x, nth_error (times (events s)) k = Some x -> x < INR (S k) * D + D).
  assert (I : Q (iter n lims s)).
  { apply iter_ind; [|unfold Q; auto]. clear s DD O A L T. intros s (DD & O & A & L) T. specialize (A T).
    assert (D0 : dt s <= D) by exact (DD 0%nat). split; [|split; [|split]].
    - intros k. specialize (DD (S k)). cbn [TimeModel.iter] in DD. rewrite Rltb_true in DD by exact T. exact DD.
    - now apply ok_body.
    - destruct (B (lims (nstep s)) s) as [(T' & U & V & W)|(T' & V & W)]; rewrite W; rewrite body_t in *; [lra|].
      intros TF. destruct (Rlt_le_dec (t s + dt s) (due s)); tauto.
    - intros k x. destruct (B (lims (nstep s)) s) as [(T' & U & V & W)|(T' & V & W)]; rewrite V; [|now apply L].
      destruct O as [DU _]. destruct (lt_eq_lt_dec k (List.length (times (events s)))) as [[Z|Z]|Z].
      + rewrite nth_error_app1 by lia. now apply L.
      + subst k. rewrite nth_error_app2 by lia. rewrite Nat.sub_diag. cbn [nth_error]. intros E.
        assert (x = t (body (lims (nstep s)) s)) as -> by congruence. rewrite body_t, <- DU. lra.
      + intros E. assert (H : (k < List.length (times (events s) ++ [t (body (lims (nstep s)) s)]))%nat) by (apply nth_error_Some; congruence).
        rewrite app_length in H. cbn in H. lia. }
  destruct I as (_ & [DU NE] & A' & L'). specialize (A' T). set (u := iter n lims s) in *. clearbody u.
  intros k K. assert (KL : (k < List.length (times (events u)))%nat) by (apply Nat.succ_lt_mono, INR_lt; rewrite DU in A'; nra).
  destruct (nth_error (times (events u)) k) as [x|] eqn:E; [|apply nth_error_None in E; lia].
  exists x. split; [reflexivity|]. split; [now apply (NE k x)|now apply (L' k x)].
Qed.
End One.

Lemma body_logs lim s : let s' := body lim s in
  (t s' < tf /\ tlog s <= t s' /\ logs (events s') = (logs (events s) ++ [t s'])%list /\ tlog s' = tlog s + DTl) \/
  (~ (t s' < tf /\ tlog s <= t s') /\ logs (events s') = logs (events s) /\ tlog s' = tlog s).
Proof.
  cbv zeta. rewrite body_t. unfold TimeModel.body. destruct (step_time rad tf (t s) (dt s) (fst lim) (snd lim)) as [t1 d1] eqn:E.
  unfold step_time in E. injection E as <- _. destruct (Rltb_spec (t s + dt s) tf) as [L|L].
  - cbn [events tlog]. destruct (Rleb_spec (tlog s) (t s + dt s)) as [M|M].
    + left. split; [exact L|]. split; [exact M|]. split; [|auto]. rewrite !logs_app.
      destruct (Rleb (tdump s) _), (_ =? 0)%nat, (Rleb (trestart s) _); reflexivity.
    + right. split; [tauto|]. split; [|auto]. rewrite !logs_app.
      destruct (Rleb (tdump s) _), (_ =? 0)%nat, (Rleb (trestart s) _); cbn; rewrite app_nil_r; reflexivity.
  - right. split; [tauto|]. cbn. auto.
Qed.
Lemma body_perms lim s : let s' := body lim s in
  (t s' < tf /\ trestart s <= t s' /\ perms (events s') = (perms (events s) ++ [t s'])%list /\ trestart s' = trestart s + DTr) \/
  (~ (t s' < tf /\ trestart s <= t s') /\ perms (events s') = perms (events s) /\ trestart s' = trestart s).
Proof.
  cbv zeta. rewrite body_t. unfold TimeModel.body. destruct (step_time rad tf (t s) (dt s) (fst lim) (snd lim)) as [t1 d1] eqn:E.
  unfold step_time in E. injection E as <- _. destruct (Rltb_spec (t s + dt s) tf) as [L|L].
  - cbn [events trestart]. destruct (Rleb_spec (trestart s) (t s + dt s)) as [M|M].
    + left. split; [exact L|]. split; [exact M|]. split; [|auto]. rewrite !perms_app.
      destruct (Rleb (tdump s) _), (_ =? 0)%nat, (Rleb (tlog s) _); reflexivity.
    + right. split; [tauto|]. split; [|auto]. rewrite !perms_app.
      destruct (Rleb (tdump s) _), (_ =? 0)%nat, (Rleb (tlog s) _); cbn; rewrite app_nil_r; reflexivity.
  - right. split; [tauto|]. cbn. auto.
Qed.
Lemma main_events (f : list event -> list R) fuel lims dt0 ev : (forall a b, f (a ++ b) = (f a ++ f b)%list) -> f [] = [] -> (forall i x, f [Final i x] = []) ->
  main fuel lims dt0 = Some ev -> f ev = f (events (iter fuel lims (start dt0))).
Proof.
  intros FA FN FF. unfold TimeModel.main, finish. destruct (Rltb _ tf); [discriminate|]. intros E.
  assert (I : forall a b : list event, Some a = Some b -> b = a) by congruence. rewrite (I _ _ E), FA.
  destruct (dumped _); [rewrite FN, app_nil_r; reflexivity|]. rewrite FF, app_nil_r. reflexivity.
Qed.
Lemma logs_ok lims dt0 n : ok logs tlog DTl (iter n lims (start dt0)).
Proof. apply ok_iter; [exact body_logs|]. split; [cbn; lra|]. intros k x N. destruct k; discriminate N. Qed.
Lemma perms_ok lims dt0 n : ok perms trestart DTr (iter n lims (start dt0)).
Proof. apply ok_iter; [exact body_perms|]. split; [cbn; lra|]. intros k x N. destruct k; discriminate N. Qed.
Lemma logs_not_early fuel lims dt0 ev : main fuel lims dt0 = Some ev -> not_early DTl tf (logs ev).
Proof. intros M. rewrite (main_events logs _ _ _ _ logs_app eq_refl (fun _ _ => eq_refl) M). apply logs_ok. Qed.
Lemma perms_not_early fuel lims dt0 ev : main fuel lims dt0 = Some ev -> not_early DTr tf (perms ev).
Proof. intros M. rewrite (main_events perms _ _ _ _ perms_app eq_refl (fun _ _ => eq_refl) M). apply perms_ok. Qed.
Lemma logs_punctual lims dt0 : 0 < DTl -> (forall n, dt (iter n lims (start dt0)) <= DTl) -> forall n,
  let s := iter n lims (start dt0) in t s < tf -> punctual DTl (t s) (logs (events s)).
Proof.
  intros P D n s T. unfold s in *. apply (punctual_iter logs tlog DTl body_logs); try assumption.
  - exact (logs_ok lims dt0 0).
  - cbn. intros; lra.
  - intros [|k] x N; discriminate N.
Qed.
Lemma perms_punctual lims dt0 : 0 < DTr -> (forall n, dt (iter n lims (start dt0)) <= DTr) -> forall n,
  let s := iter n lims (start dt0) in t s < tf -> punctual DTr (t s) (perms (events s)).
Proof.
  intros P D n s T. unfold s in *. apply (punctual_iter perms trestart DTr body_perms); try assumption.
  - exact (perms_ok lims dt0 0).
  - cbn. intros; lra.
  - intros [|k] x N; discriminate N.
Qed.

(** ** Temporary restart files *)
Lemma body_temps lim s : let s' := body lim s in nstep s' = S (nstep s) /\
  temps (events s') = (temps (events s) ++ if Rltb (t s') tf then if S (nstep s) mod DNr =? 0 then [(S (nstep s), t s')] else [] else [])%list%nat.
Proof.
  cbv zeta. rewrite body_t. unfold TimeModel.body. destruct (step_time rad tf (t s) (dt s) (fst lim) (snd lim)) as [t1 d1] eqn:E.
  unfold step_time in E. injection E as <- _. destruct (Rltb (t s + dt s) tf).
  - cbn [events nstep]. split; [reflexivity|]. rewrite !temps_app.
    destruct (Rleb (tdump s) _), (_ =? 0)%nat, (Rleb (tlog s) _), (Rleb (trestart s) _); cbn; rewrite ?app_nil_r; reflexivity.
  - cbn [events nstep]. rewrite app_nil_r. auto.
Qed.
Definition multiples (n : nat) : list nat := filter (fun k => k mod DNr =? 0)%nat (seq 1 n).
Lemma multiples_S n : multiples (S n) = (multiples n ++ if S n mod DNr =? 0 then [S n] else [])%list%nat.
Proof. unfold multiples. rewrite seq_S, filter_app. reflexivity. Qed.
Lemma temps_iter lims dt0 n : let s := iter n lims (start dt0) in
  (t s < tf -> map fst (temps (events s)) = multiples (nstep s)) /\
  (tf <= t s -> 0 < tf -> map fst (temps (events s)) = multiples (nstep s - 1)).
Proof.
  cbv zeta. apply (iter_ind rad tf DTd DTl DTr DNr (fun s => (t s < tf -> map fst (temps (events s)) = multiples (nstep s)) /\
    (tf <= t s -> 0 < tf -> map fst (temps (events s)) = multiples (nstep s - 1)))).
  - intros s [A _] L. specialize (A L). destruct (body_temps (lims (nstep s)) s) as [-> ->].
    destruct (Rltb_spec (t (body (lims (nstep s)) s)) tf) as [M|M]; (split; [intros H|intros H _]); try lra.
    + rewrite map_app, A, multiples_S. destruct (_ =? 0)%nat; reflexivity.
    + rewrite app_nil_r, A. f_equal. lia.
  - cbn. split; [reflexivity|intros; lra].
Qed.
Lemma temps_all lims dt0 n : let s := iter n lims (start dt0) in t s < tf -> map fst (temps (events s)) = multiples (nstep s).
Proof. intros s. apply temps_iter. Qed.
Lemma in_multiples k n : In k (multiples n) <-> (1 <= k <= n)%nat /\ (k mod DNr = 0)%nat.
Proof. unfold multiples. rewrite filter_In, in_seq, Nat.eqb_eq. lia. Qed.
Lemma temps_iff lims dt0 n : (0 < DNr)%nat -> let s := iter n lims (start dt0) in t s < tf ->
  NoDup (map fst (temps (events s))) /\
  forall k, In k (map fst (temps (events s))) <-> (1 <= k <= nstep s)%nat /\ exists j, k = (j * DNr)%nat.
Proof.
  intros DP s T. unfold s in *. rewrite temps_all by exact T. split.
  - apply NoDup_filter, seq_NoDup.
  - intros k. rewrite in_multiples. split; intros [H E]; (split; [exact H|]).
    + exists (k / DNr)%nat. pose proof (Nat.div_mod k DNr ltac:(lia)). lia.
    + destruct E as [j ->]. apply Nat.mod_mul. lia.
Qed.
(** between two temporary restart files there are at most DNr steps *)
Lemma temps_recent lims dt0 n : (0 < DNr)%nat -> let s := iter n lims (start dt0) in t s < tf -> (DNr <= nstep s)%nat ->
  exists k, In k (map fst (temps (events s))) /\ (nstep s - k < DNr)%nat.
Proof.
  intros DP s T N. unfold s in *. exists (nstep (iter n lims (start dt0)) / DNr * DNr)%nat. rewrite (proj2 (temps_iff lims dt0 n DP T)).
  set (m := nstep _) in *. pose proof (Nat.div_mod m DNr ltac:(lia)). pose proof (Nat.mod_upper_bound m DNr ltac:(lia)).
  assert (1 <= m / DNr)%nat by (apply Nat.div_le_lower_bound; lia). split; [split; [nia|eauto]|]. nia.
Qed.
End Run.
