(** Proofs about the timers. *)
From Coq Require Import Reals Bool ZArith List Lia Lra.
From Verif Require Import RLib XLib TimModel TimSpec.
Import ListNotations.
Open Scope R_scope.

Lemma at_same f c x : at_ f c x c = x. Proof. unfold at_. now rewrite Nat.eqb_refl. Qed.
Lemma at_other f c x d : d <> c -> at_ f c x d = f d. Proof. intros N. unfold at_. now rewrite (proj2 (Nat.eqb_neq d c) N). Qed.
Lemma spent_app c a b : spent c (a ++ b) = spent c a + spent c b.
Proof. induction a as [|j a IH]; [cbn [app]; change (spent c []) with 0; lra|]. cbn [app]. change (spent c (j :: a ++ b)) with ((if Nat.eqb (fst j) c then length_of j else 0) + spent c (a ++ b)). change (spent c (j :: a)) with ((if Nat.eqb (fst j) c then length_of j else 0) + spent c a). rewrite IH. lra. Qed.
Lemma spent_cons c j r : spent c (j :: r) = (if Nat.eqb (fst j) c then length_of j else 0) + spent c r.
Proof. reflexivity. Qed.
Lemma timed_times s j c : times (timed s j) c = times s c + (if Nat.eqb (fst j) c then length_of j else 0).
Proof.
  destruct j as [d [a b]]. unfold timed, timer_stop, timer_start, length_of. cbn [fst snd times timers]. destruct (Nat.eqb_spec d c) as [-> | N].
  - now rewrite !at_same.
  - rewrite at_other by congruence. lra.
Qed.
Lemma timed_other s j : nstep (timed s j) = nstep s /\ nstep_start (timed s j) = nstep_start s.
Proof. split; reflexivity. Qed.
Lemma jobs_times js : forall s, (forall c, times (fold_left timed js s) c = times s c + spent c js) /\ nstep (fold_left timed js s) = nstep s /\ nstep_start (fold_left timed js s) = nstep_start s /\
  (no_all js -> timers (fold_left timed js s) TIMER_ALL = timers s TIMER_ALL).
Proof.
  induction js as [|j js IH]; intros s; cbn [fold_left].
  - repeat split; try reflexivity. intros c. cbn. lra.
  - destruct (IH (timed s j)) as (A & B & C & D). split; [|split; [|split]].
    + intros c. rewrite A, timed_times, spent_cons. lra.
    + rewrite B. apply timed_other.
    + rewrite C. apply timed_other.
    + intros N. rewrite D by (intros k K; apply N; now right). destruct j as [d [a b]]. unfold timed, timer_stop, timer_start. cbn [fst snd timers]. apply at_other.
      intros E. apply (N (d, (a, b))); [now left|]. exact (eq_sym E).
Qed.
Lemma to_log_ok p s : no_all (p_jobs p) -> (forall c, times (to_log p s) c = times s c + spent c (p_jobs p)) /\ nstep (to_log p s) = (nstep s + 1)%Z /\ nstep_start (to_log p s) = nstep_start s /\
  timers (to_log p s) TIMER_ALL = p_from p.
Proof.
  intros N. unfold to_log. cbv zeta. match goal with |- context [fold_left timed _ ?s0] => destruct (jobs_times (p_jobs p) s0) as (A & B & C & D) end.
  split; [exact A|]. split; [exact B|]. split; [exact C|]. rewrite (D N). cbn [timers timer_start]. apply at_same.
Qed.
Lemma stop_all p s : no_all (p_jobs p) -> let s' := timer_stop TIMER_ALL (p_to p) (to_log p s) in
  (forall c, times s' c = times s c + spent c (all_jobs false p)) /\ nstep s' = (nstep s + 1)%Z /\ nstep_start s' = nstep_start s.
Proof.
  intros N s'. destruct (to_log_ok p s N) as (A & B & C & D). unfold s', timer_stop. cbn [times nstep nstep_start]. split; [|split; assumption].
  intros c. unfold all_jobs. rewrite app_nil_r, spent_cons. unfold length_of. cbn [fst snd]. rewrite D. destruct (Nat.eqb_spec TIMER_ALL c) as [<- | E].
  - rewrite at_same, A. lra.
  - rewrite at_other by congruence. rewrite A. lra.
Qed.
Lemma spent_tail c tail p : spent c (all_jobs tail p) = spent c (all_jobs false p) + (if tail then (if Nat.eqb TIMER_DIAG c then length_of (TIMER_DIAG, p_types p) else 0) else 0).
Proof. unfold all_jobs. rewrite !spent_cons, !spent_app. destruct tail; [rewrite spent_cons|]; cbn [fst spent fold_right]; lra. Qed.

Section Loop.
Variables (DTp : Z) (neutrinos : bool).
Lemma tail_pass s p c : nstep (one_pass DTp neutrinos s p) = nstep (to_report p s) /\ nstep_start (one_pass DTp neutrinos s p) = nstep_start (to_report p s) /\
  times (one_pass DTp neutrinos s p) c = times (to_report p s) c + (if Z.eqb (Z.rem (nstep (to_report p s)) DTp) 0 && neutrinos then (if Nat.eqb TIMER_DIAG c then length_of (TIMER_DIAG, p_types p) else 0) else 0).
Proof.
  unfold one_pass. cbv zeta. destruct (Z.eqb _ 0 && neutrinos).
  - split; [reflexivity|]. split; [reflexivity|]. apply timed_times.
  - split; [reflexivity|]. split; [reflexivity|]. lra.
Qed.
(** a step that is not the first *)
Lemma later s p : no_all (p_jobs p) -> (1 <= nstep s)%Z -> let s' := one_pass DTp neutrinos s p in
  (forall c, times s' c = times s c + spent c (all_jobs (Z.eqb (Z.rem (nstep s + 1) DTp) 0 && neutrinos) p)) /\ nstep s' = (nstep s + 1)%Z /\ nstep_start s' = nstep_start s.
Proof.
  intros N L s'. destruct (stop_all p s N) as (A & B & C). cbv zeta in *.
  assert (R : to_report p s = timer_stop TIMER_ALL (p_to p) (to_log p s)) by (unfold to_report; cbv zeta; rewrite B, (proj2 (Z.eqb_neq _ _)) by lia; reflexivity).
  unfold s'. split; [|split].
  - intros c. destruct (tail_pass s p c) as (_ & _ & T). rewrite T, R, A, B. rewrite (spent_tail c (Z.eqb _ 0 && neutrinos)). lra.
  - destruct (tail_pass s p 0) as (T & _ & _). now rewrite T, R, B.
  - destruct (tail_pass s p 0) as (_ & T & _). now rewrite T, R, C.
Qed.
Theorem loop_total ps : (forall p, In p ps -> no_all (p_jobs p)) -> forall s, (1 <= nstep s)%Z -> let s' := main_loop DTp neutrinos s ps in
  (forall c, times s' c = times s c + spent c (jobs_of DTp neutrinos (nstep s) ps)) /\ nstep s' = (nstep s + Z.of_nat (length ps))%Z /\ nstep_start s' = nstep_start s.
Proof.
  induction ps as [|p ps IH]; intros N s L s'; unfold s'; cbn [main_loop fold_left jobs_of].
  - repeat split; [intros c; cbn; lra|]. cbn. lia.
  - destruct (later s p (N p (or_introl eq_refl)) L) as (A & B & C). cbv zeta in *.
    destruct (IH (fun q Q => N q (or_intror Q)) (one_pass DTp neutrinos s p) ltac:(lia)) as (A' & B' & C'). fold (main_loop DTp neutrinos (one_pass DTp neutrinos s p) ps). cbv zeta in *.
    split; [|split].
    + intros c. rewrite A', A, B, spent_app. lra.
    + rewrite B', B. cbn [length]. lia.
    + now rewrite C', C.
Qed.
(** after a restart *)
Theorem restarted s ps : (1 <= nstep s)%Z -> (forall p, In p ps -> no_all (p_jobs p)) -> ps <> [] -> forall c,
  get_time_per_step c (main_loop DTp neutrinos (time_init s) ps) = Fin (spent c (jobs_of DTp neutrinos (nstep s) ps) / INR (length ps)).
Proof.
  intros L N NE c. destruct (loop_total ps N (time_init s) L) as (A & B & C). cbv zeta in *. unfold get_time_per_step. rewrite A, B, C. cbn [time_init times nstep nstep_start].
  replace (nstep s + Z.of_nat (length ps) - nstep s)%Z with (Z.of_nat (length ps)) by lia. rewrite <- INR_IZR_INZ, Rplus_0_l. apply xdiv_fin.
  destruct ps; [congruence|]. apply not_0_INR. discriminate.
Qed.
(** from the start *)
Lemma first s p : no_all (p_jobs p) -> nstep s = 0%Z -> let s' := one_pass DTp neutrinos s p in
  (forall c, times s' c = (if Z.eqb (Z.rem 1 DTp) 0 && neutrinos then (if Nat.eqb TIMER_DIAG c then length_of (TIMER_DIAG, p_types p) else 0) else 0)) /\ nstep s' = 1%Z /\ nstep_start s' = nstep_start s.
Proof.
  intros N L s'. destruct (stop_all p s N) as (A & B & C). cbv zeta in *.
  assert (R : to_report p s = timers_reset (timer_stop TIMER_ALL (p_to p) (to_log p s))) by (unfold to_report; cbv zeta; rewrite B, L; reflexivity).
  assert (B1 : nstep (to_report p s) = 1%Z) by (rewrite R; cbn [timers_reset nstep]; rewrite B; lia).
  unfold s'. split; [|split].
  - intros c. destruct (tail_pass s p c) as (_ & _ & T). rewrite T, B1, R. cbn [timers_reset times]. lra.
  - destruct (tail_pass s p 0) as (T & _ & _). now rewrite T.
  - destruct (tail_pass s p 0) as (_ & T & _). rewrite T, R. exact C.
Qed.
Theorem started p ps : no_all (p_jobs p) -> (forall q, In q ps -> no_all (p_jobs q)) -> forall c, c <> TIMER_DIAG ->
  get_time_per_step c (main_loop DTp neutrinos (time_init fresh) (p :: ps)) = Fin (spent c (jobs_of DTp neutrinos 1 ps) / (INR (length ps) + 1)).
Proof.
  intros N NS c ND. cbn [main_loop fold_left]. destruct (first (time_init fresh) p N eq_refl) as (A & B & C). cbv zeta in *.
  destruct (loop_total ps NS (one_pass DTp neutrinos (time_init fresh) p) ltac:(lia)) as (A' & B' & C'). fold (main_loop DTp neutrinos (one_pass DTp neutrinos (time_init fresh) p) ps). cbv zeta in *.
  unfold get_time_per_step. rewrite A', B', C', A, B, C. cbn [time_init nstep_start nstep fresh]. rewrite (proj2 (Nat.eqb_neq TIMER_DIAG c)) by congruence.
  replace (1 + Z.of_nat (length ps) - 0)%Z with (Z.of_nat (length ps) + 1)%Z by lia. rewrite plus_IZR, <- INR_IZR_INZ.
  replace (if Z.eqb (Z.rem 1 DTp) 0 && neutrinos then 0 else 0) with 0 by (destruct (_ && _); reflexivity). rewrite Rplus_0_l. apply xdiv_fin. pose proof (pos_INR (length ps)). lra.
Qed.
End Loop.
(** passes that take the same time *)
Lemma spent_all_pass tail p : no_all (p_jobs p) -> spent TIMER_ALL (all_jobs tail p) = p_to p - p_from p.
Proof.
  intros N. rewrite spent_tail. replace (if tail then (if Nat.eqb TIMER_DIAG TIMER_ALL then length_of (TIMER_DIAG, p_types p) else 0) else 0) with 0 by (destruct tail; reflexivity).
  unfold all_jobs. rewrite app_nil_r, spent_cons. cbn [fst]. rewrite Nat.eqb_refl. unfold length_of. cbn [fst snd].
  assert (Z : spent TIMER_ALL (p_jobs p) = 0).
  { revert N. generalize (p_jobs p). induction l as [|j l IH]; intros N; [reflexivity|]. rewrite spent_cons. rewrite (proj2 (Nat.eqb_neq (fst j) TIMER_ALL)) by (apply N; now left). rewrite IH; [lra|]. intros k K. apply N. now right. }
  rewrite Z. lra.
Qed.
Lemma spent_all_passes DTp neutrinos d ps : (forall p, In p ps -> no_all (p_jobs p) /\ p_to p - p_from p = d) -> forall n, spent TIMER_ALL (jobs_of DTp neutrinos n ps) = d * INR (length ps).
Proof.
  induction ps as [|p ps IH]; intros H n; [cbn; lra|]. cbn [jobs_of]. rewrite spent_app, IH by (intros q Q; apply H; now right). destruct (H p (or_introl eq_refl)) as [N E].
  rewrite spent_all_pass by exact N. rewrite E. cbn [length]. rewrite S_INR. lra.
Qed.
Theorem too_low DTp neutrinos d p ps : (forall q, In q (p :: ps) -> no_all (p_jobs q) /\ p_to q - p_from q = d) ->
  get_time_per_step TIMER_ALL (main_loop DTp neutrinos (time_init fresh) (p :: ps)) = Fin (d * (INR (length ps) / INR (length (p :: ps)))).
Proof.
  intros H. rewrite started; [|apply H; now left|intros q Q; apply H; now right|discriminate].
  rewrite (spent_all_passes DTp neutrinos d) by (intros q Q; apply H; now right). cbn [length]. rewrite S_INR. f_equal. unfold Rdiv. ring.
Qed.
(** the first report *)
Theorem first_report p c : no_all (p_jobs p) -> percent c (to_report p (time_init fresh)) = NaN.
Proof.
  intros N. destruct (stop_all p (time_init fresh) N) as (_ & B & _). cbv zeta in B. unfold to_report. cbv zeta. rewrite B. cbn [time_init fresh nstep Z.add Z.eqb Pos.eqb].
  unfold percent. cbn [timers_reset times]. rewrite Rmult_0_r. unfold xdiv, inf_by. destruct (Reqb_spec 0 0); [|lra]. rewrite (Rltb_false 0 0) by lra. reflexivity.
Qed.
Theorem first_row c : get_time_per_step c fresh = NaN.
Proof. unfold get_time_per_step, fresh. cbn [times nstep nstep_start Z.sub Z.add Z.opp]. unfold xdiv, inf_by. destruct (Reqb_spec 0 0); [|lra]. rewrite (Rltb_false 0 0) by lra. reflexivity. Qed.
(** the log of a step counts the step but not its time *)
Theorem log_row DTp neutrinos s ps p : (1 <= nstep s)%Z -> (forall q, In q ps -> no_all (p_jobs q)) -> no_all (p_jobs p) ->
  get_time_per_step TIMER_ALL (to_log p (main_loop DTp neutrinos (time_init s) ps)) = Fin (spent TIMER_ALL (jobs_of DTp neutrinos (nstep s) ps) / (INR (length ps) + 1)).
Proof.
  intros L N NP. destruct (loop_total DTp neutrinos ps N (time_init s) L) as (A & B & C). cbv zeta in *. destruct (to_log_ok p (main_loop DTp neutrinos (time_init s) ps) NP) as (A' & B' & C' & _).
  unfold get_time_per_step. rewrite A', B', C', A, B, C. cbn [time_init times nstep nstep_start].
  assert (Z : spent TIMER_ALL (p_jobs p) = 0) by (pose proof (spent_all_pass false p NP) as E; unfold all_jobs in E; rewrite app_nil_r, spent_cons in E; cbn [fst] in E; rewrite Nat.eqb_refl in E; unfold length_of in E; cbn [fst snd] in E; lra).
  rewrite Z. replace (nstep s + Z.of_nat (length ps) + 1 - nstep s)%Z with (Z.of_nat (length ps) + 1)%Z by lia. rewrite plus_IZR, <- INR_IZR_INZ, Rplus_0_l, Rplus_0_r. apply xdiv_fin. pose proof (pos_INR (length ps)). lra.
Qed.
(** parts of a pass *)
Lemma in_turn_total js : forall a b, in_turn a b js -> a <= b /\ total js <= b - a.
Proof.
  induction js as [|j js IH]; intros a b H; cbn [in_turn] in H.
  - cbn. lra.
  - destruct H as [H T]. destruct (IH _ _ T) as [A B]. cbn [total fold_right]. fold (total js). unfold length_of. lra.
Qed.
Lemma in_turn_spent js : forall a b c, in_turn a b js -> 0 <= spent c js <= total js.
Proof.
  induction js as [|j js IH]; intros a b c H; cbn [in_turn] in H; [cbn; lra|]. destruct H as [H T]. pose proof (IH _ _ c T). rewrite spent_cons. cbn [total fold_right]. fold (total js). unfold length_of.
  destruct (Nat.eqb (fst j) c); lra.
Qed.
Lemma part_pass DTp n ps : (forall p, In p ps -> no_all (p_jobs p) /\ in_turn (p_from p) (p_to p) (p_jobs p)) -> forall c, c <> TIMER_ALL ->
  0 <= spent c (jobs_of DTp false n ps) <= spent TIMER_ALL (jobs_of DTp false n ps).
Proof.
  intros H c NC. revert n. induction ps as [|p ps IH]; intros n; [cbn; lra|]. cbn [jobs_of]. rewrite !spent_app, andb_false_r.
  destruct (H p (or_introl eq_refl)) as [N T]. rewrite (spent_all_pass false p N). specialize (IH (fun q Q => H q (or_intror Q)) (n + 1)%Z).
  unfold all_jobs. rewrite app_nil_r, spent_cons. cbn [fst]. rewrite (proj2 (Nat.eqb_neq TIMER_ALL c)) by congruence.
  pose proof (in_turn_spent _ _ _ c T). pose proof (in_turn_total _ _ _ T). lra.
Qed.
Theorem part s DTp ps : (1 <= nstep s)%Z -> (forall p, In p ps -> no_all (p_jobs p) /\ in_turn (p_from p) (p_to p) (p_jobs p)) ->
  let s' := main_loop DTp false (time_init s) ps in 0 < times s' TIMER_ALL -> forall c, c <> TIMER_ALL -> exists x, percent c s' = Fin x /\ 0 <= x <= 100.
Proof.
  intros L H s' P c NC. destruct (loop_total DTp false ps (fun p I => proj1 (H p I)) (time_init s) L) as (A & _ & _). cbv zeta in A. fold s' in A. cbn [time_init times nstep] in A.
  pose proof (part_pass DTp (nstep s) ps H c NC) as PP. pose proof (A c) as Ac. pose proof (A TIMER_ALL) as Aa.
  exists (100 * times s' c / times s' TIMER_ALL). unfold percent. split; [apply xdiv_fin; lra|].
  assert (E : times s' c <= times s' TIMER_ALL) by lra. split.
  - apply Rmult_le_pos; [lra|]. left. now apply Rinv_0_lt_compat.
  - apply Rmult_le_reg_r with (times s' TIMER_ALL); [exact P|]. unfold Rdiv. rewrite Rmult_assoc, Rinv_l by lra. lra.
Qed.
(** the timer started again before it was stopped *)
Theorem nested a0 a1 a2 a3 s : times (fixup_utoprim_all a0 a1 a2 a3 s) TIMER_FIXUP = times s TIMER_FIXUP + (a3 - a0) + ((a2 - a1) - (a1 - a0)).
Proof. unfold fixup_utoprim_all, timed, timer_stop, timer_start. cbn [fst snd times timers]. rewrite !at_same. lra. Qed.
(** ** Cases *)
Theorem mean_refuted : exists DTp neutrinos ps, (1 <= length ps)%nat /\ (forall p, In p ps -> no_all (p_jobs p) /\ p_to p - p_from p = 1) /\
  get_time_per_step TIMER_ALL (main_loop DTp neutrinos (time_init fresh) ps) = Fin (1 / 2).
Proof.
  exists 100%Z, false, [mkpass 0 [] 1 (0, 0); mkpass 1 [] 2 (0, 0)].
  assert (H : forall q, In q [mkpass 0 [] 1 (0, 0); mkpass 1 [] 2 (0, 0)] -> no_all (p_jobs q) /\ p_to q - p_from q = 1).
  { intros q [<- | [<- | []]]; cbn; (split; [intros j []|lra]). }
  split; [cbn; lia|]. split; [exact H|]. rewrite (too_low 100 false 1) by exact H. f_equal. cbn. lra.
Qed.
Theorem share_refuted : exists s DTp ps x, (1 <= nstep s)%Z /\ (forall p, In p ps -> no_all (p_jobs p) /\ in_turn (p_from p) (p_to p) (p_jobs p) /\ p_to p <= fst (p_types p) <= snd (p_types p)) /\
  percent TIMER_DIAG (main_loop DTp true (time_init s) ps) = Fin x /\ 100 < x.
Proof.
  exists (mkclk (fun _ => 0) (fun _ => 0) 0 5), 1%Z, [mkpass 0 [] 1 (1, 3)], 200.
  assert (H : forall p, In p [mkpass 0 [] 1 (1, 3)] -> no_all (p_jobs p)) by (intros p [<- | []] j []).
  split; [cbn; lia|]. split.
  - intros p I. split; [now apply H|]. destruct I as [<- | []]. cbn. lra.
  - split; [|lra]. destruct (loop_total 1 true _ H (time_init (mkclk (fun _ => 0) (fun _ => 0) 0 5)) ltac:(cbn; lia)) as (A & _ & _). cbv zeta in A.
    match type of A with context [times ?m _ = _] => set (M := m) in * end. clearbody M.
    pose proof (A TIMER_DIAG) as E1. pose proof (A TIMER_ALL) as E2. cbn [time_init times nstep jobs_of Z.add Pos.add] in E1, E2. change (Z.eqb (Z.rem 6 1) 0 && true) with true in E1, E2.
    unfold all_jobs in E1, E2. cbn [p_jobs p_types p_from p_to app] in E1, E2. rewrite !spent_cons in E1, E2. unfold length_of in E1, E2. cbn in E1, E2.
    unfold percent. rewrite E1, E2. rewrite xdiv_fin by lra. f_equal. unfold length_of. cbn [fst snd]. field.
Qed.
Theorem nested_refuted : exists a0 a1 a2 a3 s, a0 <= a1 <= a2 /\ a2 <= a3 /\ a3 - a0 < times (fixup_utoprim_all a0 a1 a2 a3 s) TIMER_FIXUP - times s TIMER_FIXUP.
Proof. exists 0, 1, 4, 5, fresh. split; [lra|]. split; [lra|]. rewrite nested. cbn. lra. Qed.
Definition steady : list pass := [mkpass 0 [(TIMER_FIXUP, (0, 1)); (TIMER_DIAG, (1, 2))] 4 (0, 0); mkpass 4 [(TIMER_FIXUP, (5, 6))] 8 (0, 0)].
Lemma steady_ok : forall p, In p steady -> no_all (p_jobs p) /\ in_turn (p_from p) (p_to p) (p_jobs p).
Proof. intros p [<- | [<- | []]]; cbn; (split; [|lra]); intros j J; cbn in J; intuition (subst; discriminate). Qed.
