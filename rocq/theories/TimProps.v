(** C124: performance timers. *)
From Coq Require Import Reals Bool ZArith List Lia Lra.
From Verif Require Import RLib XLib TimModel TimSpec TimProofs.
Import ListNotations.
Open Scope R_scope.

(** After a restart each timer's time per step is the time spent in its jobs, over all steps
    since, divided by their number. *)
Theorem C124_restarted : forall DTp neutrinos s ps, (1 <= nstep s)%Z -> (forall p, In p ps -> no_all (p_jobs p)) -> ps <> [] -> forall c,
  get_time_per_step c (main_loop DTp neutrinos (time_init s) ps) = Fin (spent c (jobs_of DTp neutrinos (nstep s) ps) / INR (length ps)).
Proof. exact restarted. Qed.
Print Assumptions C124_restarted.
(** From the start the first step is not counted in the time, but is in the number of steps. *)
Theorem C124_started : forall DTp neutrinos p ps, no_all (p_jobs p) -> (forall q, In q ps -> no_all (p_jobs q)) -> forall c, c <> TIMER_DIAG ->
  get_time_per_step c (main_loop DTp neutrinos (time_init fresh) (p :: ps)) = Fin (spent c (jobs_of DTp neutrinos 1 ps) / (INR (length ps) + 1)).
Proof. exact started. Qed.
Print Assumptions C124_started.
(** So for steps that all take the same time, the time per step is too low. *)
Theorem C124_too_low : forall DTp neutrinos d p ps, (forall q, In q (p :: ps) -> no_all (p_jobs q) /\ p_to q - p_from q = d) ->
  get_time_per_step TIMER_ALL (main_loop DTp neutrinos (time_init fresh) (p :: ps)) = Fin (d * (INR (length ps) / INR (length (p :: ps)))).
Proof. exact too_low. Qed.
Print Assumptions C124_too_low.
Theorem C124_mean_refuted : exists DTp neutrinos ps, (1 <= length ps)%nat /\ (forall p, In p ps -> no_all (p_jobs p) /\ p_to p - p_from p = 1) /\
  get_time_per_step TIMER_ALL (main_loop DTp neutrinos (time_init fresh) ps) = Fin (1 / 2).
Proof. exact mean_refuted. Qed.
Print Assumptions C124_mean_refuted.
(** A report after the first step shows no number for any share, and the first row of the
    log none for any time. *)
Theorem C124_first_report : forall p c, no_all (p_jobs p) -> percent c (to_report p (time_init fresh)) = NaN.
Proof. exact first_report. Qed.
Print Assumptions C124_first_report.
Theorem C124_first_row : forall c, get_time_per_step c fresh = NaN.
Proof. exact first_row. Qed.
Print Assumptions C124_first_row.
(** A row of the log counts the step it is written in, but not yet its time. *)
Theorem C124_log_row : forall DTp neutrinos s ps p, (1 <= nstep s)%Z -> (forall q, In q ps -> no_all (p_jobs q)) -> no_all (p_jobs p) ->
  get_time_per_step TIMER_ALL (to_log p (main_loop DTp neutrinos (time_init s) ps)) = Fin (spent TIMER_ALL (jobs_of DTp neutrinos (nstep s) ps) / (INR (length ps) + 1)).
Proof. exact log_row. Qed.
Print Assumptions C124_log_row.
(** Shares of the whole are between 0 and 100, if jobs follow one another and the kinds of
    neutrinos are not printed. *)
Theorem C124_share : forall s DTp ps, (1 <= nstep s)%Z -> (forall p, In p ps -> no_all (p_jobs p) /\ in_turn (p_from p) (p_to p) (p_jobs p)) ->
  let s' := main_loop DTp false (time_init s) ps in 0 < times s' TIMER_ALL -> forall c, c <> TIMER_ALL -> exists x, percent c s' = Fin x /\ 0 <= x <= 100.
Proof. exact part. Qed.
Print Assumptions C124_share.
(** They are printed after the whole was stopped: the share of the diagnostics can be over 100. *)
Theorem C124_share_refuted : exists s DTp ps x, (1 <= nstep s)%Z /\ (forall p, In p ps -> no_all (p_jobs p) /\ in_turn (p_from p) (p_to p) (p_jobs p) /\ p_to p <= fst (p_types p) <= snd (p_types p)) /\
  percent TIMER_DIAG (main_loop DTp true (time_init s) ps) = Fin x /\ 100 < x.
Proof. exact share_refuted. Qed.
Print Assumptions C124_share_refuted.
(** When no zone can be mended the floors are timed within the mending by the same timer:
    their time is counted twice, and what came before them not at all. *)
Theorem C124_nested : forall a0 a1 a2 a3 s, times (fixup_utoprim_all a0 a1 a2 a3 s) TIMER_FIXUP = times s TIMER_FIXUP + (a3 - a0) + ((a2 - a1) - (a1 - a0)).
Proof. exact nested. Qed.
Print Assumptions C124_nested.
Theorem C124_nested_refuted : exists a0 a1 a2 a3 s, a0 <= a1 <= a2 /\ a2 <= a3 /\ a3 - a0 < times (fixup_utoprim_all a0 a1 a2 a3 s) TIMER_FIXUP - times s TIMER_FIXUP.
Proof. exact nested_refuted. Qed.
Print Assumptions C124_nested_refuted.

(** Two steps of four seconds. *)
Example C124_nonvacuous : (forall p, In p steady -> no_all (p_jobs p) /\ in_turn (p_from p) (p_to p) (p_jobs p)) /\ spent TIMER_FIXUP (jobs_of 10 false 1 steady) = 2 /\ spent TIMER_ALL (jobs_of 10 false 1 steady) = 8.
Proof. split; [exact steady_ok|]. split; cbn; unfold length_of; cbn; lra. Qed.
