(** Performance timers: core/timing.c, and their use by core/main.c:144-271, core/fixup.c:15-20,
    264-359 and core/diag.c:253-316, 622-660.  Clock readings (omp_get_wtime) are arbitrary
    reals; barriers are not modelled. *)
From Coq Require Import Reals Bool ZArith List.
From Verif Require Import RLib XLib.
Import ListNotations.
Open Scope R_scope.

(** decs.h:285-297 *)
Definition TIMER_FIXUP := 2%nat.
Definition TIMER_DIAG := 4%nat.
Definition TIMER_ALL := 12%nat.
(** timing.c:11-13 and the global nstep *)
Record clocks := mkclk { timers : nat -> R; times : nat -> R; nstep_start : Z; nstep : Z }.
Definition at_ (f : nat -> R) (c : nat) (x : R) : nat -> R := fun d => if Nat.eqb d c then x else f d.
(** 19-24 *)
Definition time_init (s : clocks) : clocks := mkclk (timers s) (fun _ => 0) (nstep s) (nstep s).
(** 26-34 and 36-44, at clock reading [now] *)
Definition timer_start (c : nat) (now : R) (s : clocks) : clocks := mkclk (at_ (timers s) c now) (times s) (nstep_start s) (nstep s).
Definition timer_stop (c : nat) (now : R) (s : clocks) : clocks :=
  mkclk (timers s) (at_ (times s) c (times s c + (now - timers s c))) (nstep_start s) (nstep s).
(** 46-50 *)
Definition timers_reset (s : clocks) : clocks := mkclk (timers s) (fun _ => 0) (nstep_start s) (nstep s).
(** 52-55, and the second number of a line of report_performance (63-64 and so on) *)
Definition get_time_per_step (c : nat) (s : clocks) : X := (Fin (times s c) / Fin (IZR (nstep s - nstep_start s)))%X.
Definition percent (c : nat) (s : clocks) : X := (Fin (100 * times s c) / Fin (times s TIMER_ALL))%X.

(** something timed: a code and clock readings at its start and end *)
Definition job := (nat * (R * R))%type.
Definition timed (s : clocks) (j : job) : clocks := timer_stop (fst j) (snd (snd j)) (timer_start (fst j) (fst (snd j)) s).
(** fixup.c:264-359 when no zone could be mended: fixup (15-20) is called, lines 356-357;
    readings at the four calls *)
Definition fixup_utoprim_all (a0 a1 a2 a3 : R) (s : clocks) : clocks :=
  timer_stop TIMER_FIXUP a3 (timed (timer_start TIMER_FIXUP a0 s) (TIMER_FIXUP, (a1, a2))).

(** one pass of the main loop, main.c:160-266: what is timed in it, from the start of TIMER_ALL
    to its stop, then print_rad_types with its readings *)
Record pass := mkpass { p_from : R; p_jobs : list job; p_to : R; p_types : R * R }.
Section Loop.
(** DTp, and whether neutrinos are on *)
Variables (DTp : Z) (neutrinos : bool).
(** main.c:162-169 and on, up to the log and the stop of TIMER_ALL *)
Definition to_log (p : pass) (s : clocks) : clocks :=
  let s := timer_start TIMER_ALL (p_from p) s in
  let s := mkclk (timers s) (times s) (nstep_start s) (nstep s + 1) in
  fold_left timed (p_jobs p) s.
(** 250-254 *)
Definition to_report (p : pass) (s : clocks) : clocks :=
  let s := timer_stop TIMER_ALL (p_to p) (to_log p s) in
  if Z.eqb (nstep s) 1 then timers_reset s else s.
(** 255-266 *)
Definition one_pass (s : clocks) (p : pass) : clocks :=
  let s := to_report p s in
  if Z.eqb (Z.rem (nstep s) DTp) 0 && neutrinos then timed s (TIMER_DIAG, p_types p) else s.
Definition main_loop (s : clocks) (ps : list pass) : clocks := fold_left one_pass ps s.
End Loop.
(** the statics before time_init: no timer has run, nstep_start is 0 *)
Definition fresh : clocks := mkclk (fun _ => 0) (fun _ => 0) 0 0.
