(** Time-step control and output schedule: core/step.c:132-174, core/main.c:140-272
    and 297-340, core/diag.c:236-250, core/io.c:738, 1206.  Times are exact reals.
    A step sees one signal limit per process (the ndt each process computed); what
    else a step does is not modelled.  DNr > 0 is assumed (nstep % 0 is undefined
    in C).  Events are the files written, in order. *)
From Coq Require Import Reals List Arith.
From Verif Require Import RLib.
Import ListNotations.
Open Scope R_scope.

(** core/decs.h:87, 94 *)
Definition SMALL : R := / 10 ^ 20.
Definition SAFE : R := 13 / 10.

Inductive event :=
| Dump (id : nat) (time : R)
| Final (id : nat) (time : R)
| Log (time : R)
| RestartTemp (step : nat) (time : R)
| RestartPerm (time : R).

Record state := { t : R; dt : R; tdump : R; tlog : R; trestart : R;
  nstep : nat; dump_id : nat; dumped : bool; events : list event }.

Section Run.
(** [rad]: RADIATION is compiled in *)
Variables (rad : bool) (tf DTd DTl DTr : R) (DNr : nat).

(** mpi_min over all processes *)
Fixpoint mpi_min (x : R) (l : list R) : R :=
  match l with [] => x | y :: r => mpi_min (MY_MIN x y) r end.
(** core/step.c:149-151 on each process *)
Definition grown (dt ndt : R) : R := if Rltb (SAFE * dt) ndt then SAFE * dt else ndt.
(** core/step.c:132-174: new time and new step; [ndt0 :: ndts] are the limits of the processes *)
Definition step_time (t dt ndt0 : R) (ndts : list R) : R * R :=
  let t' := t + dt in
  let d := mpi_min (grown dt ndt0) (map (grown dt) ndts) in
  let d := if rad then if Rltb d SMALL then SMALL + dt / SAFE else d else d in
  let d := if Rltb tf (t' + d) then tf - t' else d in
  (t', d).

(** core/main.c:161-250: one pass of the loop *)
Definition body (lim : R * list R) (s : state) : state :=
  let '(t', dt') := step_time (t s) (dt s) (fst lim) (snd lim) in
  let n := S (nstep s) in
  if Rltb t' tf then
    let d := Rleb (tdump s) t' in
    let l := Rleb (tlog s) t' in
    let p := Rleb (trestart s) t' in
    {| t := t'; dt := dt';
       tdump := if d then tdump s + DTd else tdump s;
       tlog := if l then tlog s + DTl else tlog s;
       trestart := if p then trestart s + DTr else trestart s;
       nstep := n;
       dump_id := if d then S (dump_id s) else dump_id s;
       dumped := d;
       events := events s
         ++ (if d then [Dump (dump_id s) t'] else [])
         ++ (if l then [Log t'] else [])
         ++ (if n mod DNr =? 0 then [RestartTemp n t'] else [])%nat
         ++ (if p then [RestartPerm t'] else []) |}
  else
    {| t := t'; dt := dt'; tdump := tdump s; tlog := tlog s; trestart := trestart s;
       nstep := n; dump_id := dump_id s; dumped := false; events := events s |}.
(** while (t < tf): at most [fuel] passes; [lims n] are the limits met in pass n *)
Fixpoint iter (fuel : nat) (lims : nat -> R * list R) (s : state) : state :=
  match fuel with
  | O => s
  | S k => if Rltb (t s) tf then iter k lims (body (lims (nstep s)) s) else s
  end.
(** core/main.c:297-340: state when the loop is entered on a fresh start; dump 0 is
    written at line 144; [dt0] is the parameter dt, or cour*dt_light_min *)
Definition start (dt0 : R) : state :=
  {| t := 0; dt := dt0; tdump := DTd; tlog := DTl; trestart := DTr; nstep := 0; dump_id := 1; dumped := false; events := [Dump 0 0] |}.
(** core/main.c:269-270 after the loop; [None]: still running *)
Definition finish (s : state) : option (list event) :=
  if Rltb (t s) tf then None
  else Some (events s ++ (if dumped s then [] else [Final (dump_id s) (t s)])).
Definition main (fuel : nat) (lims : nat -> R * list R) (dt0 : R) : option (list event) := finish (iter fuel lims (start dt0)).
End Run.
