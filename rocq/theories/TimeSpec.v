(** Specification vocabulary for the output schedule. *)
From Coq Require Import Reals List Sorted.
From Verif Require Import TimeModel.
Import ListNotations.
Open Scope R_scope.
(** numbers and times of the dump files, in the order written *)
Fixpoint dumps (l : list event) : list (nat * R) :=
  match l with
  | [] => []
  | Dump i x :: r => (i, x) :: dumps r
  | Final i x :: r => (i, x) :: dumps r
  | _ :: r => dumps r
  end.
Definition is_final (e : event) : Prop := match e with Final _ _ => True | _ => False end.
(** every process reports a limit of at least [d] *)
Definition limits_above (d : R) (lims : nat -> R * list R) : Prop :=
  forall n, Forall (fun x => d <= x) (fst (lims n) :: snd (lims n)).
(** times of the log entries and of the permanent restart files, step numbers and times of
    the temporary restart files, in the order written *)
Fixpoint logs (l : list event) : list R :=
  match l with [] => [] | Log x :: r => x :: logs r | _ :: r => logs r end.
Fixpoint perms (l : list event) : list R :=
  match l with [] => [] | RestartPerm x :: r => x :: perms r | _ :: r => perms r end.
Fixpoint temps (l : list event) : list (nat * R) :=
  match l with [] => [] | RestartTemp n x :: r => (n, x) :: temps r | _ :: r => temps r end.
(** entry k of the list (counted from 0) is not early: its due time is (k + 1) times the
    interval *)
Definition not_early (D tf : R) (l : list R) : Prop := forall k x, nth_error l k = Some x -> INR (S k) * D <= x < tf.
(** all entries due by time [now] are there, each less than one interval late *)
Definition punctual (D now : R) (l : list R) : Prop :=
  forall k, INR (S k) * D <= now -> exists x, nth_error l k = Some x /\ INR (S k) * D <= x < INR (S k) * D + D.
