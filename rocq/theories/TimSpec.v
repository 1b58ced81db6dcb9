(** What timers should show. *)
From Coq Require Import Reals Bool ZArith List.
From Verif Require Import RLib XLib TimModel.
Import ListNotations.
Open Scope R_scope.

Definition length_of (j : job) : R := snd (snd j) - fst (snd j).
(** time spent in jobs of one kind *)
Definition spent (c : nat) (js : list job) : R := fold_right (fun j acc => (if Nat.eqb (fst j) c then length_of j else 0) + acc) 0 js.
(** everything timed in a pass; [tail]: are the kinds of neutrinos printed after it? *)
Definition all_jobs (tail : bool) (p : pass) : list job := (TIMER_ALL, (p_from p, p_to p)) :: p_jobs p ++ (if tail then [(TIMER_DIAG, p_types p)] else []).
(** jobs one after the other between two readings *)
Fixpoint in_turn (from to : R) (js : list job) : Prop :=
  match js with
  | [] => from <= to
  | j :: r => from <= fst (snd j) <= snd (snd j) /\ in_turn (snd (snd j)) to r
  end.
(** the jobs of a pass do not include the pass *)
Definition no_all (js : list job) : Prop := forall j, In j js -> fst j <> TIMER_ALL.
Definition total (js : list job) : R := fold_right (fun j acc => length_of j + acc) 0 js.
(** the passes of steps n+1, n+2, ... and what is timed in them *)
Fixpoint jobs_of (DTp : Z) (neutrinos : bool) (n : Z) (ps : list pass) : list job :=
  match ps with
  | [] => []
  | p :: r => all_jobs (Z.eqb (Z.rem (n + 1) DTp) 0 && neutrinos) p ++ jobs_of DTp neutrinos (n + 1) r
  end.
