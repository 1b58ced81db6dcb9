(** Building the table of hot cross-sections: core/scattering.c:695-763.  Threads are
    sequentially consistent: each takes the next statement of its own iterations. *)
From Coq Require Import Reals Bool List Arith.
Import ListNotations.
Open Scope R_scope.

(** the statements of one iteration, 715-717; lw and lT are declared outside the parallel
    region (698) and so are shared by the threads *)
Inductive op := SetW (i : nat) | SetT (j : nat) | Store (i j : nat).
Definition iteration (c : nat * nat) : list op := [SetW (fst c); SetT (snd c); Store (fst c) (snd c)].
Definition program (cells : list (nat * nat)) : list op := flat_map iteration cells.
(** shared memory *)
Record mem := { lw : R; lT : R; table : nat -> nat -> option R }.
Section Build.
(** lminw + i * dlw, lmint + j * dlT, and log10(total_cross_num(f, pow(10, lw), pow(10, lT))) *)
Variables axisw axisT : nat -> R.
Variable total : R -> R -> R.
Definition exec (m : mem) (o : op) : mem :=
  match o with
  | SetW i => {| lw := axisw i; lT := lT m; table := table m |}
  | SetT j => {| lw := lw m; lT := axisT j; table := table m |}
  | Store i j => {| lw := lw m; lT := lT m;
                    table := fun a b => if Nat.eqb a i && Nat.eqb b j then Some (total (lw m) (lT m)) else table m a b |}
  end.
(** one thread takes a step *)
Inductive step : list (list op) * mem -> list (list op) * mem -> Prop :=
| Step pre o rest post m : step (pre ++ (o :: rest) :: post, m) (pre ++ rest :: post, exec m o).
Inductive steps : list (list op) * mem -> list (list op) * mem -> Prop :=
| Done c : steps c c
| More a b c : step a b -> steps b c -> steps a c.
(** all threads have finished *)
Definition finished (ts : list (list op)) : Prop := Forall (fun t => t = []) ts.
(** 707-709, 739-756: the table is built only when no file is there; what is read back is the
    column of values, whatever axes they were made for *)
Definition init_hc_table (file : option (nat -> nat -> option R)) (built : nat -> nat -> option R) : nat -> nat -> option R :=
  match file with Some t => t | None => built end.
End Build.
