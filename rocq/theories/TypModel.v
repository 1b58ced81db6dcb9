(** Shares of the species in the radiation, core/diag.c:622-660 (print_rad_types), and the files
    of tracked packets, core/io.c:305-385 (track_ph).  Weights are exact reals.  The atomic
    additions of the threads are made in the order of the list given; timers, messages and the
    HDF5 calls other than creating and writing are not modelled. *)
From Coq Require Import Reals ZArith List Bool.
From Verif Require Import RLib XLib.
Import ListNotations.
Open Scope R_scope.

(** decs.h:166 *)
Definition TYPE_TRACER : Z := (-1)%Z.
(** the fields used, decs.h:575-600 *)
Record packet := mkpk { ptype : Z; pw : R }.

Section Types.
(** RAD_NUM_TYPES *)
Variable N : nat.
Definition bump (c : nat -> R) (t : nat) (x : R) : nat -> R := fun d => if Nat.eqb d t then c d + x else c d.
(** 630-633; None: index outside rad_type_counts[RAD_NUM_TYPES] *)
Definition count1 (c : option (nat -> R)) (p : packet) : option (nat -> R) :=
  match c with
  | None => None
  | Some c =>
    if Z.eqb (ptype p) TYPE_TRACER then Some c
    else if Z.leb 0 (ptype p) && Z.ltb (ptype p) (Z.of_nat N)
    then Some (bump c (Z.to_nat (ptype p)) (pw p)) else None
  end.
(** 625-636, on one rank *)
Definition rank_counts (l : list packet) : option (nat -> R) := fold_left count1 l (Some (fun _ => 0)).
(** 637, mpi.c:606-610: every rank gets the sum over the ranks *)
Fixpoint reduced (ranks : list (list packet)) : option (nat -> R) :=
  match ranks with
  | nil => Some (fun _ => 0)
  | l :: rest => match rank_counts l, reduced rest with Some a, Some b => Some (fun t => a t + b t) | _, _ => None end
  end.
(** 624, 638 *)
Definition total (c : nat -> R) : R := fold_left (fun s t => s + c t) (seq 0 N) 0.
(** 639-640 *)
Definition share (c : nat -> R) (t : nat) : X := (Fin (c t) / Fin (total c) * Fin 100)%X.
(** 647-656: NU_ELECTRON, ANTINU_ELECTRON, NU_HEAVY, and ANTINU_HEAVY if there are four *)
Definition printed (ranks : list (list packet)) : option (list X) :=
  match reduced ranks with
  | None => None
  | Some c => Some (map (share c) (if Nat.leb 4 N then [0; 1; 2; 3]%nat else [0; 1; 2]%nat))
  end.
End Types.

Section Track.
(** packets, the row made from one by get_X_K_interp (333-339), and the test of is_tracked *)
Variables (P Row : Type) (row : P -> Row) (is_tracked : P -> bool).
(** 309-321 *)
Definition num_tracked (lists : list (list P)) : nat :=
  fold_left (fun n l => fold_left (fun n p => if is_tracked p then S n else n) l n) lists 0%nat.
(** 323-341: a buffer of [size] rows, filled so far with [b]; None: written past its end *)
Definition put (size : nat) (b : option (list Row)) (p : P) : option (list Row) :=
  match b with
  | None => None
  | Some b => if is_tracked p then if Nat.ltb (length b) size then Some (b ++ [row p]) else None else Some b
  end.
Definition io_track (lists : list (list P)) : option (list Row) :=
  fold_left (fun b l => fold_left (put (num_tracked lists)) l b) lists (Some []).
(** the dump directory (file of a number: one dataset per rank) and the static track_id, 307 *)
Record out := mkout { track_id : nat; dir : nat -> option (list (list Row)) }.
Fixpoint datasets (ranks : list (list (list P))) : option (list (list Row)) :=
  match ranks with
  | nil => Some nil
  | l :: rest => match io_track l, datasets rest with Some b, Some bs => Some (b :: bs) | _, _ => None end
  end.
(** 305-385 by all ranks; H5F_ACC_TRUNC: a file of that name is lost *)
Definition track_ph (Nph_to_track : R) (o : option out) (ranks : list (list (list P))) : option out :=
  match o, datasets ranks with
  | Some o, Some ds =>
    if Rltb 0 Nph_to_track
    then Some (mkout (S (track_id o)) (fun i => if Nat.eqb i (track_id o) then Some ds else dir o i))
    else Some o
  | _, _ => None
  end.
(** a run: the program starts (track_id is 0) in a directory and logs several times *)
Definition run (Nph : R) (d : nat -> option (list (list Row))) (logs : list (list (list (list P)))) : option out :=
  fold_left (track_ph Nph) logs (Some (mkout 0 d)).
End Track.
