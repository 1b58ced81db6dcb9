(** Output of tracers.  core/io.c:1990-2210 (dump_tracers), core/tracers.c:183-225,
    core/mpi.c:612-616, 640-652. *)
From Coq Require Import Reals ZArith List Arith Bool.
Import ListNotations.

(** The arrays 1996-2025, in the order they are allocated.  The arrays of the tabulated
    equation of state (Ye, Ye_em) are filled and written as rho is and are left out. *)
Inductive col :=
  | Cid | Cit | Cactive | Ctime | Cmass | CXharm | CXcart | Cx | Cy | Cz
  | Crho | Cuu | Cs | CPress | CT | Cem | Cabs | Cucon | Cucov | Cbcon | Cbcov.
(** Elements of the arrays: int or double. *)
Inductive val := I (z : Z) | D (r : R).

Definition col_eqb (a b : col) : bool :=
  match a, b with
  | Cid, Cid | Cit, Cit | Cactive, Cactive | Ctime, Ctime | Cmass, Cmass | CXharm, CXharm
  | CXcart, CXcart | Cx, Cx | Cy, Cy | Cz, Cz | Crho, Crho | Cuu, Cuu | Cs, Cs | CPress, CPress
  | CT, CT | Cem, Cem | Cabs, Cabs | Cucon, Cucon | Cucov, Cucov | Cbcon, Cbcon | Cbcov, Cbcov => true
  | _, _ => false
  end.

(** The arrays in memory.  An element that has not been written is None. *)
Definition mem := col -> list (option val).

Fixpoint update {A} (l : list A) (i : nat) (v : A) : option (list A) :=
  match l, i with
  | [], _ => None
  | _ :: l, O => Some (v :: l)
  | x :: l, S i => match update l i v with Some l => Some (x :: l) | None => None end
  end.
(** Writing outside an array is undefined: None. *)
Definition store (m : mem) (c : col) (i : nat) (v : option val) : option mem :=
  match update (m c) i v with
  | Some l => Some (fun c' => if col_eqb c c' then l else m c')
  | None => None
  end.
Fixpoint stores (m : mem) (c : col) (i : nat) (vs : list (option val)) : option mem :=
  match vs with
  | [] => Some m
  | v :: vs => match store m c i v with Some m => stores m c (S i) vs | None => None end
  end.
(** Reading outside an array is undefined: None.  Reading an element never written gives
    some value that C does not specify: Some None. *)
Definition load (m : mem) (c : col) (i : nat) : option (option val) := nth_error (m c) i.

(** The members of struct of_photon that are used: whether type is TYPE_TRACER, nscatt, w
    and X[2] (tracers.c:198-225). *)
Record particle := mkpart { tracer : bool; nscatt : Z; w : R; X2 : nat -> R }.

Section Dump.
(** nstep and t; the number of radiation types *)
Variable nstep : Z.
Variable t : R.
Variable ntypes : nat.
(** Functions of position, used as given: Cartesian coordinates (coord.c:129-146), the
    density, internal energy, entropy, pressure and temperature (numbered 0 to 4) from the
    primitives interpolated there, the interpolated rates, and the four-vectors of get_state
    with the interpolated primitives and the metric there. *)
Variable cart : (nat -> R) -> nat -> R.
Variable fluid : (nat -> R) -> nat -> R.
Variable em ab : (nat -> R) -> nat -> R.
Variable ucon ucov bcon bcov : (nat -> R) -> nat -> R.

(** number of elements per tracer, 1996-2025 *)
Definition width (c : col) : nat :=
  match c with
  | CXharm | CXcart => 3
  | Cem | Cabs => ntypes
  | Cucon | Cucov | Cbcon | Cbcov => 4
  | _ => 1
  end.

(** tracers.c:183-196, over all threads *)
Definition count_tracers_local (lists : list (list particle)) : nat :=
  fold_right (fun l n => length (filter tracer l) + n) 0 lists.

Definition bind {A B} (a : option A) (f : A -> option B) : option B :=
  match a with Some x => f x | None => None end.
Local Notation "m <- a ; b" := (bind a (fun m => b)) (at level 61, a at next level, right associativity).

Definition num (r : R) : option val := Some (D r).
Definition vec (f : nat -> R) (from n : nat) : list (option val) := map (fun k => num (f k)) (seq from n).

(** the body 2040-2106 for tracer number [n] *)
Definition record (m : mem) (n : nat) (p : particle) : option mem :=
  let X := X2 p in
  m <- store m Cid n (Some (I (nscatt p)));
  m <- store m Cactive n (Some (I 1));
  m <- store m Cit n (Some (I nstep));
  m <- store m Ctime n (num t);
  m <- store m Cmass n (num (w p));
  m <- stores m CXharm (n * 3) (vec X 1 3);
  m <- stores m CXcart (n * 3) (vec (cart X) 1 3);
  v <- load m CXcart 1; m <- store m Cx n v;
  v <- load m CXcart 2; m <- store m Cy n v;
  v <- load m CXcart 3; m <- store m Cz n v;
  m <- store m Crho n (num (fluid X 0));
  m <- store m Cuu n (num (fluid X 1));
  m <- store m Cs n (num (fluid X 2));
  m <- store m CPress n (num (fluid X 3));
  m <- store m CT n (num (fluid X 4));
  m <- stores m Cem (n * ntypes) (vec (em X) 0 ntypes);
  m <- stores m Cabs (n * ntypes) (vec (ab X) 0 ntypes);
  m <- stores m Cucon (n * 4) (vec (ucon X) 0 4);
  m <- stores m Cucov (n * 4) (vec (ucov X) 0 4);
  m <- stores m Cbcon (n * 4) (vec (bcon X) 0 4);
  stores m Cbcov (n * 4) (vec (bcon X) 0 4).

(** 2038-2113: one list, then all of them *)
Fixpoint walk (m : mem) (n : nat) (l : list particle) : option (mem * nat) :=
  match l with
  | [] => Some (m, n)
  | p :: l => if tracer p then m <- record m n p; walk m (S n) l else walk m n l
  end.
Fixpoint walk_all (m : mem) (n : nat) (lists : list (list particle)) : option (mem * nat) :=
  match lists with
  | [] => Some (m, n)
  | l :: lists => r <- walk m n l; walk_all (fst r) (snd r) lists
  end.
Definition malloc (k : nat) : mem := fun c => repeat None (width c * k).
(** 1990-2124 on one process: None if undefined or if exit(1) is reached *)
Definition fill (lists : list (list particle)) : option mem :=
  let k := count_tracers_local lists in
  r <- walk_all (malloc k) 0 lists;
  if snd r =? k then Some (fst r) else None.

(** 2126-2209: the file holds ntracers * width elements per column; a process writes its
    array from element ntracers_before_me * width on.  Conversion to float (TYPE_FLOAT) is
    not represented. *)
Definition before (procs : list (list (list particle))) (rank : nat) : nat :=
  fold_right Nat.add 0 (map count_tracers_local (firstn rank procs)).
Definition write_slab (c : col) (start : nat) (a : list (option val)) (file : nat -> option (option val)) :
    nat -> option (option val) :=
  fun i => if (start <=? i) && (i <? start + length a) then nth_error a (i - start) else file i.
Fixpoint write_procs (c : col) (procs : list (list (list particle))) (rest : list (list (list particle))) (rank : nat)
    (file : nat -> option (option val)) : option (nat -> option (option val)) :=
  match rest with
  | [] => Some file
  | lists :: rest =>
      m <- fill lists;
      write_procs c procs rest (S rank) (write_slab c (before procs rank * width c) (m c) file)
  end.
(** column [c] of the file, element by element; nothing is written outside the arrays *)
Definition dump_tracers (c : col) (procs : list (list (list particle))) : option (nat -> option (option val)) :=
  write_procs c procs procs 0 (fun _ => None).
End Dump.
