(** The diagnostics that accumulate between two dumps, their reset, what a restart file
    keeps of them, and the reduction of the escaped spectrum.
    core/diag.c:24-50, core/io.c:1405-1458, 1681-1732, 1877-1942, core/mpi.c:679-687,
    declarations core/decs.h:307-403. *)
From Coq Require Import List Arith Bool Reals.
Import ListNotations.

(** Compile-time sizes (core/decs.h and the build script). *)
Record sizes := mksizes {
  N123G : nat;                  (* decs.h:66-68, zones with ghosts *)
  RAD_NUM_TYPES : nat;          (* 1 for light, 3 or 4 for neutrinos *)
  NRADCOMP : nat;               (* decs.h:182, 187: 2 for neutrinos, 0 for light *)
  RAD_SCATT_TYPES : nat;        (* decs.h:173-190 *)
  MAXNSCATT : nat;
  NULNU_SIZE : nat;             (* NULNU_IDX0 * NTH * NPHI * NU_BINS_SPEC *)
  RZ_HISTOGRAMS_N : nat;
  LOCAL_ANGLES : nat }.         (* LOCAL_ANGLES_NX1 * LOCAL_ANGLES_NX2 *)
Definition NDIM := 4.

(** decs.h:307-403, the accumulators that reset_dump_variables names. *)
Inductive acc := A_nuLnu | A_Nem | A_Nabs | A_Nsc | A_Nem_phys | A_Nabs_phys | A_Jrad | A_Esuper
  | A_Nsuper | A_radG_int | A_dtau_avg | A_en_int_avg | A_rz_r | A_rz_z | A_osc_rz_r | A_osc_rz_z
  | A_osc_count.

(** Number of elements of each as declared. *)
Definition declared (z : sizes) (a : acc) : nat :=
  match a with
  | A_nuLnu => NULNU_SIZE z                                 (* decs.h:358 *)
  | A_Nem | A_Nabs | A_Nsc | A_Nsuper => N123G z            (* decs.h:377, 380, 315 *)
  | A_Esuper => N123G z                                     (* decs.h:381, 306 *)
  | A_Nem_phys | A_Nabs_phys => N123G z * RAD_NUM_TYPES z   (* decs.h:378, 307 *)
  | A_Jrad => (MAXNSCATT z + 2) * N123G z                   (* decs.h:369 *)
  | A_radG_int => N123G z * (NDIM + NRADCOMP z)             (* decs.h:337, 311 *)
  | A_dtau_avg | A_en_int_avg => (RAD_SCATT_TYPES z + 1) * N123G z (* decs.h:371-374 *)
  | A_rz_r | A_rz_z | A_osc_rz_r | A_osc_rz_z => RZ_HISTOGRAMS_N z (* decs.h:319 *)
  | A_osc_count => LOCAL_ANGLES z                           (* decs.h:400 *)
  end.

(** Number of elements memset clears in each, core/diag.c:26-47. *)
Definition cleared (z : sizes) (a : acc) : nat :=
  match a with
  | A_nuLnu => NULNU_SIZE z
  | A_Nem | A_Nabs | A_Nsc => N123G z
  | A_Nem_phys | A_Nabs_phys => RAD_NUM_TYPES z * N123G z
  | A_Jrad => (MAXNSCATT z + 2) * N123G z
  | A_Esuper => N123G z
  | A_Nsuper => N123G z
  | A_radG_int => RAD_NUM_TYPES z * N123G z
  | A_dtau_avg | A_en_int_avg => (RAD_SCATT_TYPES z + 1) * N123G z
  | A_rz_r | A_rz_z | A_osc_rz_r | A_osc_rz_z => RZ_HISTOGRAMS_N z
  | A_osc_count => LOCAL_ANGLES z
  end.

(** The values, by accumulator and flat index.  Counts and doubles alike are reals;
    an accumulator that a build does not have is carried along unused. *)
Definition vals := acc -> nat -> R.

(** core/diag.c:24-50.  None: memset past the end of an array. *)
Definition all_accs := [A_nuLnu; A_Nem; A_Nabs; A_Nsc; A_Nem_phys; A_Nabs_phys; A_Jrad; A_Esuper;
  A_Nsuper; A_radG_int; A_dtau_avg; A_en_int_avg; A_rz_r; A_rz_z; A_osc_rz_r; A_osc_rz_z; A_osc_count].
Definition reset_dump_variables (z : sizes) (v : vals) : option vals :=
  if forallb (fun a => cleared z a <=? declared z a) all_accs
  then Some (fun a i => if i <? cleared z a then 0%R else v a i)
  else None.

(** core/io.c:1405-1458: the accumulators a restart file holds.  Esuper, Nsuper,
    radG_int and the histograms are not saved. *)
Definition saved (a : acc) : bool :=
  match a with
  | A_nuLnu | A_Nem | A_Nabs | A_Nsc | A_Nem_phys | A_Nabs_phys | A_Jrad | A_dtau_avg | A_en_int_avg => true
  | _ => false
  end.
(** io.c:1681-1732 (restart_read) into a program whose arrays hold [fresh]; the
    rounding of nuLnu to float (1457) is not modelled. *)
Definition restart_read (file fresh : vals) : vals := fun a => if saved a then file a else fresh a.
(** io.c:1877-1942 (restart_init): read, and at the end reset_dump_variables (1940). *)
Definition restart_init (z : sizes) (file fresh : vals) : option vals :=
  reset_dump_variables z (restart_read file fresh).

(** The spectrum, one bin of it: nuLnu on every rank and the static buffer nuLnu_local
    of every rank (core/mpi.c:679). *)
Record spec := mkspec { nuLnu : list R; nuLnu_local : list R }.
Inductive spec_op :=
| Record_ (rank : nat) (x : R) (* diag.c:460-466: an escaping packet adds to the bin *)
| Reduce                       (* mpi.c:680-687 *)
| Reset.                       (* diag.c:26, on every rank *)
Fixpoint add_at (l : list R) (r : nat) (x : R) : list R :=
  match l, r with
  | [], _ => []
  | y :: l, 0 => (y + x)%R :: l
  | y :: l, S r => y :: add_at l r x
  end.
Definition rsum (l : list R) : R := fold_right Rplus 0%R l.
(** MPI_Reduce to rank 0 writes the receive buffer of rank 0 only; memcpy runs
    everywhere. *)
Definition spec_step (s : spec) (o : spec_op) : spec :=
  match o with
  | Record_ r x => mkspec (add_at (nuLnu s) r x) (nuLnu_local s)
  | Reduce =>
      let local := match nuLnu_local s with [] => [] | _ :: l => rsum (nuLnu s) :: l end in
      mkspec local local
  | Reset => mkspec (map (fun _ => 0%R) (nuLnu s)) (nuLnu_local s)
  end.
(** Static storage starts as zero. *)
Definition spec_init (nranks : nat) : spec := mkspec (repeat 0%R nranks) (repeat 0%R nranks).
Definition spec_run (nranks : nat) (ops : list spec_op) : spec := fold_left spec_step ops (spec_init nranks).
