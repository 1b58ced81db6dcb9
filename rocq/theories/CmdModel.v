(** Start of a run: the command line, core/main.c:91-100, and the fluid taken from a file,
    core/main.c:122-129 with core/io.c:1794-1856 (init_fluid_restart). *)
From Coq Require Import List Ascii String NArith Bool.
From Verif Require Import SlabModel.
Import ListNotations.
Open Scope string_scope.
Open Scope list_scope.

(** decs.h:119 *)
Definition STRLEN : N := 2048%N.
(** pfname after the loop: never written, a string, or written past its end by strcpy *)
Inductive pfname := Unset | Path (s : string) | Overflow.
(** strcpy(pfname, s) *)
Definition strcpy (s : string) : pfname := if (N.of_nat (String.length s) <? STRLEN)%N then Path s else Overflow.
(** 94: *argv[n] == '-' && *(argv[n] + 1) != 0 && *(argv[n] + 2) == 0; the letter *)
Definition letter (s : string) : option ascii :=
  match s with
  | String d (String c EmptyString) => if Ascii.eqb d "-"%char then Some c else None
  | _ => None
  end.
(** The loop 92-100 on argv[n], argv[n + 1], ...; an overflow is not undone *)
Fixpoint scan (args : list string) (pf : pfname) : pfname :=
  match args with
  | [] => pf
  | a :: rest =>
      match rest with
      | [] => pf   (* n < argc - 1 fails *)
      | b :: rest' =>
          match letter a with
          | Some c => if Ascii.eqb c "p"%char
                      then match pf, strcpy b with
                           | Overflow, _ => Overflow
                           | _, q => scan rest' q
                           end
                      else scan rest pf
          | None => scan rest pf
          end
      end
  end.
Definition command_line (argv : list string) : pfname := scan argv Unset.

Section Fluid.
Variable V : Type.
(** a file: its datasets by name (HDF5 names are distinguished by case) *)
Definition h5file := list (string * (list nat -> option V)).
Fixpoint H5Dopen (f : h5file) (name : string) : option (list nat -> option V) :=
  match f with
  | [] => None
  | (n, d) :: r => if String.eqb n name then Some d else H5Dopen r name
  end.
(** init_fluid_restart for the process at [c], whose P holds [mem] before: the dataset "p"
    (1815), its block into the active zones (1816-1838).  The dataset is taken to have the
    extents of the run.  If it does not exist, H5Dopen and H5Dread return errors which are
    not looked at, and P is as it was. *)
Definition init_fluid_restart (ds : list dim) (c : list nat) (mem : list nat -> option V) (f : h5file) : list nat -> option V :=
  match H5Dopen f "p" with
  | None => mem
  | Some d => read_array V ds c mem d
  end.
(** WRITE_PRIM(P, ...), io.c:44-46, 908, 1403: the macro makes the dataset's name from the
    name of the array *)
Definition write_prim (ds : list dim) (procs : list (list nat * array V)) : string * (list nat -> option V) :=
  ("P", write_all V ds procs (fun _ => None)).
End Fluid.
