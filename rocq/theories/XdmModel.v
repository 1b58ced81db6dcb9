(** The metadata for visualisation, core/xdmf_output.c, and the files they describe: the datasets of
    grid.h5 (core/io.c:388-640) and of a dump (core/io.c:908-1054), with their sizes (core/io.c:36-131).
    Each <DataItem> is a record; the XML around it, the time and the precision are not modelled.
    core/coord.c:73-77 with 422-426 gives the number of shells, over exact reals.  Datasets of the two
    files whose names the metadata never use are left out, except Xharm, Xcart and XFharm. *)
From Coq Require Import Reals ZArith List String Bool.
From Verif Require Import RLib IntLib.
Import ListNotations.
Open Scope string_scope.
Open Scope list_scope.
Open Scope Z_scope.

Record xcfg := mkx { N1TOT : Z; N2TOT : Z; N3TOT : Z; NVAR : nat; MAXNSCATT : Z;
  full_dump : bool; eosvars : bool; electrons : bool; radiation : bool; iX1_max : Z; vnams : nat -> string }.
Definition NDIM : Z := 4.
Inductive which := GridFile | DumpFile | XmfFile.
(** Attribute name, its indices, file and dataset, size stated for the dataset, start and count of the slab *)
Record item := mkit { attr : string; comp : list Z; file : which; dset : string; dims : list Z; start : list Z; count : list Z }.

Section Xdmf.
Variable c : xcfg.
(** 157-174; gname is the grid file *)
Definition coord_meta (indx : Z) : item :=
  mkit "" [indx] GridFile "XFcart" [N1TOT c + 1; N2TOT c + 1; N3TOT c + 1; NDIM] [0; 0; 0; indx] [iX1_max c + 1; N2TOT c + 1; N3TOT c + 1; 1].
(** 140-146 *)
Definition geom_meta : list item := map coord_meta [1; 2; 3].
(** 176-198 *)
Definition prim_meta (ip : nat) : item :=
  mkit (vnams c ip) [] DumpFile "P" [N1TOT c; N2TOT c; N3TOT c; Z.of_nat (NVAR c)] [0; 0; 0; Z.of_nat ip] [iX1_max c; N2TOT c; N3TOT c; 1].
(** 200-223 *)
Definition scalar_meta (name : string) (source : which) : item :=
  mkit name [] source name [N1TOT c; N2TOT c; N3TOT c] [0; 0; 0] [iX1_max c; N2TOT c; N3TOT c].
(** 225-247; the file is fname, which is the name of the .xmf file (50) *)
Definition vec_component (name : string) (indx : Z) : item :=
  mkit name [indx] XmfFile name [N1TOT c; N2TOT c; N3TOT c; NDIM] [0; 0; 0; indx] [iX1_max c; N2TOT c; N3TOT c; 1].
(** 249-272 *)
Definition tensor_component (name : string) (source : which) (mu nu : Z) : item :=
  mkit name [mu; nu] source name [N1TOT c; N2TOT c; N3TOT c; NDIM; NDIM] [0; 0; 0; mu; nu] [iX1_max c; N2TOT c; N3TOT c; 1; 1].
(** 148-155 *)
Definition vec_meta (name : string) : list item := map (vec_component name) [0; 1; 2; 3].
Definition tensor_meta (name : string) (source : which) : list item :=
  flat_map (fun mu => map (tensor_component name source mu) [0; 1; 2; 3]) [0; 1; 2; 3].
Definition if_ {T} (b : bool) (l : list T) : list T := if b then l else [].
(** 66-126: cells and nodes of the mesh are iX1_max, N2TOT, N3TOT and one more (69-72) *)
Definition mesh : list Z := [iX1_max c + 1; N2TOT c + 1; N3TOT c + 1].
Definition attributes : list item :=
  tensor_meta "Lambda_h2cart_con" GridFile ++ tensor_meta "Lambda_h2cart_cov" GridFile ++
  tensor_meta "gcon" GridFile ++ tensor_meta "gcov" GridFile ++
  [scalar_meta "gdet" GridFile; scalar_meta "alpha" GridFile] ++
  map prim_meta (seq 0 (NVAR c)) ++
  if_ (full_dump c)
   ([scalar_meta "divb" DumpFile] ++ vec_meta "jcon" ++
    if_ (eosvars c) [scalar_meta "PRESS" DumpFile; scalar_meta "ENT" DumpFile; scalar_meta "TEMP" DumpFile; scalar_meta "CS2" DumpFile] ++
    if_ (electrons c) ([scalar_meta "Qvisc" DumpFile] ++ if_ (radiation c) [scalar_meta "Qcoul" DumpFile]) ++
    if_ (radiation c) ([scalar_meta "nph" DumpFile] ++ vec_meta "Jrad" ++ tensor_meta "Rmunu" DumpFile)).

(** What the files hold: names and sizes.  The .xmf file is XML and holds no dataset. *)
Definition grid_dims := [N1TOT c; N2TOT c; N3TOT c].
Definition vec_dims := grid_dims ++ [NDIM].
Definition tens_dims := grid_dims ++ [NDIM; NDIM].
Definition face_dims := [N1TOT c + 1; N2TOT c + 1; N3TOT c + 1; NDIM].
Definition datasets (w : which) : list (string * list Z) :=
  match w with
  | GridFile => [("Xharm", vec_dims); ("Xcart", vec_dims); ("XFharm", face_dims); ("XFcart", face_dims);
     ("gcov", tens_dims); ("gcon", tens_dims); ("gdet", grid_dims); ("alpha", grid_dims);
     ("Lambda_h2cart_con", tens_dims); ("Lambda_h2cart_cov", tens_dims)]
  | DumpFile => [("P", (grid_dims ++ [Z.of_nat (NVAR c)])%list)] ++
     if_ (full_dump c)
      ([("divb", grid_dims)] ++
       if_ (eosvars c) [("PRESS", grid_dims); ("ENT", grid_dims); ("TEMP", grid_dims); ("CS2", grid_dims)] ++
       if_ (electrons c) ([("Qvisc", grid_dims)] ++ if_ (radiation c) [("Qcoul", grid_dims)]) ++
       [("jcon", vec_dims)] ++
       if_ (radiation c) [("nph", grid_dims); ("Jrad", [MAXNSCATT c + 2; N1TOT c; N2TOT c; N3TOT c]); ("Rmunu", tens_dims)])
  | XmfFile => []
  end.
End Xdmf.

(** coord.c:422-426 and 73-77: startx[1] = log(Rin), dx[1] = log(Rout / Rin) / N1TOT *)
Definition bl_i_of_r (Rin Rout : R) (n1 : Z) (r : R) : Z :=
  truncZ ((ln r - ln Rin) / (ln (Rout / Rin) / IZR n1))%R.
