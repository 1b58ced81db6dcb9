(** Domain decomposition, output regions, ghost-zone filling and ghost-zone
    reduction: core/mpi.c, core/bounds.c, core/io.c.

    Zone indices are local and relative to the first interior zone: the C index
    i of an array is [i - NG] here, so interior is 0 .. N-1 and ghosts are
    -NG .. -1 and N .. N+NG-1.  A field is a total function of process and zone;
    all reads in the model are shown to be inside the padded block by the range
    conditions in the definitions (each read index is explicit). *)
From Coq Require Import ZArith List Bool.
Import ListNotations.
From Verif Require Import ExchModel.
Open Scope Z_scope.

(** decs.h: NG = 3 *)
Definition NG : Z := 3.

(** ** Decomposition (decs.h:55-57, mpi.c:75-79) *)
Definition local_size (ntot ncpu : Z) : Z := Z.quot ntot ncpu.
Definition global_start (ntot ncpu c : Z) : Z := Z.quot (c * ntot) ncpu.
Definition global_stop (ntot ncpu c : Z) : Z := Z.quot ((c + 1) * ntot) ncpu.

(** io.c:89-136, 196-213: region written by process [c] in one direction of a
    zone-centred array: offset and count. *)
Definition zone_region (ntot ncpu c : Z) : Z * Z :=
  (global_start ntot ncpu c, local_size ntot ncpu).

(** io.c:441-456: region of the corner array of extent NTOT+1; the last process
    writes one more element. *)
Definition face_region (ntot ncpu c : Z) : Z * Z :=
  (global_start ntot ncpu c,
   if global_stop ntot ncpu c =? (ntot + 1) - 1
   then local_size ntot ncpu + 1 else local_size ntot ncpu).

(** mpi.c:640-652, mpi_accumulate_int on process [r], given everybody's value. *)
Definition accumulate (vals : list Z) (r : nat) : Z :=
  fold_left Z.add (firstn r vals) 0.

(** ** Ghost-zone filling *)

(** Boundary types handled by bound_prim (bounds.c:13-247); problem-specific
    ones are not modelled. *)
Inductive bc := Outflow | Polar | Periodic.
Definition bc_eqb (a b : bc) : bool :=
  match a, b with
  | Outflow, Outflow | Polar, Polar | Periodic, Periodic => true | _, _ => false end.

Record hcfg := HCfg {
  nloc : v3;            (* N1, N2, N3: zones per process *)
  nproc : v3;           (* N1CPU, N2CPU, N3CPU *)
  bcL : dir -> bc; bcR : dir -> bc
}.

(** mpi.c:42-44 *)
Definition per (g : hcfg) (d : dir) : bool :=
  bc_eqb (bcL g d) Periodic && bc_eqb (bcR g d) Periodic.

(** mpi.c:54-73, one step along [d]; [None] = MPI_PROC_NULL. *)
Definition nbr (g : hcfg) (d : dir) (s : Z) (c : rank) : option rank :=
  let n := get d c + s in
  if ((n <? 0) || (get d (nproc g) <=? n)) && negb (per g d) then None
  else Some (set d (n mod get d (nproc g)) c).

(** Global number of a local zone (coord.c:40-70 use of global_start). *)
Definition gz (g : hcfg) (c : rank) (z : v3) : v3 :=
  V3 (v1 c * v1 (nloc g) + v1 z) (v2 c * v2 (nloc g) + v2 z) (v3_ c * v3_ (nloc g) + v3_ z).

Section Fill.
Context {V : Type}.
(** What the boundary code does to a copied zone value: X1 outflow rescales B by
    a ratio of metric determinants depending on source and target zone
    (bounds.c:31-36, 66-72); polar negates U2 and B2 (bounds.c:98-99, 135-136);
    everything else is a plain copy.  Arguments: direction, boundary type,
    source and target zone (as global zone numbers, since the process's geometry
    table entry i,j is the one of global zone global_start+i,j), value. *)
Variable tr : dir -> bc -> v3 -> v3 -> V -> V.

Definition field := rank -> v3 -> V.

(** Extent of the other directions covered when direction [d] is processed
    (bounds.c loops; mpi.c:85-119 face subtypes): X1: interior j,k;
    X2: all i, interior k; X3: all i,j. *)
Definition interior (n x : Z) : bool := (0 <=? x) && (x <? n).
Definition padded (n x : Z) : bool := (- NG <=? x) && (x <? n + NG).
Definition other_ok (g : hcfg) (d : dir) (z : v3) : bool :=
  match d with
  | D1 => interior (v2 (nloc g)) (v2 z) && interior (v3_ (nloc g)) (v3_ z)
  | D2 => padded (v1 (nloc g)) (v1 z) && interior (v3_ (nloc g)) (v3_ z)
  | D3 => padded (v1 (nloc g)) (v1 z) && padded (v2 (nloc g)) (v2 z)
  end.
Definition in_left (z : Z) : bool := (- NG <=? z) && (z <? 0).
Definition in_right (n z : Z) : bool := (n <=? z) && (z <? n + NG).

(** Index of the active zone read, C index minus NG.
    Left: bounds.c:22, 27 (NG), 96 (-j+2*NG-1).
    Right: bounds.c:58, 63, 131 (N2-1+NG), 135 (-j+2*(N2+NG)-1), 200 (N3 < NG);
    for X3 outflow with N3 >= NG the code has NG (bounds.c:205). *)
Definition actL (b : bc) (z : Z) : Z :=
  match b with Polar => (- (z + NG) + 2 * NG - 1) - NG | _ => 0 end.
Definition actR (n : Z) (d : dir) (b : bc) (z : Z) : Z :=
  match b with
  | Polar => (- (z + NG) + 2 * (n + NG) - 1) - NG
  | Periodic => n - 1
  | Outflow => match d with D3 => if n <? NG then n - 1 else NG - NG | _ => n - 1 end
  end.

(** bounds.c:16-54 and the analogous blocks for X2, X3.  For N < NG the copy is
    made for every boundary type (and without transformation); otherwise a
    periodic side is left to the exchange. *)
Definition fill_left (g : hcfg) (d : dir) (st : field) : field := fun c z =>
  if (get d c =? 0) && in_left (get d z) && other_ok g d z then
    if get d (nloc g) <? NG then st c (set d 0 z)
    else match bcL g d with
         | Periodic => st c z
         | b => let z0 := set d (actL b (get d z)) z in tr d b (gz g c z0) (gz g c z) (st c z0)
         end
  else st c z.
Definition fill_right (g : hcfg) (d : dir) (st : field) : field := fun c z =>
  let n := get d (nloc g) in
  if (get d c =? get d (nproc g) - 1) && in_right n (get d z) && other_ok g d z then
    if n <? NG then st c (set d (n - 1) z)
    else match bcR g d with
         | Periodic => st c z
         | b => let z0 := set d (actR n d b (get d z)) z in tr d b (gz g c z0) (gz g c z) (st c z0)
         end
  else st c z.

(** mpi.c:216-274.  Left ghosts [-NG,-1] receive from the left neighbour its
    zones [N-NG, N-1] (C indices N .. N+NG-1); right ghosts [N, N+NG-1] receive
    from the right neighbour its zones [0, NG-1]. *)
Definition sync_left (g : hcfg) (d : dir) (st : field) : field := fun c z =>
  if in_left (get d z) && other_ok g d z then
    match nbr g d (-1) c with
    | Some b => st b (set d (get d z + get d (nloc g)) z)
    | None => st c z end
  else st c z.
Definition sync_right (g : hcfg) (d : dir) (st : field) : field := fun c z =>
  if in_right (get d (nloc g)) (get d z) && other_ok g d z then
    match nbr g d 1 c with
    | Some b => st b (set d (get d z - get d (nloc g)) z)
    | None => st c z end
  else st c z.

(** bounds.c:13-220: order of the twelve stages. *)
Definition bound_dir (g : hcfg) (d : dir) (st : field) : field :=
  sync_right g d (fill_right g d (sync_left g d (fill_left g d st))).
Definition bound_prim (g : hcfg) (st : field) : field :=
  bound_dir g D3 (bound_dir g D2 (bound_dir g D1 st)).
End Fill.

(** ** Reduction of ghost-zone deposits (mpi.c:277-314) *)
Section Reduce.
Context {M : Type} (zero : M) (plus : M -> M -> M).

(** NGR = 1 (mpi.c:17-21) *)
Definition NGR : Z := 1.
Definition boxd (n x : Z) : bool := (- NGR <=? x) && (x <? n + NGR).
Definition in_box (g : hcfg) (z : v3) : bool :=
  boxd (v1 (nloc g)) (v1 z) && boxd (v2 (nloc g)) (v2 z) && boxd (v3_ (nloc g)) (v3_ z).

(** radG_buf after the two receives of direction [d], starting from zero: the
    layer N-NGR is received second and overwrites. *)
Definition radG_buf (g : hcfg) (d : dir) (st : @field M) : @field M := fun c z =>
  let n := get d (nloc g) in
  if in_box g z then
    let second := if get d z =? n - NGR then
        match nbr g d 1 c with Some b => Some (st b (set d (- NGR) z)) | None => None end
      else None in
    match second with
    | Some v => v
    | None =>
        if get d z =? 0 then
          match nbr g d (-1) c with Some b => st b (set d n z) | None => zero end
        else zero
    end
  else zero.

(** reduce_radG_buf, mpi.c:277-284 *)
Definition reduce_dir (g : hcfg) (d : dir) (st : @field M) : @field M := fun c z =>
  if in_box g z then plus (st c z) (radG_buf g d st c z) else st c z.
Definition sync_radG (g : hcfg) (st : @field M) : @field M :=
  reduce_dir g D3 (reduce_dir g D2 (reduce_dir g D1 st)).
End Reduce.

(** The concrete transformation on a zone's primitive vector (component index
    as in decs.h:249-256: U2 = 3, B1..B3 = 5..7): polar negates U2 and B2
    (bounds.c:98-99, 136-137), X1 outflow rescales B1..B3 (bounds.c:31-36,
    67-72).  [neg] and [resc] stand for the two arithmetic operations. *)
Section Prim.
Context {T : Type} (neg : T -> T) (resc : v3 -> v3 -> T -> T).
Definition tr_prim (d : dir) (b : bc) (z0 z : v3) (v : nat -> T) : nat -> T :=
  match b with
  | Polar => fun ip => match ip with 3%nat | 6%nat => neg (v ip) | _ => v ip end
  | Outflow =>
      match d with
      | D1 => fun ip => match ip with 5%nat | 6%nat | 7%nat => resc z0 z (v ip) | _ => v ip end
      | _ => v end
  | Periodic => v
  end.
End Prim.
