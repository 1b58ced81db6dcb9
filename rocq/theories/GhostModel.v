(** Diagnostics gathered over many steps and shared between processes:
    core/mpi.c:316-379 (sync_Jrad) and 382-435 (sync_radtype_vec), called once
    per step from core/bounds.c:429-432; reset at each dump by core/diag.c:30-32.
    The three exchanges and reductions are those of sync_radG (HaloModel); what
    is new is the clearing of the ghost zones afterwards.  One component of the
    array (index n of Jrad, itp of Nem_phys and Nabs_phys) is modelled; the
    loops treat the components alike. *)
From Coq Require Import ZArith List Bool.
Import ListNotations.
From Verif Require Import ExchModel HaloModel.
Open Scope Z_scope.

Section Ghost.
Context {M : Type} (zero : M) (plus : M -> M -> M).

(** The two other directions run over every index (ILOOPALL, JLOOPALL,
    KLOOPALL, decs.h:662-666). *)
Definition others (g : hcfg) (d : dir) (z : v3) : bool :=
  match d with
  | D1 => padded (v2 (nloc g)) (v2 z) && padded (v3_ (nloc g)) (v3_ z)
  | D2 => padded (v1 (nloc g)) (v1 z) && padded (v3_ (nloc g)) (v3_ z)
  | D3 => padded (v1 (nloc g)) (v1 z) && padded (v2 (nloc g)) (v2 z)
  end.

(** mpi.c:349-351, 355-357, 361-363 (and 417-419, 423-425, 429-431):
    indices 0 .. NG-1 of one direction. *)
Definition clear_low (g : hcfg) (d : dir) (st : @field M) : @field M := fun c z =>
  if in_left (get d z) && others g d z then zero else st c z.
(** mpi.c:352-354, 358-360, 364-366 (and 420-422, 426-428, 432-434):
    indices N+NG .. N+2NG-1. *)
Definition clear_high (g : hcfg) (d : dir) (st : @field M) : @field M := fun c z =>
  if in_right (get d (nloc g)) (get d z) && others g d z then zero else st c z.

(** mpi.c:324-379, 382-435. *)
Definition sync_Jrad (g : hcfg) (st : @field M) : @field M :=
  clear_high g D3 (clear_low g D3 (clear_high g D2 (clear_low g D2
    (clear_high g D1 (clear_low g D1 (sync_radG zero plus g st)))))).

(** One step: every process adds its deposits [dep] (interact.c:506-509,
    647-650, make_superphotons.c:263-265) and the array is synchronised. *)
Definition gather (g : hcfg) (J dep : @field M) : @field M :=
  sync_Jrad g (fun c z => plus (J c z) (dep c z)).
(** All steps since the last dump (diag.c:30-32 sets the array to zero). *)
Definition since_dump (g : hcfg) (deps : list (@field M)) : @field M :=
  fold_left (gather g) deps (fun _ _ => zero).
End Ghost.
