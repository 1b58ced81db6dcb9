(** What set_Rmunu gathers from the superphotons: core/rad_utils.c:572-611. *)
From Coq Require Import Reals ZArith List.
From Verif Require Import GeomModel.
Import ListNotations.
Open Scope R_scope.

Definition zone := (Z * Z * Z)%type.
Definition zone_eqb (a b : zone) : bool :=
  let '(i, j, k) := a in let '(i', j', k') := b in (Z.eqb i i' && Z.eqb j j' && Z.eqb k k')%bool.
(** A superphoton as the loop sees it after get_X_K_interp and Xtoijk (592-593): its zone, wave vector, weight and type.
    The interpolation is C80, the zone C09. *)
Record packet := mkp { pz : zone; pKcon : vec; pKcov : vec; pw : R; ptype : Z }.
(** decs.h:165 *)
Definition TYPE_TRACER : Z := -1.
(** The three arrays *)
Record arrays := mka { Nsph : zone -> Z; nph : zone -> R; Rmunu : zone -> nat -> nat -> R }.
(** 573-579 *)
Definition cleared : arrays := mka (fun _ => 0%Z) (fun _ => 0) (fun _ _ _ => 0).
Definition upd {A} (z : zone) (v : A) (f : zone -> A) : zone -> A := fun y => if zone_eqb y z then v else f y.
Section Run.
(** kphys_to_num, L_unit, dx and ggeom[i][j][CENT].g (which does not depend on k) *)
Variables (kphys_to_num L_unit : R) (dx : nat -> R) (gdet : Z -> Z -> R).
(** 595 *)
Definition volume (z : zone) : R := let '(i, j, _) := z in gdet i j * dx 1%nat * dx 2%nat * dx 3%nat.
(** 586-608, one superphoton; the additions are atomic *)
Definition gather1 (a : arrays) (p : packet) : arrays :=
  if Z.eqb (ptype p) TYPE_TRACER then a
  else let z := pz p in
    mka (upd z (Nsph a z + 1)%Z (Nsph a))
        (upd z (nph a z + pw p / (volume z * L_unit ^ 3)) (nph a))
        (upd z (fun mu nu => Rmunu a z mu nu + kphys_to_num * pKcon p mu * pKcov p nu * pw p / (pKcon p 0%nat * volume z)) (Rmunu a)).
(** The lists of all threads; here one after the other, the order is the subject of a theorem *)
Definition set_Rmunu (threads : list (list packet)) : arrays := fold_left gather1 (concat threads) cleared.
End Run.
