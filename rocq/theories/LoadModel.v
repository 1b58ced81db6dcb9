(** Load imbalance of a step.  core/main.c:180-184, core/mpi.c:588-592, 600-604; printed by
    core/diag.c:476-486 and in each line of the log (283). *)
From Coq Require Import Reals ZArith List.
From Verif Require Import RLib XLib.
Import ListNotations.
Open Scope R_scope.

Section Load.
(** rounding to float and to double; ints are exact in double *)
Variable fl rd : R -> R.
(** mpi_max and mpi_min over the processes, the first of which has [c] *)
Definition step_tot_max (c : Z) (cs : list Z) : Z := fold_right Z.max c cs.
Definition step_tot_min (c : Z) (cs : list Z) : Z := fold_right Z.min c cs.
(** a finite result is rounded *)
Definition round (f : R -> R) (x : X) : X := match x with Fin r => Fin (f r) | _ => x end.
(** 184: the quotient is one of floats, the difference one of doubles *)
Definition load_imbalance (c : Z) (cs : list Z) : X :=
  let q := round fl (xdiv (Fin (fl (IZR (step_tot_min c cs)))) (Fin (fl (IZR (step_tot_max c cs))))) in
  round rd (xsub (Fin 1) q).
End Load.
