(** The error routine and its recursion.  core/diag.c:327-337 (fail), 54-322 (diag),
    core/phys.c:130-151 (get_state, ucon_calc).  One process; printing, files and the
    map of the surroundings are left out, and so are the other routines diag calls
    (set_Rmunu, dump, dump_tracers, track_ph), taken to return. *)
From Coq Require Import Reals List.
From Verif Require Import RLib GeomModel.
Import ListNotations.
Open Scope R_scope.

(** A zone as ucon_calc sees it: metric at its centre and the velocity primitives. *)
Record zone := mkzone { gcov : mat; gcon : mat; alpha : R; vel : vec }.

(** Ended: exit(0) is reached.  Deeper: [fuel] nested calls of fail() were not enough. *)
Inductive outcome := Ended | Deeper.

(** The loop diag.c:142-181 over the active zones, reached with call_code = DIAG_FINAL
    whether or not [failed] is set; the loop 98-125 is skipped because [failed] is 1.
    Within it get_state (149) calls ucon_calc, which calls fail() if the velocity is
    unphysical.  The second call of get_state in the loop (170) has the same velocity. *)
Fixpoint zloop (fail : outcome) (zones : list zone) : outcome :=
  match zones with
  | [] => Ended
  | z :: zones =>
      match ucon_calc (gcov z) (gcon z) (alpha z) (vel z) with
      | None => fail
      | Some _ => zloop fail zones
      end
  end.
(** fail(): diag(DIAG_FINAL), then exit(0).  It never returns. *)
Fixpoint fail (fuel : nat) (zones : list zone) : outcome :=
  match fuel with
  | O => Deeper
  | S f => zloop (fail f zones) zones
  end.
