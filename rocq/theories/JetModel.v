(** Electromagnetic flux of the jet: core/diag.c:162-176, 193 with core/phys.c:12-29, 54,
    66-92 for dir = 1, magnetic = 1.  Reals are exact; the metric of a zone is an argument. *)
From Coq Require Import Reals Bool ZArith.
From Verif Require Import RLib GeomModel FloorModel BinModel DiagModel.
Open Scope R_scope.

Section Zone.
Variables (G gcon : mat) (alpha gdet : R).
(** phys.c:66-92 with magnetic = 1: no pressure, and r = fabs(Pr[RHO]) + SMALL *)
Definition mhd_magnetic (p : prims) (q : state) (dir mu : nat) : R :=
  let r := Rabs (rho p) + FluxModel.SMALL in
  let u := uu p in
  let pres := 0 in
  let w := pres + r + u in
  let bsq := dot (b_con q) (b_cov q) in
  let eta := w + bsq in
  let ptot := pres + 5 / 10 * bsq in
  eta * ucon q dir * ucov q mu + ptot * (if Nat.eqb dir mu then 1 else 0) - b_con q dir * b_cov q mu.
(** flux[UU + mu], mu = 0..3, of primtoflux with magnetic = 1, phys.c:22-29, 54 *)
Definition flux_magnetic (p : prims) (q : state) (dir mu : nat) : R :=
  (if Nat.eqb mu 0 then mhd_magnetic p q dir 0 + rho p * ucon q dir else mhd_magnetic p q dir mu) * gdet.
(** P_EM, diag.c:166-169 *)
Definition P_EM (p : prims) : prims := mkp 0 0 (vel p) (mag p).
(** diag.c:170-175 without the factor dx[2] dx[3]; U[U1] is component 1.  None: fail() is
    called by get_state.  The density is taken to be other than zero. *)
Definition jet_zone (p : prims) : option R :=
  match get_state G gcon alpha (P_EM p) with
  | None => None
  | Some q =>
      let sig := dot (b_con q) (b_cov q) / rho p in
      Some (if Rltb 1 sig then - flux_magnetic (P_EM p) q 1 1 else 0)
  end.
End Zone.

(** diag.c:162, 174, 193 for the contributions [jz] of the zones (global zone, from 0) *)
Definition jet_proc (g : grid3) (jz : field) (p1 p2 p3 : nat) : R :=
  loop (n1 g) (fun i => if (gs1 g p1 =? 0)%Z && (Z.of_nat i + NG =? 5 + NG)%Z
    then shell g p1 p2 p3 (fun i j k => jz i j k * dx2 g * dx3 g) (Z.of_nat i + NG) else 0).
Definition jet_EM_flux (g : grid3) (jz : field) : R := mpi_sum g (jet_proc g jz).
