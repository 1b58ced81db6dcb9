(** Flux diagnostics and the totals of the log: core/diag.c:99-124, 126-222, 362-384,
    core/mpi.c:606-610, 654-666, core/coord.c:43-49.  A field is a function of the global
    zone (from 0, ghost zones outside); a process sees it through its offset.  Sums are
    exact, in the order of the loops. *)
From Coq Require Import Reals Bool ZArith List.
From Verif Require Import RLib XLib BinModel.
Open Scope R_scope.

Definition field := Z -> Z -> Z -> R.
(** zones of a process N1..N3, processes N1CPU..N3CPU, startx[1], dx[1..3] *)
Record grid3 := Grid { n1 : nat; n2 : nat; n3 : nat; c1 : nat; c2 : nat; c3 : nat; startx1 : R; dx1 : R; dx2 : R; dx3 : R }.
(** global_start of the process with coordinates (p1, p2, p3), mpi.c *)
Definition gs1 (g : grid3) (p1 : nat) : Z := (Z.of_nat p1 * Z.of_nat (n1 g))%Z.
Definition gs2 (g : grid3) (p2 : nat) : Z := (Z.of_nat p2 * Z.of_nat (n2 g))%Z.
Definition gs3 (g : grid3) (p3 : nat) : Z := (Z.of_nat p3 * Z.of_nat (n3 g))%Z.
(** a += loop over 0 .. n - 1 *)
Fixpoint loop (n : nat) (f : nat -> R) : R := match n with O => 0 | S m => loop m f + f m end.
(** MPI_SUM over all processes *)
Definition mpi_sum (g : grid3) (f : nat -> nat -> nat -> R) : R := loop (c1 g) (fun p1 => loop (c2 g) (fun p2 => loop (c3 g) (fun p3 => f p1 p2 p3))).
(** element [i][j][k] of the array a process has for a field *)
Definition elem (g : grid3) (p1 p2 p3 : nat) (f : field) (i j k : Z) : R := f (i - NG + gs1 g p1)%Z (j - NG + gs2 g p2)%Z (k - NG + gs3 g p3)%Z.
(** JSLOOP(0, N2 - 1) KSLOOP(0, N3 - 1) at i *)
Definition shell (g : grid3) (p1 p2 p3 : nat) (f : field) (i : Z) : R :=
  loop (n2 g) (fun j => loop (n3 g) (fun k => elem g p1 p2 p3 f i (Z.of_nat j + NG) (Z.of_nat k + NG))).
(** ZLOOP *)
Definition zones (g : grid3) (p1 p2 p3 : nat) (f : field) : R :=
  loop (n1 g) (fun i => shell g p1 p2 p3 f (Z.of_nat i + NG)).

(** diag_flux, 362-384, for the fluxes of RHO, UU and U3 through the faces of direction 1;
    at is NG for mdot and NG + 5 for mdot_eh *)
Definition mdot (g : grid3) (frho : field) (at_ : Z) (p1 p2 p3 : nat) : R :=
  if (gs1 g p1 =? 0)%Z then shell g p1 p2 p3 (fun i j k => frho i j k * dx2 g * dx3 g) at_ else 0.
Definition edot (g : grid3) (frho fuu : field) (at_ : Z) (p1 p2 p3 : nat) : R :=
  if (gs1 g p1 =? 0)%Z then shell g p1 p2 p3 (fun i j k => (fuu i j k - frho i j k) * dx2 g * dx3 g) at_ else 0.
Definition mdot_all (g : grid3) (frho : field) (at_ : Z) : R := mpi_sum g (mdot g frho at_).
Definition edot_all (g : grid3) (frho fuu : field) (at_ : Z) : R := mpi_sum g (edot g frho fuu at_).
(** mass and egas, 126-148, 172-173, for U[0] or U[1] *)
Definition total_of (g : grid3) (u : field) : R := mpi_sum g (fun p1 p2 p3 => zones g p1 p2 p3 (fun i j k => u i j k * dx1 g * dx2 g * dx3 g)).
(** Phi, 156-158, 174: within ZLOOP, only where i == 5 + NG; gdet is ggeom[i][j][CENT].g,
    which does not depend on k *)
Definition Phi_proc (g : grid3) (b1 gdet : field) (p1 p2 p3 : nat) : R :=
  loop (n1 g) (fun i => if (gs1 g p1 =? 0)%Z && (Z.of_nat i + NG =? 5 + NG)%Z
    then shell g p1 p2 p3 (fun i j k => 1 / 2 * Rabs (b1 i j k) * dx2 g * dx3 g * gdet i j k) (Z.of_nat i + NG) else 0).
Definition Phi (g : grid3) (b1 gdet : field) : R := mpi_sum g (Phi_proc g b1 gdet).
(** sqrt: not a number below zero *)
Definition xsqrt (x : R) : X := if Rltb x 0 then NaN else Fin (sqrt x).
(** phi, 175 *)
Definition phi (g : grid3) (b1 gdet frho : field) : X := (Fin (Phi g b1 gdet) / xsqrt (mdot_all g frho NG + SMALL))%X.

(** 183-196: the shell at which the luminosity is taken; the last i of the loop from NG + 1
    to N1 + NG that meets the condition counts *)
Definition face1 (g : grid3) (p1 : nat) (i : Z) : R := startx1 g + IZR (i + gs1 g p1 - NG) * dx1 g.
Fixpoint find_stop (g : grid3) (p1 : nat) (stop : R) (m : nat) : Z :=
  match m with
  | O => (-1)%Z
  | S m' => let i := (Z.of_nat m + NG)%Z in
            if Rltb stop (face1 g p1 i) && Rltb (face1 g p1 (i - 1)) stop then (i - 2)%Z else find_stop g p1 stop m'
  end.
Definition stopi_rad (g : grid3) (stop : R) (p1 : nat) : Z :=
  let s := find_stop g p1 stop (n1 g) in if (s =? -1)%Z then (Z.of_nat (n1 g) + NG - 1)%Z else s.
(** 198-206; r10 is Rmunu[..][1][0] *)
Definition lum_proc (g : grid3) (stop : R) (r10 gdet : field) (p1 p2 p3 : nat) : R :=
  let s := stopi_rad g stop p1 in
  if (0 <=? s)%Z then - shell g p1 p2 p3 (fun i j k => r10 i j k * dx2 g * dx3 g * gdet i j k) s else 0.
Definition lum (g : grid3) (stop : R) (r10 gdet : field) : R := mpi_sum g (lum_proc g stop r10 gdet).
(** 208, on process 0, whose value is written *)
Definition eff (g : grid3) (stop : R) (r10 gdet frho : field) : X := (Fin (lum g stop r10 gdet) / Fin (mdot g frho NG 0 0 0 + SMALL))%X.

(** divbmax, 103-119, 124: the greatest over the zones, from 0, and over the processes *)
Fixpoint loop_max (n : nat) (f : nat -> R -> R) (m : R) : R := match n with O => m | S n' => f n' (loop_max n' f m) end.
Definition divb_proc (g : grid3) (divb : field) (p1 p2 p3 : nat) : R :=
  loop_max (n1 g) (fun i => loop_max (n2 g) (fun j => loop_max (n3 g) (fun k m =>
    let d := elem g p1 p2 p3 divb (Z.of_nat i + NG) (Z.of_nat j + NG) (Z.of_nat k + NG) in if Rltb m d then d else m))) 0.
Definition divbmax (g : grid3) (divb : field) : R :=
  loop_max (c1 g) (fun p1 => loop_max (c2 g) (fun p2 => loop_max (c3 g) (fun p3 m => Rmax m (divb_proc g divb p1 p2 p3)))) 0.
