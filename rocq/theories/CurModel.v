(** The four-current: core/current.c:17-101.  The permutation symbol is that of PermModel. *)
From Coq Require Import Reals Bool ZArith.
From Verif Require Import RLib GeomModel FluxModel PermModel.
Open Scope R_scope.

(** the primitives used: prim[U1-1+m] and prim[B1-1+m], m = 1..3 *)
Record prim := { vel : vec; field : vec }.
(** ggeom[i][j][CENT] *)
Record geom := { gcov : mat; gcon : mat; alpha : R; gdet : R }.
(** antisym(mu, nu, kap, lam) as a factor *)
Definition symbol (mu nu kap lam : nat) : option R :=
  option_map IZR (antisym (Z.of_nat mu) (Z.of_nat nu) (Z.of_nat kap) (Z.of_nat lam)).
(** the loops of 91-97: for (n = 0; n < 4; n++) acc = step(n, acc) *)
Definition loop4 (step : nat -> R -> option R) (acc : R) : option R :=
  match step 0%nat acc with None => None | Some acc =>
  match step 1%nat acc with None => None | Some acc =>
  match step 2%nat acc with None => None | Some acc => step 3%nat acc end end end.
(** Fcon_calc, 78-101.  None: ucon_calc failed. *)
Definition Fcon_calc (p : prim) (mu nu : nat) (ge : geom) : option R :=
  if Nat.eqb mu nu then Some 0
  else match ucon_calc (gcov ge) (gcon ge) (alpha ge) (vel p) with
  | None => None
  | Some ucon =>
      let ucov := lower ucon (gcov ge) in
      let bcov := lower (bcon (field p) ucon ucov) (gcov ge) in
      match loop4 (fun kap F => loop4 (fun lam F =>
              match symbol mu nu kap lam with
              | Some s => Some (F + (- 1 / gdet ge) * s * ucov kap * bcov lam)
              | None => None end) F) 0 with
      | Some F => Some (F * gdet ge)
      | None => None
      end
  end.
Definition zone := (Z * Z * Z)%type.
(** Pa, 29-32 *)
Definition centred (P Psave : zone -> prim) (z : zone) : prim :=
  {| vel := fun m => 5 / 10 * (vel (P z) m + vel (Psave z) m); field := fun m => 5 / 10 * (field (P z) m + field (Psave z) m) |}.
Section Current.
(** ggeom does not depend on k *)
Variable ggeom : Z -> Z -> geom.
Variable dx : nat -> R.
Variable dtsave : R.
(** the neighbour n zones along dimension d *)
Definition shift (d : nat) (n : Z) (z : zone) : zone := let '(i, j, k) := z in
  match d with 1%nat => ((i + n)%Z, j, k) | 2%nat => (i, (j + n)%Z, k) | _ => (i, j, (k + n)%Z) end.
Definition at_zone (p : zone -> prim) (mu nu : nat) (z : zone) : option R := let '(i, j, k) := z in Fcon_calc (p (i, j, k)) mu nu (ggeom i j).
Definition diff (a b : option R) (h : R) : option R := match a, b with Some a, Some b => Some ((a - b) / h) | _, _ => None end.
(** current_calc, 17-75, for the zone z.  None: one of the calls failed. *)
Definition current_calc (nstep : Z) (P Psave : zone -> prim) (z : zone) (mu : nat) : option R :=
  if Z.eqb nstep 0 then Some 0 else
  let Pa := centred P Psave in
  let along d := diff (at_zone Pa d mu (shift d 1 z)) (at_zone Pa d mu (shift d (-1) z)) (2 * dx d) in
  match diff (at_zone P 0 mu z) (at_zone Psave 0 mu z) dtsave, along 1%nat, along 2%nat, along 3%nat with
  | Some d0, Some d1, Some d2, Some d3 => Some ((1 / (4 * PI * gdet (let '(i, j, _) := z in ggeom i j))) * (d0 + d1 + d2 + d3))
  | _, _, _, _ => None
  end.
End Current.
