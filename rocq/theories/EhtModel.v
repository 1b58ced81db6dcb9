(** The luminosity proxy of the log, core/diag.c:153-161, 194, 298.  Values are extended
    reals with the rules of C; without rounding.  The zones of all processes are one list. *)
From Coq Require Import Reals List Bool.
From Verif Require Import RLib XLib.
Import ListNotations.
Open Scope R_scope.

(** a zone: density, pressure from the equation of state, b.b and sqrt(-g) dx[1] dx[2] dx[3] *)
Record ezone := mke { rho : R; Pg : R; bsq : R; dvol : R }.
(** pow(x, 3.), pow(x, -2.), pow(x, 1. / 3.) and exp of C *)
Definition pow3 (x : R) : X := Fin (x * x * x).
Definition powm2 (x : R) : X := if Reqb x 0 then PInf else Fin (/ (x * x)).
Definition cbrt (x : X) : X := match x with
  | Fin r => if Rltb r 0 then NaN else if Reqb r 0 then Fin 0 else Fin (Rpower r (1 / 3))
  | PInf => PInf | NInf => PInf | NaN => NaN end.
Definition xexp (x : X) : X := match x with Fin r => Fin (exp r) | PInf => PInf | NInf => Fin 0 | NaN => NaN end.
(** 158 *)
Definition C_eht : R := 2 / 10.
(** 157-160 *)
Definition j_eht (z : ezone) : X :=
  let Bmag := xsqrt (Fin (bsq z)) in
  (pow3 (rho z) * powm2 (Pg z) *
   xexp (Fin (- C_eht) * cbrt (Fin (rho z * rho z) / (Bmag * Fin (Pg z) * Fin (Pg z)))))%X.
(** 161, 194 *)
Definition lum_eht (zs : list ezone) : X := fold_left (fun a z => (a + j_eht z * Fin (dvol z))%X) zs (Fin 0).
