(** Code coordinates, their Jacobians and the radii of the grid.  core/coord.c:79-147 (r_of_X,
    th_of_X, bl_coord, cart_coord), 157-268 (Jacobians), 330-387 (set_gcov), 390-463 (set_points),
    540-550 (cart_to_sph), METRIC == MKS.  Reals are exact.  poly_alpha is taken to be a natural
    number (14 in every shipped problem): for any other value pow() of a negative argument is NaN. *)
From Coq Require Import Reals Bool List.
From Verif Require Import RLib FluxModel GeomModel.
Open Scope R_scope.

(** decs.h:111 *)
Definition SINGSMALL : R := / 10 ^ 20.

Section Coord.
(** run-time parameters, startx[1], and the option DEREFINE_POLES *)
Variables (hslope poly_xt : R) (poly_alpha : nat) (mks_smooth startx1 : R) (derefine : bool).

(** coord.c:449-450 *)
Definition poly_norm : R :=
  / 2 * PI * 1 / (1 + 1 / (INR poly_alpha + 1) * 1 / poly_xt ^ poly_alpha).
(** 79-81 *)
Definition thG_of_X (X : vec) : R := PI * X 2%nat + (1 - hslope) / 2 * sin (2 * PI * X 2%nat).
(** 84-89 *)
Definition y_of_X (X : vec) : R := 2 * X 2%nat - 1.
Definition thJ_of_X (X : vec) : R :=
  let y := y_of_X X in
  poly_norm * y * (1 + (y / poly_xt) ^ poly_alpha / (INR poly_alpha + 1)) + / 2 * PI.
(** 92 *)
Definition r_of_X (X : vec) : R := exp (X 1%nat).
(** 94-104 *)
Definition th_of_X (X : vec) : R :=
  let thG := thG_of_X X in
  if derefine then thG + exp (mks_smooth * (startx1 - X 1%nat)) * (thJ_of_X X - thG) else thG.
(** Boyer-Lindquist time, radius, angles before the fix at the axis *)
Definition bl4 (X : vec) : vec := fun i =>
  match i with 0%nat => X 0%nat | 1%nat => r_of_X X | 2%nat => th_of_X X | 3%nat => X 3%nat | _ => 0 end.
(** 113-125, the four tests in the order of the code *)
Definition sing_fix (th : R) : R :=
  let th := if Rltb (Rabs th) SINGSMALL then
              let th := if Rleb 0 th then SINGSMALL else th in
              if Rltb th 0 then - SINGSMALL else th
            else th in
  if Rltb (Rabs (PI - th)) SINGSMALL then
    let th := if Rleb PI th then PI + SINGSMALL else th in
    if Rltb th PI then PI - SINGSMALL else th
  else th.
(** 107-126: bl_coord *)
Definition bl_th (X : vec) : R := sing_fix (th_of_X X).
(** 129-147 *)
Definition cart_coord (X : vec) : vec := fun i =>
  let r := r_of_X X in let th := bl_th X in let ph := X 3%nat in
  match i with
  | 0%nat => X 0%nat
  | 1%nat => r * sin th * cos ph
  | 2%nat => r * sin th * sin ph
  | 3%nat => r * cos th
  | _ => 0
  end.

(** 162-182 *)
Definition drdX1 (X : vec) : R := exp (X 1%nat).
Definition dthGdX2 (X : vec) : R := PI + PI * (1 - hslope) * cos (2 * PI * X 2%nat).
Definition dthJdX2 (X : vec) : R := poly_norm * (1 + (y_of_X X / poly_xt) ^ poly_alpha) * 2.
Definition dthdX1 (X : vec) : R :=
  if derefine then - mks_smooth * (thJ_of_X X - thG_of_X X) * exp (mks_smooth * (startx1 - X 1%nat)) else 0.
Definition dthdX2 (X : vec) : R :=
  if derefine then dthGdX2 X + exp (mks_smooth * (startx1 - X 1%nat)) * (dthJdX2 X - dthGdX2 X) else dthGdX2 X.
(** 184-203: jac_harm_to_bl *)
Definition h2bl_con (X : vec) : mat := fun i j =>
  match i, j with
  | 0%nat, 0%nat => 1
  | 1%nat, 1%nat => drdX1 X
  | 2%nat, 1%nat => dthdX1 X
  | 2%nat, 2%nat => dthdX2 X
  | 3%nat, 3%nat => 1
  | _, _ => 0
  end.
Definition h2bl_cov (X : vec) : mat := fun i j =>
  match i, j with
  | 0%nat, 0%nat => 1
  | 1%nat, 1%nat => 1 / (drdX1 X + SMALL)
  | 2%nat, 1%nat => - dthdX1 X / (drdX1 X * dthdX2 X + SMALL)
  | 2%nat, 2%nat => 1 / (dthdX2 X + SMALL)
  | 3%nat, 3%nat => 1
  | _, _ => 0
  end.
(** 207-243: jac_bl_to_cart *)
Definition bl2c_con (X : vec) : mat := fun i j =>
  let r := r_of_X X in let th := bl_th X in let ph := X 3%nat in
  match i, j with
  | 0%nat, 0%nat => 1
  | 1%nat, 1%nat => sin th * cos ph
  | 1%nat, 2%nat => r * cos th * cos ph
  | 1%nat, 3%nat => - r * sin th * sin ph
  | 2%nat, 1%nat => sin th * sin ph
  | 2%nat, 2%nat => r * cos th * sin ph
  | 2%nat, 3%nat => r * sin th * cos ph
  | 3%nat, 1%nat => cos th
  | 3%nat, 2%nat => - r * sin th
  | _, _ => 0
  end.
Definition bl2c_cov (X : vec) : mat := fun i j =>
  let r := r_of_X X in let th := bl_th X in let ph := X 3%nat in
  match i, j with
  | 0%nat, 0%nat => 1
  | 1%nat, 1%nat => cos ph * sin th
  | 1%nat, 2%nat => sin ph * sin th
  | 1%nat, 3%nat => cos th
  | 2%nat, 1%nat => cos ph * cos th / (r + SMALL)
  | 2%nat, 2%nat => cos th * sin ph / (r + SMALL)
  | 2%nat, 3%nat => - sin th / (r + SMALL)
  | 3%nat, 1%nat => - sin ph / (r * sin th + SMALL)
  | 3%nat, 2%nat => cos ph / (r * sin th + SMALL)
  | _, _ => 0
  end.
(** 245-268: jac_harm_to_cart *)
Definition h2c_con (X : vec) : mat := fun i j => sum4 (fun k => bl2c_con X i k * h2bl_con X k j).
Definition h2c_cov (X : vec) : mat := fun i j => sum4 (fun k => h2bl_cov X i k * bl2c_cov X k j).
(** 330-387: set_gcov; set_dxdX (272-321) is the first matrix of jac_harm_to_bl *)
Definition set_gcov (a : R) (X : vec) : mat := to_code (ks_gcov a (r_of_X X) (bl_th X)) (h2bl_con X).
End Coord.

(** set_points, 413-425, 428, 460; cube roots are pow(.,1./3.) *)
Section Points.
Variables (a Rout : R) (N1TOT : nat).
(** pow(x, 1./3.) for x >= 0 *)
Definition cbrt (x : R) : R := if Rltb 0 x then Rpower x (1 / 3) else 0.
Definition Reh : R := 1 + sqrt (1 - a * a).
Definition z1 : R := 1 + cbrt (1 - a * a) * (cbrt (1 + a) + cbrt (1 - a)).
Definition z2 : R := sqrt (3 * a * a + z1 * z1).
Definition Risco : R := 3 + z2 - sqrt ((3 - z1) * (3 + z1 + 2 * z2)).
Definition Rin : R := exp ((INR N1TOT * ln Reh / (11 / 2) - ln Rout) / (-1 + INR N1TOT / (11 / 2))).
Definition startx_1 : R := ln Rin.
Definition dx_1 : R := ln (Rout / Rin) / INR N1TOT.
Definition stopx_1 : R := startx_1 + dx_1 * INR N1TOT.
End Points.

(** atan2 of the C library (ISO C 7.12.4.4), signed zeros left out; None where it is a domain error *)
Definition atan2 (y x : R) : option R :=
  if Rltb 0 x then Some (atan (y / x))
  else if Rltb x 0 then Some (if Rleb 0 y then atan (y / x) + PI else atan (y / x) - PI)
  else if Rltb 0 y then Some (PI / 2)
  else if Rltb y 0 then Some (- (PI / 2))
  else None.
(** 540-550: (r, th, ph); None where r = 0 *)
Definition cart_to_sph (x y z : R) : option (R * R * R) :=
  let r := sqrt (x * x + y * y + z * z) in
  if Reqb r 0 then None else
  match atan2 y x with
  | None => None
  | Some ph => Some (r, acos (z / r), if Rltb ph 0 then ph + 2 * PI else ph)
  end.
