(** Table look-up and interpolation.  core/util.c:80-135, core/eos_stellar_collapse.c,
    core/eos_stellar_collapse.h:22, 135-136. *)
From Coq Require Import Reals Bool ZArith List.
From Verif Require Import RLib XLib IntLib.
Import ListNotations.
Open Scope R_scope.

(** decs.h:87; eos_stellar_collapse.h:22 (TABLE_TOL/100) *)
Definition SMALL : R := / 10 ^ 20.
Definition TOL : R := / 10 ^ 12.

(** find_index, util.c:78-84 *)
Fixpoint find_from (i : Z) (value : R) (array : list R) : Z :=
  match array with
  | [] => (-1)%Z
  | a :: array => if Rleb value a then i else find_from (i + 1) value array
  end.
Definition find_index (value : R) (array : list R) : Z := find_from 0 value array.

(** interp_1d, util.c:96-107.  The abscissa may be infinite or not a number; None is a
    read outside a table or an undefined conversion to int. *)
Definition interp_1d (x : X) (xmin xmax : R) (imin imax : Z) (tab_x tab_y : list R) : option X :=
  let x := if xltb x (Fin xmin) then Fin xmin else x in
  let x := if xltb (Fin xmax) x then Fin (xmax - SMALL) else x in
  let nx := (imax - imin)%Z in
  let dx := (Fin (xmax - xmin) / Fin (IZR (nx - 1)))%X in
  match to_int (Fin (IZR imin) + (x - Fin xmin) / dx)%X with
  | None => None
  | Some ix =>
      match rd tab_x ix, rd tab_y ix, rd tab_y (ix + 1) with
      | Some xi, Some yi, Some yj => let delx := ((x - Fin xi) / dx)%X in Some ((Fin 1 - delx) * Fin yi + delx * Fin yj)%X
      | _, _, _ => None
      end
  end.

(** An axis of the table of the equation of state: its values and what 348-362 derive *)
Definition axis := list R.
Definition ax_n (a : axis) : Z := Z.of_nat (length a).
Definition ax_min (a : axis) : R := nth 0 a 0.
Definition ax_max (a : axis) : R := nth (length a - 1) a 0.
Definition ax_d (a : axis) : X := (Fin (ax_max a - ax_min a) / Fin (IZR (ax_n a - 1)))%X.

(** catch_lrho (incl = false) 1447-1455; catch_ye 1500-1508, catch_lT 1523-1533
    (incl = true) *)
Definition catch (incl : bool) (a : axis) (x : X) : X :=
  if xltb x (Fin (ax_min a)) then Fin (ax_min a)
  else if (if incl then xleb (Fin (ax_max a)) x else xltb (Fin (ax_max a)) x) then Fin (ax_max a - TOL) else x.
Definition index (a : axis) (x : X) : option Z := to_int ((x - Fin (ax_min a)) / ax_d a)%X.

(** eos_stellar_collapse.h:135 *)
Definition EOS_ELEM (rho tmp : axis) (irho iT iY : Z) : Z := (ax_n rho * (iY * ax_n tmp + iT) + irho)%Z.
(** EOS_SC_interp, 1148-1177: indices (1153-1161), offsets from the values not caught
    (1164-1166), and the sum of eight entries *)
Definition stencil (rho tmp yes : axis) (lrho lT Ye : X) : option (Z * Z * Z) :=
  match index rho (catch false rho lrho), index tmp (catch true tmp lT), index yes (catch true yes Ye) with
  | Some i, Some j, Some k => Some (i, j, k)
  | _, _, _ => None
  end.
Definition ax_h (a : axis) : R := (ax_max a - ax_min a) / IZR (ax_n a - 1).
Definition EOS_SC_interp (rho tmp yes : axis) (lrho lT Ye : R) (tab : list R) : option R :=
  match stencil rho tmp yes (Fin lrho) (Fin lT) (Fin Ye) with
  | None => None
  | Some (i, j, k) =>
      match rd rho i, rd tmp j, rd yes k with
      | Some ri, Some tj, Some yk =>
          let dr := (lrho - ri) / ax_h rho in
          let dt := (lT - tj) / ax_h tmp in
          let dy := (Ye - yk) / ax_h yes in
          let e := EOS_ELEM rho tmp in
          match rd tab (e i j k), rd tab (e (i + 1) j k)%Z, rd tab (e i (j + 1) k)%Z, rd tab (e (i + 1) (j + 1) k)%Z,
                rd tab (e i j (k + 1))%Z, rd tab (e (i + 1) j (k + 1))%Z, rd tab (e i (j + 1) (k + 1))%Z, rd tab (e (i + 1) (j + 1) (k + 1))%Z with
          | Some t0, Some t1, Some t2, Some t3, Some t4, Some t5, Some t6, Some t7 =>
              Some ((1 - dr) * (1 - dt) * (1 - dy) * t0 + dr * (1 - dt) * (1 - dy) * t1 + (1 - dr) * dt * (1 - dy) * t2 + dr * dt * (1 - dy) * t3 +
                    (1 - dr) * (1 - dt) * dy * t4 + dr * (1 - dt) * dy * t5 + (1 - dr) * dt * dy * t6 + dr * dt * dy * t7)
          | _, _, _, _, _, _, _, _ => None
          end
      | _, _, _ => None
      end
  end.

(** interp_2d, 1179-1194.  The macro of eos_stellar_collapse.h:136 has no parentheses
    around its arguments: MMA_ELEM(irho, iY + 1) is Nrho * iY + 1 + irho. *)
Definition interp_2d (rho yes : axis) (lrho Ye : R) (tab : list R) : option R :=
  match index rho (Fin lrho), index yes (Fin Ye) with
  | Some i, Some k =>
      match rd rho i, rd yes k with
      | Some ri, Some yk =>
          let dr := (lrho - ri) / ax_h rho in
          let dy := (Ye - yk) / ax_h yes in
          match rd tab (ax_n rho * k + i)%Z, rd tab (ax_n rho * k + i + 1)%Z, rd tab (ax_n rho * k + 1 + i)%Z, rd tab (ax_n rho * k + 1 + i + 1)%Z with
          | Some t0, Some t1, Some t2, Some t3 =>
              Some ((1 - dr) * (1 - dy) * t0 + dr * (1 - dy) * t1 + (1 - dr) * dy * t2 + dr * dy * t3)
          | _, _, _, _ => None
          end
      | _, _ => None
      end
  | _, _ => None
  end.
(** catch_var_2d, 1352-1374 *)
Definition catch_var_2d (rho yes : axis) (lrho Ye var : R) (tab_min tab_max : list R) : option R :=
  match interp_2d rho yes lrho Ye tab_min with
  | None => None
  | Some varmin =>
      if Rleb var varmin then Some (varmin + TOL)
      else match interp_2d rho yes lrho Ye tab_max with
           | None => None
           | Some varmax => if Rleb varmax var then Some (varmax - TOL) else Some var
           end
  end.
(** fill_max_min_2d, 1331-1350: for one density and electron fraction, over the
    temperatures; None is the initial infinity *)
Fixpoint fold_minmax (l : list R) (m : option (R * R)) : option (R * R) :=
  match l with
  | [] => m
  | t :: l => fold_minmax l (match m with
                             | None => Some (t, t)
                             | Some (lo, hi) => Some (if Rltb t lo then t else lo, if Rltb hi t then t else hi)
                             end)
  end.

(** interp_1d with every operation rounded: the same code on finite doubles, where rnd
    rounds the exact result of an operation and small is the double nearest SMALL. *)
Definition interp_1d_rnd (rnd : R -> R) (small : R) (x xmin xmax : R) (imin imax : Z) (tab_x tab_y : list R) : option R :=
  let x := if Rltb x xmin then xmin else x in
  let x := if Rltb xmax x then rnd (xmax - small) else x in
  let nx := (imax - imin)%Z in
  let dx := rnd (rnd (xmax - xmin) / IZR (nx - 1)) in
  match to_int (Fin (rnd (IZR imin + rnd (rnd (x - xmin) / dx)))) with
  | None => None
  | Some ix =>
      match rd tab_x ix, rd tab_y ix, rd tab_y (ix + 1) with
      | Some xi, Some yi, Some yj =>
          let delx := rnd (rnd (x - xi) / dx) in Some (rnd (rnd (rnd (1 - delx) * yi) + rnd (delx * yj)))
      | _, _, _ => None
      end
  end.
