(** Tabulated neutrino opacities and emissivities, core/opac_emis_hdf.c.  Index arithmetic
    is exact (no overflow of int); files and HDF5 are left out: the tables are given. *)
From Coq Require Import Reals Bool ZArith List.
From Verif Require Import RLib XLib IntLib TabModel.
Import ListNotations.
Open Scope R_scope.

(** pow(10., x), lines 121-124, and log10, 262, 282; log10 of what is not positive is an
    infinity or not a number *)
Definition pow10 (x : R) : R := Rpower 10 x.
Definition xlog10 (x : X) : X :=
  match x with
  | Fin r => if Rltb 0 r then Fin (ln r / ln 10) else if Rltb r 0 then NaN else NInf
  | PInf => PInf
  | _ => NaN
  end.

(** What is read and derived, 84-127: three axes, the frequencies, the numbers of species
    and of groups (NU_BINS + 1), and the two ends of the frequencies of the run *)
Record opac := Opac { lrhos : axis; lTs : axis; Yes : axis; lNus : list R; ntypes : Z; ngroups : Z; numin : R; numax : R }.
(** 125-127: the spacing is that of the first two values *)
Definition step (a : axis) : R := nth 1 a 0 - nth 0 a 0.

(** 34-39: element access *)
Definition ELEM5D (o : opac) (irho iT iY it iNu : Z) : Z :=
  (ngroups o * (ntypes o * (ax_n (lrhos o) * (iY * ax_n (lTs o) + iT) + irho) + it) + iNu)%Z.
Definition ELEM5DGRID (o : opac) (irho iT iY it iNu : Z) : Z :=
  (ax_n (lNus o) * (ntypes o * (ax_n (lrhos o) * (iY * ax_n (lTs o) + iT) + irho) + it) + iNu)%Z.
(** 91 *)
Definition tab_size (o : opac) : Z := (ax_n (lrhos o) * ax_n (lTs o) * ax_n (Yes o) * ntypes o * ngroups o)%Z.

(** 66-77: the logarithmic groups; also opac_emis_neutrino.c:53-64 *)
Definition lnu_min (o : opac) : R := ln (numin o).
Definition lnu_max (o : opac) : R := ln (numax o).
Definition dlnu (o : opac) : R := (lnu_max o - lnu_min o) / IZR (ngroups o - 1).
Definition lnugroup (o : opac) : list R :=
  map (fun n => INR n * dlnu o + lnu_min o) (seq 0 (Z.to_nat (ngroups o))).
Definition nugroup (o : opac) : list R := map exp (lnugroup o).

(** A buffer: what has been stored at each element *)
Definition buffer := Z -> option R.
Definition fresh : buffer := fun _ => None.
Definition store (size : Z) (b : buffer) (at_ : Z) (v : R) : option buffer :=
  if ((0 <=? at_) && (at_ <? size))%Z then Some (fun a => if (a =? at_)%Z then Some v else b a) else None.
Definition finite (x : option X) : option R := match x with Some (Fin v) => Some v | _ => None end.
Fixpoint each {S} (f : Z -> S -> option S) (l : list Z) (s : S) : option S :=
  match l with
  | [] => Some s
  | i :: l => match f i s with Some s => each f l s | None => None end
  end.
Definition range (n : Z) : list Z := map Z.of_nat (seq 0 (Z.to_nat n)).

(** init_opac_emis_hdf, 129-145, for one of the two tables: None is an access outside a
    table or a value that is not finite *)
Definition regrid (o : opac) (grid : list R) : option buffer :=
  each (fun irho =>
  each (fun iT =>
  each (fun iY =>
  each (fun itp b =>
    let elem4d := ELEM5DGRID o irho iT iY itp 0 in
    each (fun inu b =>
      match rd (lnugroup o) inu with
      | None => None
      | Some x =>
          match finite (interp_1d (Fin x) (nth 0 (lNus o) 0) (nth (length (lNus o) - 1) (lNus o) 0) 0 (ax_n (lNus o)) (lNus o) (skipn (Z.to_nat elem4d) grid)) with
          | None => None
          | Some v => store (tab_size o) b (ELEM5D o irho iT iY itp inu) v
          end
      end) (range (ngroups o)) b)
    (range (ntypes o))) (range (ax_n (Yes o)))) (range (ax_n (lTs o)))) (range (ax_n (lrhos o))) fresh.

(** rho2lrho and T2lT, 255-264, 276-284 *)
Definition x2lx (a : axis) (x : X) : X :=
  if xltb x (Fin (pow10 (ax_min a))) then Fin (ax_min a)
  else if xleb (Fin (pow10 (ax_max a))) x then Fin (ax_max a - TOL)
  else xlog10 x.
(** 266-274 *)
Definition catch_ye (a : axis) (x : X) : X :=
  if xltb x (Fin (ax_min a)) then Fin (ax_min a)
  else if xleb (Fin (ax_max a)) x then Fin (ax_max a - TOL)
  else x.
(** 223-230, on one axis: the index and the offset *)
Definition locate (a : axis) (x : X) : option (Z * R) :=
  match to_int ((x - Fin (ax_min a)) / Fin (step a))%X with
  | None => None
  | Some i =>
      match rd a i with
      | None => None
      | Some xi => match finite (Some ((x - Fin xi) / Fin (step a))%X) with Some del => Some (i, del) | None => None end
      end
  end.
(** interp_3d_to_1d, 214-253: one entry of tab_out *)
Definition entry8 (o : opac) (tab_in : buffer) (irho iT iY : Z) (delrho delT delY : R) (itp inu : Z) : option R :=
  match tab_in (ELEM5D o irho iT iY itp inu), tab_in (ELEM5D o (irho + 1) iT iY itp inu),
        tab_in (ELEM5D o irho (iT + 1) iY itp inu), tab_in (ELEM5D o (irho + 1) (iT + 1) iY itp inu),
        tab_in (ELEM5D o irho iT (iY + 1) itp inu), tab_in (ELEM5D o (irho + 1) iT (iY + 1) itp inu),
        tab_in (ELEM5D o irho (iT + 1) (iY + 1) itp inu), tab_in (ELEM5D o (irho + 1) (iT + 1) (iY + 1) itp inu) with
  | Some t0, Some t1, Some t2, Some t3, Some t4, Some t5, Some t6, Some t7 =>
      Some ((1 - delrho) * (1 - delT) * (1 - delY) * t0 + delrho * (1 - delT) * (1 - delY) * t1 +
            (1 - delrho) * delT * (1 - delY) * t2 + delrho * delT * (1 - delY) * t3 +
            (1 - delrho) * (1 - delT) * delY * t4 + delrho * (1 - delT) * delY * t5 +
            (1 - delrho) * delT * delY * t6 + delrho * delT * delY * t7)
  | _, _, _, _, _, _, _, _ => None
  end.
Fixpoint collect {A} (l : list (option A)) : option (list A) :=
  match l with
  | [] => Some []
  | Some a :: l => match collect l with Some l => Some (a :: l) | None => None end
  | None :: _ => None
  end.
Definition interp_3d_to_1d (o : opac) (rho T Ye : X) (tab_in : buffer) : option (list (list R)) :=
  match locate (lrhos o) (x2lx (lrhos o) rho), locate (lTs o) (x2lx (lTs o) T), locate (Yes o) (catch_ye (Yes o) Ye) with
  | Some (irho, delrho), Some (iT, delT), Some (iY, delY) =>
      collect (map (fun itp => collect (map (fun inu => entry8 o tab_in irho iT iY delrho delT delY itp inu) (range (ngroups o)))) (range (ntypes o)))
  | _, _, _ => None
  end.
(** fill_opac_emis_hdf, 150-157 *)
Definition fill_opac_emis_hdf (o : opac) (MEV : R) (tab_J tab_K : buffer) (rho T Ye : X) : option (list (list R) * list (list R)) :=
  match interp_3d_to_1d o rho (T / Fin MEV)%X Ye tab_J, interp_3d_to_1d o rho (T / Fin MEV)%X Ye tab_K with
  | Some jgrp, Some alphagrp => Some (jgrp, alphagrp)
  | _, _ => None
  end.

(** jnu_hdf, 165-177, and alpha_nu_hdf, 201-212, on jgrp or alphagrp; the same code is
    opac_emis_neutrino.c:90-102, 126-137.  Reading past the
    groups of a species is undefined. *)
Inductive outcome := Val (v : R) | Exit | Undefined.
Definition xln (r : R) : X := if Rltb 0 r then Fin (ln r) else NInf.
Definition nu_hdf (o : opac) (grp : list (list R)) (nu : R) (type : Z) : outcome :=
  if (type <? 0)%Z then Exit
  else match rd grp type with
       | None => Undefined
       | Some row =>
           match finite (interp_1d (xln (Rabs nu)) (lnu_min o) (lnu_max o) 0 (ngroups o) (lnugroup o) row) with
           | Some v => Val v
           | None => Undefined
           end
       end.
(** int_jnudnudOmega_hdf, 186-195; also opac_emis_neutrino.c:111-120 *)
Fixpoint row_sum (row nus : list R) (acc : R) : R :=
  match row, nus with
  | j :: row, nu :: nus => row_sum row nus (acc + j * nu)
  | _, _ => acc
  end.
Definition int_jnudnudOmega_hdf (o : opac) (jgrp : list (list R)) : R :=
  fold_left (fun Jtot row => row_sum row (nugroup o) Jtot) jgrp 0 * (4 * PI * dlnu o).
