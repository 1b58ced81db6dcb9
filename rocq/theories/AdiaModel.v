(** Adiabats of the tabulated equation of state, and the filter and polytropes prepared
    with its tables: core/eos_stellar_collapse.c over exact reals. *)
From Coq Require Import Reals Bool ZArith List.
From Verif Require Import RLib XLib IntLib TabModel RootModel InvModel.
Import ListNotations.
Open Scope R_scope.

Section Tables.
(** axes, the tables of entropy and of specific enthalpy less 1 *)
Variables (arho atmp ayes : axis) (tab_ent tab_hm1 : list R).

(** catch_s 1535-1543, with 367-368 *)
Definition catch_s (s : R) : R :=
  if Rltb s (find_min tab_ent) then find_min tab_ent
  else if Rleb (find_max tab_ent) s then find_max tab_ent - TOL else s.
(** catch_lrho 1447-1455 on numbers *)
Definition catch_lrho (lrho : R) : R :=
  if Rltb lrho (ax_min arho) then ax_min arho
  else if Rltb (ax_max arho) lrho then ax_max arho - TOL else lrho.
(** ent_f_adiabat 1233-1240.  A read outside the table would be 0 here; there is none
    for a density other than the last of the axis (C48). *)
Definition ent_f_adiabat (lT ye lrho : R) : R :=
  match EOS_SC_interp arho atmp ayes (catch_lrho lrho) (catch_in atmp lT) (catch_in ayes ye) tab_ent with Some v => v | None => 0 end.
(** find_adiabat_0d 969-984 *)
Definition find_adiabat_0d (fuel : nat) (lrho lTguess ye s : R) : outcome :=
  find_lT arho atmp ayes fuel (catch_lrho lrho) (catch_in atmp lTguess) (catch_in ayes ye) tab_ent (catch_s s).
(** 997-1002 and 1008-1013: the search for the density where the entropy is s at the
    temperature lT; is_practically_nan never holds of a root *)
Definition ent_root (fuel : nat) (s ye lT lrho_guess : R) : outcome :=
  find_root (ent_f_adiabat lT ye) s (ax_min arho) (ax_max arho - 2 * TOL) TABLE_TOL TABLE_TOL fuel lrho_guess.
Definition low_of (o : outcome) : option R :=
  match o with
  | Success x => Some (if Rltb x (ax_min arho) then ax_min arho + TABLE_TOL else x)
  | Fail => Some (ax_min arho + TABLE_TOL)
  | Diverge => None
  end.
Definition high_of (o : outcome) : option R :=
  match o with
  | Success x => Some (if Rltb (ax_max arho) x then ax_max arho - TABLE_TOL else x)
  | Fail => Some (ax_max arho - TABLE_TOL)
  | Diverge => None
  end.
(** adiabat_lrho_min_max 986-1018, called with the ends of the axis; None: still
    searching *)
Definition adiabat_lrho_min_max (fuel : nat) (s ye : R) : option (R * R) :=
  let s := catch_s s in
  let ye := catch_in ayes ye in
  let lrho_guess := 5 / 10 * (catch_lrho (ax_min arho) + catch_lrho (ax_max arho)) in
  match low_of (ent_root fuel s ye (ax_min atmp) lrho_guess), high_of (ent_root fuel s ye (ax_max atmp) lrho_guess) with
  | Some lo, Some hi => Some (catch_lrho lo, catch_lrho hi)
  | _, _ => None
  end.

(** struct of_adiabat, decs.h; the array lT holds the entries imin to imax here, the
    others being never written (malloc); hm1_min and hm1_max start infinite *)
Record adiabat := mk_adiabat { ad_s : R; ad_ye : R; ad_lrho_min : R; ad_lrho_max : R; ad_imin : Z; ad_imax : Z; ad_hm1_min : X; ad_hm1_max : X; ad_lT : list R }.
(** success, failure of a search (the array is then lost), a read outside a table, or
    still searching *)
Inductive traced := Traced (a : adiabat) | Lost | Outside | Tracing.
(** 1051-1066, the loop over [n] nodes from [i] *)
Fixpoint nodes (fuel n : nat) (i : Z) (ye s : R) (lo hi : X) (lTs : list R) : traced :=
  match n with
  | O => Traced (mk_adiabat s ye 0 0 0 0 lo hi (rev lTs))
  | S n =>
      match rd arho i with
      | None => Outside
      | Some lrho =>
          let lTguess := ax_h atmp / ax_h arho * lrho in
          match find_adiabat_0d fuel lrho lTguess ye s with
          | Diverge => Tracing
          | Fail => Lost
          | Success lT =>
              match EOS_SC_interp arho atmp ayes lrho lT ye tab_hm1 with
              | None => Outside
              | Some hm1 =>
                  nodes fuel n (i + 1) ye s (if xltb (Fin hm1) lo then Fin hm1 else lo) (if xltb hi (Fin hm1) then Fin hm1 else hi) (lT :: lTs)
              end
          end
      end
  end.
(** EOS_SC_find_adiabat_1d 1024-1079.  After a failed search at a node the enthalpy at
    the unset temperature is computed and not used: left out. *)
Definition EOS_SC_find_adiabat_1d (fuel : nat) (s ye : R) : traced :=
  let s := catch_s s in
  let ye := catch_in ayes ye in
  match adiabat_lrho_min_max fuel s ye with
  | None => Tracing
  | Some (lrho_min, lrho_max) =>
      let ilrho_min := find_index lrho_min arho in
      let ilrho_max := (find_index lrho_max arho - 1)%Z in
      let ilrho_min := if (ilrho_min <? 0)%Z then 0%Z else ilrho_min in
      let ilrho_max := if (ax_n arho - 2 <? ilrho_max)%Z then (ax_n arho - 2)%Z else ilrho_max in
      match rd arho ilrho_min, rd arho ilrho_max with
      | Some lrho_min, Some lrho_max =>
          match nodes fuel (Z.to_nat (ilrho_max + 1 - ilrho_min)) ilrho_min ye s PInf NInf [] with
          | Traced a => Traced (mk_adiabat s ye lrho_min lrho_max ilrho_min ilrho_max (ad_hm1_min a) (ad_hm1_max a) (ad_lT a))
          | o => o
          end
      | _, _ => Outside
      end
  end.

(** 395-418 (OFFSET_U 1): u = rho * e of every entry, and the shift from the least *)
Variables (tab_le : list R) (e_shift : R).
Definition u_entry (e : nat) : R :=
  let rho := pow10 (nth (Nat.modulo e (length arho)) arho 0) in rho * le2e e_shift (nth e tab_le 0).
Definition tab_u_min : R := find_min (map u_entry (seq 0 (length tab_le))).
Definition u_shift : R := if Rleb tab_u_min 0 then - (1 + / 10 ^ 10) * tab_u_min + SMALL else 0.

(** EOS_SC_get_polytrope 943-953 and 534-549, in code units *)
Variables (tab_lP tab_poly_gamma : list R) (RHO_unit U_unit : R).
Definition poly_K_entry (e : nat) : R :=
  let lrho := nth (Nat.modulo e (length arho)) arho 0 in
  let lP := nth e tab_lP 0 in
  let Gam := nth e tab_poly_gamma 0 in
  let lK := lP - Gam * lrho in
  pow10 lK.
Definition tab_poly_K : list R := map poly_K_entry (seq 0 (length tab_lP)).
Definition EOS_SC_get_polytrope (lrho lT ye : R) : option (R * R) :=
  let lrho := catch_lrho lrho in
  let lT := catch_in atmp lT in
  let ye := catch_in ayes ye in
  match EOS_SC_interp arho atmp ayes lrho lT ye tab_poly_K, EOS_SC_interp arho atmp ayes lrho lT ye tab_poly_gamma with
  | Some K, Some Gam =>
      let K_unit := U_unit / Rpower RHO_unit Gam in
      Some (K / K_unit, Gam)
  | _, _ => None
  end.
End Tables.

(** ** The median filter.  Arrays are lists; None is an access outside. *)
(** compare_doubles 13-17 and qsort: the sorted array, by insertion *)
Fixpoint insert (x : R) (l : list R) : list R :=
  match l with [] => [x] | y :: l' => if Rleb x y then x :: l else y :: insert x l' end.
Definition qsort (l : list R) : list R := fold_right insert [] l.
(** find_median, util.c:87-93 *)
Definition find_median (array : list R) : R :=
  let size := length array in
  let array := qsort array in
  if Nat.even size then 5 / 10 * (nth (Nat.div (size - 1) 2) array 0 + nth (Nat.div size 2) array 0)
  else nth (Nat.div size 2) array 0.
Definition wr (l : list R) (i : Z) (v : R) : option (list R) :=
  if (i <? 0)%Z then None
  else if (Z.to_nat i <? length l)%nat then Some (firstn (Z.to_nat i) l ++ v :: skipn (S (Z.to_nat i)) l) else None.
(** for (i = lo; i < hi; i++) over a state which may have failed *)
Fixpoint loop {A} (n : nat) (i : Z) (f : Z -> A -> option A) (a : A) : option A :=
  match n with
  | O => Some a
  | S n => match f i a with Some a => loop n (i + 1) f a | None => None end
  end.
Definition for_loop {A} (lo hi : Z) (f : Z -> A -> option A) (a : A) : option A := loop (Z.to_nat (hi - lo)) lo f a.

Section Filter.
(** Nrho, NT, NYe *)
Variables (Nrho NT NYe : Z).
(** eos_stellar_collapse.h:130-135 *)
Definition ELEM (irho iT iY : Z) : Z := (Nrho * (iY * NT + iT) + irho)%Z.
Definition MF_W : Z := 3.
Definition EPSSMOOTH : R := 10.
(** fill_mdn_buffer 1269-1282; the buffer as the list of what is stored in turn *)
Definition fill_mdn_buffer (width iY iT irho : Z) (tab : list R) : option (list R) :=
  for_loop (- width) (width + 1) (fun iWy buffer =>
    for_loop (- width) (width + 1) (fun iWt buffer =>
      for_loop (- width) (width + 1) (fun iWr buffer =>
        match rd tab (ELEM (irho + iWr) (iT + iWt) (iY + iWy)) with
        | Some v => Some (buffer ++ [v])
        | None => None
        end) buffer) buffer) [].
(** 1294-1307, one entry *)
Definition filter_one (tab_in : list R) (iY iT irho : Z) (tab_out : list R) : option (list R) :=
  let elem := ELEM irho iT iY in
  match rd tab_in elem with
  | None => None
  | Some v =>
      match wr tab_out elem v, fill_mdn_buffer MF_W iY iT irho tab_in with
      | Some tab_out, Some buffer =>
          let pnt := v in
          let avg := find_median buffer in
          let bad := xltb (Fin EPSSMOOTH) (Fin (Rabs (avg - pnt)) / Fin (Rabs avg))%X in
          if bad then wr tab_out elem avg else Some tab_out
      | _, _ => None
      end
  end.
(** median_filter 1289-1310 *)
Definition median_filter (tab_in tab_out : list R) : option (list R) :=
  for_loop MF_W (NYe - MF_W) (fun iY tab_out =>
    for_loop MF_W (NT - MF_W) (fun iT tab_out =>
      for_loop MF_W (Nrho - MF_W) (fun irho tab_out => filter_one tab_in iY iT irho tab_out) tab_out) tab_out) tab_out.
(** 341-344: the table is copied, and filtered from the copy into itself *)
Definition smooth (tab : list R) : option (list R) :=
  let tab_tmp := tab in median_filter tab_tmp tab.
End Filter.
