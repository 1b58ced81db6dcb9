(** Parabolic reconstruction, core/reconstruction.c, over exact reals.  The dispatcher
    stops the run when it is selected (697-701): this is code the authors call broken. *)
From Coq Require Import Reals Bool ZArith List.
From Verif Require Import RLib XLib IntLib.
Import ListNotations.
Open Scope R_scope.

(** the constant of both versions, 287 and 564 *)
Definition C_lim : R := 125 / 100.

(** ** reconstruct_lr_ppm, 562-671 *)
(** 570-572 and 573, for an interface between b and c *)
Definition dph0 (a b c d : R) : R := (7 * (b + c) - (d + a)) / 12.
Definition d2qc (a b c : R) : R := a - 2 * b + c.
(** 577-593: the limited value at that interface *)
Definition dph (a b c d : R) : R :=
  let dph := dph0 a b c d in
  let qmin := MY_MIN b c in
  let qmax := MY_MAX b c in
  if Rltb dph qmin || Rltb qmax dph then
    let qa := 3 * (b - 2 * dph + c) in
    let qb := d2qc a b c in
    let qc := d2qc b c d in
    let qd := if Reqb (MY_SIGN qa) (MY_SIGN qb) && Reqb (MY_SIGN qa) (MY_SIGN qc)
              then MY_SIGN qa * MY_MIN (C_lim * Rabs qb) (MY_MIN (C_lim * Rabs qc) (Rabs qa)) else 0 in
    5 / 10 * (b + c) - qd / 6
  else dph.
(** 611-664, the zone x3 with two neighbours on either side: (P_l, P_r).  The work arrays
    dph, d2qc, qminus, qplus, dqf_minus, dqf_plus, d2qf are the local values here. *)
Definition ppm (x1 x2 x3 x4 x5 : R) : R * R :=
  let dphi := dph x1 x2 x3 x4 in
  let dphp := dph x2 x3 x4 x5 in
  let qminus := dphi in
  let qplus := dphp in
  let dqf_minus := x3 - qminus in
  let dqf_plus := qplus - x3 in
  let d2qf := 6 * (dphi - 2 * x3 + dphp) in
  let qa := dqf_minus * dqf_plus in
  let qb := (x4 - x3) * (x3 - x2) in
  if Rleb qa 0 || Rleb qb 0 then
    let qa := d2qc x1 x2 x3 in
    let qb := d2qc x2 x3 x4 in
    let qc := d2qc x3 x4 x5 in
    let qd := d2qf in
    let qe := if Reqb (MY_SIGN qa) (MY_SIGN qb) && Reqb (MY_SIGN qa) (MY_SIGN qc) && Reqb (MY_SIGN qa) (MY_SIGN qd)
              then MY_SIGN qd * MY_MIN (MY_MIN (C_lim * Rabs qa) (C_lim * Rabs qb)) (MY_MIN (C_lim * Rabs qc) (Rabs qd)) else 0 in
    let qa := MY_MAX (Rabs x2) (Rabs x1) in
    let qb := MY_MAX (Rabs x3) (MY_MAX (Rabs x4) (Rabs x5)) in
    (* where qd is 0 the first test holds *)
    let rho := if Rleb (Rabs qd) (/ 10 ^ 12 * MY_MAX qa qb) then 0 else qe / qd in
    if Rleb rho (1 - / 10 ^ 12) then (x3 - rho * dqf_minus, x3 + rho * dqf_plus) else (qminus, qplus)
  else
    (if Rleb (2 * Rabs dqf_plus) (Rabs dqf_minus) then x3 - 2 * dqf_plus else qminus,
     if Rleb (2 * Rabs dqf_minus) (Rabs dqf_plus) then x3 + 2 * dqf_minus else qplus).

Fixpoint all {A} (l : list (option A)) : option (list A) :=
  match l with
  | [] => Some []
  | Some a :: l => match all l with Some l => Some (a :: l) | None => None end
  | None :: _ => None
  end.
(** ISLOOP(lo, hi), decs.h:672 *)
Definition ISLOOP (NG lo hi : Z) : list Z := map (fun k => (lo + NG + Z.of_nat k)%Z) (seq 0 (Z.to_nat (hi + 1 - lo))).
(** 570-574: the first loop, with the entries it reads *)
Definition interface (q : list R) (i : Z) : option (R * R) :=
  match rd q (i - 1), rd q i, rd q (i + 1), rd q (i - 2) with
  | Some b, Some c, Some d, Some a => Some (dph0 a b c d, d2qc b c d)
  | _, _, _, _ => None
  end.
Definition zone (f : R -> R -> R -> R -> R -> R * R) (q : list R) (i : Z) : option (R * R) :=
  match rd q (i - 2), rd q (i - 1), rd q i, rd q (i + 1), rd q (i + 2) with
  | Some x1, Some x2, Some x3, Some x4, Some x5 => Some (f x1 x2 x3 x4 x5)
  | _, _, _, _, _ => None
  end.
(** the whole of it for one variable with N zones and NG ghost zones; None: a read outside
    the array *)
Definition reconstruct_lr_ppm (NG N : Z) (q : list R) : option (list (R * R)) :=
  match all (map (interface q) (ISLOOP NG (-2) (N + 1))) with
  | None => None
  | Some _ => all (map (zone ppm q) (ISLOOP NG (-1) N))
  end.

(** ** para, 283-388 *)
(** 300-311 and 319-330: the extremum-preserving value at the interface between b and c,
    aih being the value found so far *)
Definition para_limited (aih a b c d : R) : R :=
  let D2a := 3 * (b - 2 * aih + c) in
  let D2aL := a - 2 * b + c in
  let D2aR := b - 2 * c + d in
  let D2alim := if Rltb 0 (D2a * D2aL) && Rltb 0 (D2a * D2aR)
                then MY_SIGN D2a * MY_MIN (MY_MIN (C_lim * Rabs D2aL) (C_lim * Rabs D2aR)) (Rabs D2a) else 0 in
  5 / 10 * (b + c) - 1 / 3 * D2alim.
(** the result may be NaN: the divisions of 374-375 *)
Definition para (x1 x2 x3 x4 x5 : R) : X * X :=
  let aiph := 7 / 12 * (x3 + x4) - 1 / 12 * (x2 + x5) in
  let aimh := 7 / 12 * (x2 + x3) - 1 / 12 * (x1 + x4) in
  let aiph := if Rleb aiph (MY_MIN x3 x4) || Rleb (MY_MAX x3 x4) aiph then para_limited aiph x2 x3 x4 x5 else aiph in
  let aimh := if Rltb aimh (MY_MIN x2 x3) || Rltb (MY_MAX x2 x3) aimh then para_limited aimh x1 x2 x3 x4 else aimh in
  if Rleb ((x3 - aimh) * (aiph - x3)) 0 || Rleb ((x4 - x3) * (x3 - x2)) 0 then
    let D2a := 6 * (aimh - 2 * x3 + aiph) in
    let D2aL := x1 - 2 * x2 + x3 in
    let D2aC := x2 - 2 * x3 + x4 in
    let D2aR := x3 - 2 * x4 + x5 in
    let D2alim := if Reqb (MY_SIGN D2a) (MY_SIGN D2aL) && Reqb (MY_SIGN D2a) (MY_SIGN D2aC) && Reqb (MY_SIGN D2a) (MY_SIGN D2aR)
                  then MY_SIGN D2a * MY_MIN (MY_MIN (Rabs D2a) (C_lim * Rabs D2aL)) (MY_MIN (C_lim * Rabs D2aC) (C_lim * Rabs D2aR)) else 0 in
    ((Fin x3 + Fin ((aimh - x3) * D2alim) / Fin D2a)%X, (Fin x3 + Fin ((aiph - x3) * D2alim) / Fin D2a)%X)
  else
    let aiph := if Rleb (2 * Rabs (aimh - x3)) (Rabs (aiph - x3)) then x3 - 2 * (aimh - x3) else aiph in
    let aimh := if Rleb (2 * Rabs (aiph - x3)) (Rabs (aimh - x3)) then x3 - 2 * (aiph - x3) else aimh in
    (Fin aimh, Fin aiph).
(** reconstruct_lr_par, 539-554, one variable *)
Definition reconstruct_lr_par (NG N : Z) (q : list R) : option (list (X * X)) :=
  all (map (fun i => match rd q (i - 2), rd q (i - 1), rd q i, rd q (i + 1), rd q (i + 2) with
                     | Some x1, Some x2, Some x3, Some x4, Some x5 => Some (para x1 x2 x3 x4 x5)
                     | _, _, _, _, _ => None
                     end) (ISLOOP NG (-1) N)).
