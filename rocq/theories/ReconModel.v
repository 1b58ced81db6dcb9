(** Reconstruction of interface values, core/reconstruction.c, over exact reals.
    Not modelled: the van Leer and minmod branches of slope_lim (dead, the
    limiter is hard-coded, line 16).  [para] and the Athena PPM (not reachable:
    the dispatcher exits for PPM, lines 697-701) are in PpmModel. *)
From Coq Require Import Reals Bool.
From Verif Require Import RLib.
Open Scope R_scope.

(** reconstruction.c:12-33 (lim = MC) *)
Definition slope_lim (y1 y2 y3 : R) : R :=
  let Dqm := 2 * (y2 - y1) in
  let Dqp := 2 * (y3 - y2) in
  let Dqc := 5 / 10 * (y3 - y1) in
  let s := Dqm * Dqp in
  if Rleb s 0 then 0
  else if Rltb (Rabs Dqm) (Rabs Dqp) && Rltb (Rabs Dqm) (Rabs Dqc) then Dqm
  else if Rltb (Rabs Dqp) (Rabs Dqc) then Dqp
  else Dqc.

(** reconstruction.c:66-89: (lout, rout) *)
Definition linear_mc (x1 x2 x3 : R) : R * R :=
  let Dqm := 2 * (x2 - x1) in
  let Dqp := 2 * (x3 - x2) in
  let Dqc := 5 / 10 * (x3 - x1) in
  let s := Dqm * Dqp in
  let s := if Rleb s 0 then 0
           else if Rltb (Rabs Dqm) (Rabs Dqp) && Rltb (Rabs Dqm) (Rabs Dqc) then Dqm
           else if Rltb (Rabs Dqp) (Rabs Dqc) then Dqp
           else Dqc in
  (x2 - 5 / 10 * s, x2 + 5 / 10 * s).

(** reconstruction.c:511-537, one zone and one component: (P_l, P_r) *)
Definition lr_lin (x1 x2 x3 : R) : R * R :=
  let dq := slope_lim x1 x2 x3 in
  (x2 - 5 / 10 * dq, x2 + 5 / 10 * dq).

(** reconstruction.c:392-447 *)
Definition weno_vr0 (x1 x2 x3 x4 x5 : R) : R := 3 / 8 * x1 - 5 / 4 * x2 + 15 / 8 * x3.
Definition weno_vr1 (x1 x2 x3 x4 x5 : R) : R := - 1 / 8 * x2 + 3 / 4 * x3 + 3 / 8 * x4.
Definition weno_vr2 (x1 x2 x3 x4 x5 : R) : R := 3 / 8 * x3 + 3 / 4 * x4 - 1 / 8 * x5.
Definition weno_vl0 (x1 x2 x3 x4 x5 : R) : R := 3 / 8 * x5 - 5 / 4 * x4 + 15 / 8 * x3.
Definition weno_vl1 (x1 x2 x3 x4 x5 : R) : R := - 1 / 8 * x4 + 3 / 4 * x3 + 3 / 8 * x2.
Definition weno_vl2 (x1 x2 x3 x4 x5 : R) : R := 3 / 8 * x3 + 3 / 4 * x2 - 1 / 8 * x1.
Definition weno_beta0 (x1 x2 x3 x4 x5 : R) : R :=
  13 / 12 * (x1 - 2 * x2 + x3) ^ 2 + 1 / 4 * (x1 - 4 * x2 + 3 * x3) ^ 2.
Definition weno_beta1 (x1 x2 x3 x4 x5 : R) : R :=
  13 / 12 * (x2 - 2 * x3 + x4) ^ 2 + 1 / 4 * (x4 - x2) ^ 2.
Definition weno_beta2 (x1 x2 x3 x4 x5 : R) : R :=
  13 / 12 * (x3 - 2 * x4 + x5) ^ 2 + 1 / 4 * (x5 - 4 * x4 + 3 * x3) ^ 2.
(** eps = 1.e-26 *)
Definition weno_eps : R := / 10 ^ 26.
(** reconstruction.c:419-431: weights wr[0..2] from three smoothness values *)
Definition weno_weights (b0 b1 b2 : R) : R * R * R :=
  let den := weno_eps + b0 in
  let den := den * den in
  let wt0 := 1 / 16 / den in
  let den := weno_eps + b1 in
  let den := den * den in
  let wt1 := 5 / 8 / den in
  let den := weno_eps + b2 in
  let den := den * den in
  let wt2 := 5 / 16 / den in
  let W := wt0 + wt1 + wt2 in
  (wt0 / W, wt1 / W, wt2 / W).
(** reconstruction.c:433-447: (lout, rout); the left weights take the smoothness
    values in reverse order *)
Definition weno (x1 x2 x3 x4 x5 : R) : R * R :=
  let b0 := weno_beta0 x1 x2 x3 x4 x5 in
  let b1 := weno_beta1 x1 x2 x3 x4 x5 in
  let b2 := weno_beta2 x1 x2 x3 x4 x5 in
  let '(r0, r1, r2) := weno_weights b0 b1 b2 in
  let '(l0, l1, l2) := weno_weights b2 b1 b0 in
  (weno_vl0 x1 x2 x3 x4 x5 * l0 + weno_vl1 x1 x2 x3 x4 x5 * l1 + weno_vl2 x1 x2 x3 x4 x5 * l2,
   weno_vr0 x1 x2 x3 x4 x5 * r0 + weno_vr1 x1 x2 x3 x4 x5 * r1 + weno_vr2 x1 x2 x3 x4 x5 * r2).

(** reconstruction.c:451-454 *)
Definition MINMOD (a b : R) : R :=
  if Rltb 0 (a * b) then (if Rltb (Rabs a) (Rabs b) then a else b) else 0.
Definition Median (a b c : R) : R := a + MINMOD (b - a) (c - a).

(** reconstruction.c:455-501.  [mp5_bounds] is the part from line 469 on up to
    Fmin, Fmax. *)
Definition mp5_bounds (Fjm2 Fjm1 Fj Fjp1 Fjp2 : R) : R * R :=
  let alpha := 4 in
  let d2m := Fjm2 + Fj - 2 * Fjm1 in
  let d2 := Fjm1 + Fjp1 - 2 * Fj in
  let d2p := Fj + Fjp2 - 2 * Fjp1 in
  let scrh1 := MINMOD (4 * d2 - d2p) (4 * d2p - d2) in
  let scrh2 := MINMOD d2 d2p in
  let dMMp := MINMOD scrh1 scrh2 in
  let scrh1 := MINMOD (4 * d2m - d2) (4 * d2 - d2m) in
  let scrh2 := MINMOD d2 d2m in
  let dMMm := MINMOD scrh1 scrh2 in
  let fUL := Fj + alpha * (Fj - Fjm1) in
  let fAV := 5 / 10 * (Fj + Fjp1) in
  let fMD := fAV - 5 / 10 * dMMp in
  let fLC := 5 / 10 * (3 * Fj - Fjm1) + 4 / 3 * dMMm in
  let scrh1 := Rmin Fj Fjp1 in
  let scrh1 := Rmin scrh1 fMD in
  let scrh2 := Rmin Fj fUL in
  let scrh2 := Rmin scrh2 fLC in
  let Fmin := Rmax scrh1 scrh2 in
  let scrh1 := Rmax Fj Fjp1 in
  let scrh1 := Rmax scrh1 fMD in
  let scrh2 := Rmax Fj fUL in
  let scrh2 := Rmax scrh2 fLC in
  let Fmax := Rmin scrh1 scrh2 in
  (Fmin, Fmax).
Definition mp5_high (Fjm2 Fjm1 Fj Fjp1 Fjp2 : R) : R :=
  (2 * Fjm2 - 13 * Fjm1 + 47 * Fj + 27 * Fjp1 - 3 * Fjp2) / 60.
Definition mp5_fmp (Fjm1 Fj Fjp1 : R) : R := Fj + MINMOD (Fjp1 - Fj) (4 * (Fj - Fjm1)).
Definition mp5_subcalc (Fjm2 Fjm1 Fj Fjp1 Fjp2 : R) : R :=
  let f := mp5_high Fjm2 Fjm1 Fj Fjp1 Fjp2 in
  let fMP := mp5_fmp Fjm1 Fj Fjp1 in
  if Rleb ((f - Fj) * (f - fMP)) (/ 10 ^ 12) then f
  else
    let '(Fmin, Fmax) := mp5_bounds Fjm2 Fjm1 Fj Fjp1 Fjp2 in
    Median f Fmin Fmax.
(** reconstruction.c:503-508 *)
Definition mp5 (x1 x2 x3 x4 x5 : R) : R * R :=
  (mp5_subcalc x5 x4 x3 x2 x1, mp5_subcalc x1 x2 x3 x4 x5).
