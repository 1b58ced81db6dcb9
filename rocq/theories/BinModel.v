(** Zones and bins a position or direction falls into.  core/coord.c:40-65, 540-550,
    core/rad_utils.c:386-390, 613-675, core/diag.c:417-474, core/oscillations.c:73-118. *)
From Coq Require Import Reals Bool ZArith List.
From Verif Require Import RLib XLib IntLib.
Open Scope R_scope.

(** decs.h:54, 87 *)
Definition NG : Z := 3.
Definition SMALL : R := / 10 ^ 20.

(** ** Zones *)
(** One direction of coord (40-65): half says whether the location is centred in it.
    start and d are startx and dx, g is global_start. *)
Definition coord1 (start d : R) (g : Z) (half : bool) (i : Z) : R :=
  let i := (i + g)%Z in if half then start + (IZR i + 1 / 2 - IZR NG) * d else start + (IZR (i - NG)) * d.
(** the locations: which directions are centred; FACE1-3, CENT and CORN of decs.h *)
Inductive loc := FACE1 | FACE2 | FACE3 | CENT | CORN.
Definition centred (l : loc) (dir : nat) : bool :=
  match l, dir with
  | FACE1, 1%nat | FACE2, 2%nat | FACE3, 3%nat => false
  | CORN, _ => false
  | _, _ => true
  end.
(** one direction of Xtoijk *)
Definition Xto1 (start d : R) (g : Z) (x : X) : option Z := to_int ((x - Fin start) / Fin d + Fin (IZR NG) - Fin (IZR g))%X.
(** three directions *)
Record grid := { start : nat -> R; dx : nat -> R; gs : nat -> Z }.
Definition coord (m : grid) (l : loc) (ijk : nat -> Z) : nat -> R :=
  fun dir => coord1 (start m dir) (dx m dir) (gs m dir) (centred l dir) (ijk dir).
Definition Xtoijk (m : grid) (x : nat -> X) (dir : nat) : option Z := Xto1 (start m dir) (dx m dir) (gs m dir) (x dir).

(** ** Spectral bins *)
Inductive outcome := Recorded (th phi nu : Z) | Skipped | Undefined.
(** C's fmod *)
Definition fmod (x m : R) : R := x - IZR (truncZ (x / m)) * m.
(** log: minus infinity at zero, not a number below *)
Definition xlog (x : R) : X := if Rltb 0 x then Fin (ln x) else if Reqb x 0 then NInf else NaN.
Section Spec.
(** numbers of bins and the frequency range *)
Variables NTH NPHI NU_BINS_SPEC : Z.
Variables numin numax : R.
Definition dth : R := PI / IZR NTH.
Definition dphi : R := 2 * PI / IZR NPHI.
Definition dlnu : R := (ln numax - ln numin) / IZR NU_BINS_SPEC.
Definition choose (a b c : option Z) : outcome :=
  match a, b, c with
  | Some th, Some phi, Some nu => if (0 <=? nu)%Z && (nu <? NU_BINS_SPEC)%Z then Recorded th phi nu else Skipped
  | _, _, _ => Undefined
  end.
(** get_nuLnu_bin; th is what bl_coord gives *)
Definition get_nuLnu_bin (th x3 : R) : option Z * option Z :=
  (to_int (Fin (th / dth)), to_int (Fin (fmod x3 (2 * PI) / dphi))).
(** record_superphoton, for frequency nu (448-453) *)
Definition record_superphoton (th x3 nu : R) : outcome :=
  let b := get_nuLnu_bin th x3 in choose (fst b) (snd b) (to_int ((xlog nu - Fin (ln numin)) / Fin dlnu)%X).
(** atan2 *)
Definition atan2 (y x : R) : R :=
  if Rltb 0 x then atan (y / x)
  else if Rltb x 0 then (if Rltb y 0 then atan (y / x) - PI else atan (y / x) + PI)
  else if Rltb 0 y then PI / 2 else if Rltb y 0 then - (PI / 2) else 0.
(** cart_to_sph; None where z / r is not a number *)
Definition cart_to_sph (x y z : R) : option (R * R) :=
  let r := sqrt (x * x + y * y + z * z) in
  if Reqb r 0 then None
  else let ph := atan2 y x in Some (acos (z / r), if Rltb ph 0 then ph + 2 * PI else ph).
(** bin_superphoton_direction, 626-661; K is what its line 647 gives *)
Definition bin_direction (x y z nu : R) : outcome :=
  match cart_to_sph x y z with
  | None => Undefined
  | Some (th, phi) => choose (to_int (Fin (th / dth))) (to_int (Fin (phi / dphi))) (to_int ((xlog nu - Fin (ln numin)) / Fin dlnu)%X)
  end.
End Spec.

(** ** Bins of the local angular distributions *)
(** 110-117: MY_MAX(0, MY_MIN(n - 1, x / d)) converted to int *)
Definition local_bin (n : Z) (x : X) (d : R) : option Z := to_int (xmax (Fin 0) (xmin (Fin (IZR (n - 1))) (x / Fin d)%X)).
(** 82-107: direction cosines to the first (a = 1) and second (a = 2) basis vector; g is
    gcov at the zone, all indices from 1 to 3 *)
Definition sum3 (f : nat -> R) : R := f 1%nat + f 2%nat + f 3%nat.
Definition knorm (g : nat -> nat -> R) (Kcon : nat -> R) : R :=
  / (Rabs (sqrt (sum3 (fun mu => sum3 (fun nu => Rabs (g mu nu * Kcon mu * Kcon mu))))) + SMALL).
Definition costh (g : nat -> nat -> R) (Kcov Kcon : nat -> R) (a : nat) : R :=
  sum3 (fun mu => (if Nat.eqb mu a then 1 / (sqrt (Rabs (g a a)) + SMALL) else 0) * Kcov mu) * knorm g Kcon.
Definition mu_bin (NMU : Z) (c : X) : option Z := local_bin NMU (c + Fin 1)%X (2 / IZR NMU).
