(** Characteristic speeds and light crossing times.  core/phys.c:182-347 (mhd_vchar),
    core/coord.c:476-536 (dt_light, dt_light_min), for the ideal gas (EOS_TYPE_GAMMA); reals are
    exact.  What C computes as NaN is None. *)
From Coq Require Import Reals Bool List.
From Verif Require Import RLib FluxModel GeomModel EosGModel FloorModel.
Import ListNotations.
Open Scope R_scope.

(** the result of mhd_vchar: ( *vmax, *vmin ), or the fail() it calls, or a division by 0 *)
Inductive vres := Speeds (vmax vmin : R) | FailNeg | FailSup | FailDiscr | DivZero.

Section Speed.
Variables (gcon : mat) (gam : R).

(** unit covector: Acov[js] = 1, the rest 0 *)
Definition unit_cov (js : nat) : vec := fun mu => if Nat.eqb mu js then 1 else 0.

(** eos_gamma.c:55-59 squared (phys.c:221-222); NaN if the enthalpy is 0 or the square negative *)
Definition cs2_of (rho u : R) : option R :=
  let ef := enthalpy_rho0_u gam rho u in
  if Reqb ef 0 then None
  else if Rltb (gam * pressure_rho0_u gam rho u / ef) 0 then None
  else let cs := sound_speed_rho0_u gam rho u in Some (cs * cs).
(** 213-228: cs2 and cms2 *)
Definition cms2_of (p : prims) (q : state) : option (R * R) :=
  let bsq := dot (b_con q) (b_cov q) in
  let r := Rabs (rho p + SMALL) in
  let u := Rabs (uu p + SMALL) in
  let ef := enthalpy_rho0_u gam r u in
  match cs2_of r u with
  | None => None
  | Some cs2 =>
      let ee := bsq + Rabs ef + SMALL in
      let va2 := MY_MAX 0 (bsq / ee) in
      let cms2 := cs2 + va2 - cs2 * va2 in
      Some (cs2, if Rltb (Rabs cms2) SMALL then SMALL else cms2)
  end.
(** 300-346 *)
Definition speeds (q : state) (js : nat) (cms2 : R) : vres :=
  let Acov := unit_cov js in let Acon := raise Acov gcon in
  let Bcov := unit_cov 0 in let Bcon := raise Bcov gcon in
  let Asq := dot Acon Acov in
  let Bsq := dot Bcon Bcov in
  let Au := dot Acov (ucon q) in
  let Bu := dot Bcov (ucon q) in
  let AB := dot Acon Bcov in
  let Au2 := Au * Au in
  let Bu2 := Bu * Bu in
  let AuBu := Au * Bu in
  let A := Bu2 - (Bsq + Bu2) * cms2 in
  let B := 2 * (AuBu - (AB + AuBu) * cms2) in
  let C := Au2 - (Asq + Au2) * cms2 in
  let discr := B * B - 4 * A * C in
  let small := Rltb discr 0 && Rltb (- / 10 ^ 10) discr in
  if negb small && Rltb discr (- / 10 ^ 10) then FailDiscr
  else if Reqb A 0 then DivZero
  else
    let discr := sqrt (if small then 0 else discr) in
    let vp := - (- B + discr) / (2 * A) in
    let vm := - (- B - discr) / (2 * A) in
    if Rltb vm vp then Speeds vp vm else Speeds vm vp.
(** 182-347; fail() does not return *)
Definition mhd_vchar (p : prims) (q : state) (js : nat) : vres :=
  match cms2_of p q with
  | None => FailNeg
  | Some (cs2, cms2) =>
      if Rltb cs2 0 || Rltb cms2 0 then FailNeg
      else if Rltb 1 cms2 || Rltb 1 cs2 then FailSup
      else speeds q js cms2
  end.
End Speed.

Section Light.
(** zone widths *)
Variable dx : nat -> R.
(** coord.c:496-512 for direction [mu], gcon at the zone centre *)
Definition light_phase_speed (gcon : mat) (mu : nat) : R :=
  let g00 := gcon 0%nat 0%nat in
  let g0m := gcon 0%nat mu in
  let disc := g0m * g0m - gcon mu mu * g00 in
  if Rleb 0 disc then
    let cplus := Rabs ((- g0m + sqrt disc) / g00) in
    let cminus := Rabs ((- g0m - sqrt disc) / g00) in
    MY_MAX cplus cminus
  else SMALL.
(** 491-519: dt_light[i][j] *)
Definition dt_light (gcon : mat) : R :=
  fold_left (fun d mu => let c := dx mu / light_phase_speed gcon mu in if Rltb c d then c else d) [1; 2; 3]%nat (10 ^ 30).
(** 493, 514, 520: dt_light_local *)
Definition dt_local (gcon : mat) : R :=
  1 / fold_left (fun s mu => s + 1 / (dx mu / light_phase_speed gcon mu)) [1; 2; 3]%nat 0.
(** 476, 521-522, 536: the minimum over the zones of all processes *)
Definition dt_light_min (zones : list mat) : R :=
  fold_left (fun d gcon => let l := dt_local gcon in if Rltb l d then l else d) zones (1 / SMALL).
End Light.
