(** Passive scalars: core/passive.c:13-35, their parts of core/phys.c:12-54, core/utop.c:183-192,
    core/fixup.c:108-231 and core/eos_stellar_collapse.c:563-579, and their transport by
    core/step.c:207-218, 300-345, 396-427.  Reals are exact.  The eight basic variables are
    indices 0-7 and scalar e has index 8 + e (decs.h:128-140). *)
From Coq Require Import Reals Bool ZArith List.
From Verif Require Import RLib FluxModel TabModel InvModel.
Import ListNotations.
Open Scope R_scope.

Definition prims := nat -> R.
Definition RHO := 0%nat.
Definition UU := 1%nat.
(** PASSIVE_START, YE, YE_EM and ATM: decs.h:139, 144-147 *)
Definition PASSIVE_START := 8%nat.
Definition YE := 8%nat.
Definition YE_EM := 9%nat.
Definition ATM := 10%nat.
Definition put (p : prims) (i : nat) (x : R) : prims := fun j => if Nat.eqb j i then x else p j.

(** phys.c:45-54: flux of a scalar of value [P], given the flux of mass and u^dir without
    the factor [g].  [number]: PASSTYPE_NUMBER, otherwise PASSTYPE_INTRINSIC. *)
Definition scalar_flux (number : bool) (g mass ucon_dir P : R) : R :=
  (if number then mass * P else P * ucon_dir) * g.
(** utop.c:184-191 *)
Definition scalar_prim (number : bool) (g lapse gamma U U_rho : R) : R :=
  if number then U / U_rho else lapse * U / (gamma * g).

(** ** The floors *)
(** passive.c:13-24 for [n] scalars *)
Definition fixup_passive (n : nat) (number : nat -> bool) (hook : nat -> option (prims -> prims -> prims)) (pv pre : prims) : prims :=
  fold_left (fun pv e =>
    let ip := (PASSIVE_START + e)%nat in
    let pv := if number e then put pv ip (pre ip) else pv in
    match hook e with Some f => f pv pre | None => pv end) (seq 0 n) pv.
(** eos_stellar_collapse.c:563-579; [yes] is the axis of Ye, catch_ye is InvModel.catch_in *)
Definition do_ye_fixup (yes : axis) (pv pre : prims) : prims := put pv YE (catch_in yes (pv YE)).
Definition do_ye_em_fixup (yes : axis) (pv pre : prims) : prims := put pv YE_EM (catch_in yes (pv YE_EM)).
Definition do_atm_fixup (pv pre : prims) : prims :=
  let pv := if Rltb (pv ATM) 0 then put pv ATM 0 else pv in
  if Rltb 1 (pv ATM) then put pv ATM 1 else pv.
(** passive.c:25-35 with a tabulated equation of state; [mks]: METRIC == MKS *)
Definition init_passives (yes : axis) (mks : bool) (e : nat) : option (prims -> prims -> prims) :=
  match e with
  | 0%nat => Some (do_ye_fixup yes)
  | 1%nat => Some (do_ye_em_fixup yes)
  | 2%nat => if mks then Some do_atm_fixup else None
  | _ => None
  end.
(** main.c:313-319; the other types are [set] by the problem or are 0, PASSTYPE_INTRINSIC *)
Definition init_types (mks : bool) (set : nat -> bool) (e : nat) : bool :=
  match e with 0%nat => true | 1%nat => true | 2%nat => if mks then true else set 2%nat | _ => set e end.

(** What the floors did, fixup.c:133-220: nothing; the drift frame, leaving these basic
    variables; or mass [rho_add] and energy [u_add] added in the normal frame, where u^t is
    [ut_add], to gas of u^t [ut], the inversion then failing, or giving these basic variables and this gamma. *)
Inductive floors :=
| Above
| Drift (basic : prims)
| Normal (rho_add u_add ut ut_add : R) (inverted : option (prims * R)).
Definition basics (basic p : prims) : prims := fun ip => if Nat.ltb ip PASSIVE_START then basic ip else p ip.
(** fixup.c:133-220 on [n] scalars: 198-219 with phys.c:45-54 and utop.c:184-191.  The
    magnetic field an inversion that fails writes back (utop.c:29) is taken to be unchanged. *)
Definition apply_floors (number : nat -> bool) (g lapse : R) (f : floors) (p : prims) : prims :=
  match f with
  | Above => p
  | Drift basic => basics basic p
  | Normal rho_add u_add ut ut_add inverted =>
      let Utot_rho := p RHO * ut * g + rho_add * ut_add * g in
      let Padd ip := if Nat.eqb ip RHO then rho_add else if Nat.eqb ip UU then u_add else 0 in
      let Utot ip := scalar_flux (number (ip - PASSIVE_START)%nat) g (p RHO * ut) ut (p ip)
                     + scalar_flux (number (ip - PASSIVE_START)%nat) g (Padd RHO * ut_add) ut_add (Padd ip) in
      let p := fun ip => p ip + Padd ip in
      match inverted with
      | None => p
      | Some (basic, gamma) => fun ip =>
          if Nat.ltb ip PASSIVE_START then basic ip
          else scalar_prim (number (ip - PASSIVE_START)%nat) g lapse gamma (Utot ip) Utot_rho
      end
  end.
(** fixup.c:129-131, 222-227 (COLD_FLOORS with POLYTROPE_FALLBACK): [thresh] is
    RHOEPS * rho_poly_thresh, [minu] EOS_SC_get_minu *)
Definition cold (thresh : R) (minu : R -> R -> R) (rhosave : R) (p : prims) : prims :=
  if Rltb rhosave thresh then put p UU (minu (p RHO) (p YE)) else p.
(** fixup.c:108-231 with a tabulated equation of state *)
Definition fix_zone (n : nat) (number : nat -> bool) (hook : nat -> option (prims -> prims -> prims)) (g lapse thresh : R) (minu : R -> R -> R) (f : floors) (p : prims) : prims :=
  fixup_passive n number hook (cold thresh minu (p RHO) (apply_floors number g lapse f p)) p.

(** ** Transport *)
(** a state at a face or in a zone: density, four-velocity, scalars by index, and the rest,
    which only enters the characteristic speeds *)
Record point := mkpt { p_rho : R; p_ucon : nat -> R; p_scalar : nat -> R; p_rest : prims }.
(** phys.c:24, 45-54, components RHO and those of the scalars *)
Definition primtoflux (number : nat -> bool) (g : R) (dir : nat) (P : point) (ip : nat) : R :=
  let mass := p_rho P * p_ucon P dir in
  if Nat.eqb ip RHO then mass * g else scalar_flux (number (ip - PASSIVE_START)%nat) g mass (p_ucon P dir) (p_scalar P ip).
Section Step.
Variables (number : nat -> bool) (vchar : nat -> point -> R * R) (dx1 dx2 dx3 : R).
(** step.c:300-345: the flux through the lower face of a zone in direction [dir], from the
    upper edge of the zone before and its own lower edge *)
Definition face_flux (dir : nat) (gface : Z -> Z -> Z -> R) (before own : Z -> Z -> Z -> point) (i j k : Z) (ip : nat) : R :=
  fst (lr_to_flux point (primtoflux number (gface i j k)) (vchar dir) (gface i j k) dir (before i j k) (own i j k)) ip.
(** its greatest characteristic speed, *maxSpeed of step.c:426 *)
Definition face_speed (dir : nat) (gface : Z -> Z -> Z -> R) (before own : Z -> Z -> Z -> point) (i j k : Z) : R :=
  snd (lr_to_flux point (primtoflux number (gface i j k)) (vchar dir) (gface i j k) dir (before i j k) (own i j k)).
Definition F1 gface (lo1 hi1 : Z -> Z -> Z -> point) : field := face_flux 1 gface (fun i j k => hi1 (i - 1)%Z j k) lo1.
Definition F2 gface (lo2 hi2 : Z -> Z -> Z -> point) : field := face_flux 2 gface (fun i j k => hi2 i (j - 1)%Z k) lo2.
Definition F3 gface (lo3 hi3 : Z -> Z -> Z -> point) : field := face_flux 3 gface (fun i j k => hi3 i j (k - 1)%Z) lo3.
(** step.c:207-220: the conserved variables of a zone after a step, for RHO and the scalars,
    and the scalar got from them when the inversion succeeds (utop.c:184-191) *)
Definition advanced (Dt g : R) (g1 g2 g3 : Z -> Z -> Z -> R) (lo1 hi1 lo2 hi2 lo3 hi3 : Z -> Z -> Z -> point) (S : nat -> R) (Pi : point) (i j k : Z) (ip : nat) : R :=
  update Dt dx1 dx2 dx3 (F1 g1 lo1 hi1) (F2 g2 lo2 hi2) (F3 g3 lo3 hi3) (primtoflux number g 0 Pi) (source g S) i j k ip.
Definition scalar_after (Dt g lapse gamma : R) g1 g2 g3 lo1 hi1 lo2 hi2 lo3 hi3 S Pi i j k (ip : nat) : R :=
  let U := advanced Dt g g1 g2 g3 lo1 hi1 lo2 hi2 lo3 hi3 S Pi i j k in
  scalar_prim (number (ip - PASSIVE_START)%nat) g lapse gamma (U ip) (U RHO).
End Step.
