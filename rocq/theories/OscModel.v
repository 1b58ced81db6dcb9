(** Neutrino oscillations.  core/oscillations.c, core/rad_utils.c:754-763,
    core/io.c:1080, core/step.c:75-87. *)
From Coq Require Import Reals Bool ZArith List.
From Verif Require Import RLib.
Import ListNotations.
Open Scope R_scope.

(** decs.h:87, 166-171; RAD_NUM_TYPES is four, the only value with oscillations *)
Definition SMALL : R := / 10 ^ 20.
Definition TYPE_TRACER : Z := -1.
Definition NU_ELECTRON : Z := 0.
Definition ANTINU_ELECTRON : Z := 1.
Definition NU_HEAVY : Z := 2.
Definition ANTINU_HEAVY : Z := 3.
Definition RAD_NUM_TYPES : Z := 4.

(** A packet: type, weight, whether it has oscillated; its position and momentum enter
    through the bins get_local_angle_bins (73-118) gives: zone of the coarse grid and one
    direction bin per basis vector. *)
Record pk := mkpk { ty : Z; wt : R; osc : bool; cell : nat * nat; mub : bool -> nat }.
Definition with_type (p : pk) (t : Z) : pk := mkpk t (wt p) true (cell p) (mub p).

(** rad_utils.c:754-763 *)
Definition nu_is_heavy (t : Z) : bool := Z.eqb t NU_HEAVY || Z.eqb t ANTINU_HEAVY.

Definition ceqb (a b : nat * nat) : bool := Nat.eqb (fst a) (fst b) && Nat.eqb (snd a) (snd b).
(** accumulate_local_angles, 39-57: sums over all packets (of all processes, 59-61) that
    are not tracers; basis b is false for the first, true for the second. *)
Fixpoint sum_if (f : pk -> R) (c : pk -> bool) (l : list pk) : R :=
  match l with [] => 0 | p :: l => (if c p then f p else 0) + sum_if f c l end.
Definition in_bin (b : bool) (z : nat * nat) (imu : nat) (p : pk) : bool :=
  negb (Z.eqb (ty p) TYPE_TRACER) && ceqb (cell p) z && Nat.eqb (mub p b) imu.
Definition local_angles (l : list pk) (b : bool) (z : nat * nat) (t : Z) (imu : nat) : R :=
  sum_if wt (fun p => in_bin b z imu p && Z.eqb (ty p) t) l.
Definition local_Ns (l : list pk) (b : bool) (z : nat * nat) (imu : nat) : R := sum_if (fun _ => 1) (in_bin b z imu) l.
Definition local_wsqr (l : list pk) (b : bool) (z : nat * nat) (imu : nat) : R := sum_if (fun p => wt p * wt p) (in_bin b z imu) l.

(** compute_local_gnu, 121-150 *)
Definition compute_gnu (f : Z -> R) (Ns w2 : R) : R :=
  let wmean := (Rabs (f NU_ELECTRON) + Rabs (f ANTINU_ELECTRON) + Rabs (f NU_HEAVY) + Rabs (f ANTINU_HEAVY)) / (Ns + SMALL) in
  let wb2N := Ns * wmean * wmean in
  let stddev := sqrt (wb2N + Ns * (w2 - wb2N) / (Rabs (Ns - 1) + SMALL)) in
  let g := (f NU_ELECTRON - f ANTINU_ELECTRON) - 1 / 2 * (f NU_HEAVY - f ANTINU_HEAVY) in
  if Rltb stddev (Rabs g) then g else 0.
Definition Gnu (l : list pk) (b : bool) (z : nat * nat) (imu : nat) : R :=
  compute_gnu (fun t => local_angles l b z t imu) (local_Ns l b z imu) (local_wsqr l b z imu).

(** The global array local_moments: A and B for each basis and zone.  It is zero at
    start (static storage) and nothing sets it to zero later. *)
Definition moments := bool -> nat * nat -> R * R.
Definition moments0 : moments := fun _ _ => (0, 0).
(** compute_local_moments, 154-173: the loop adds to what is there *)
Definition add_moment (g : R) (m : R * R) : R * R :=
  if Rltb g 0 then (fst m + Rabs g, snd m) else if Rltb 0 g then (fst m, snd m + Rabs g) else m.
Section Osc.
(** LOCAL_ANGLES_NMU, and the compile-time switch FORCE_EQUIPARTITION *)
Variable NMU : nat.
Variable FORCE : bool.
Definition compute_moments (l : list pk) (m : moments) : moments := fun b z =>
  fold_left (fun a imu => add_moment (Gnu l b z imu) a) (seq 0 NMU) (m b z).
(** 175-182 *)
Definition b_osc (m : moments) (z : nat * nat) : bool :=
  Rltb (Rabs (snd (m false z) - fst (m false z))) (Rabs (snd (m true z) - fst (m true z))).

(** 185-222: the survival probability of a packet, None where it cannot oscillate *)
Definition p_survival (heavy : bool) (A B G : R) : option R :=
  if (negb (Reqb G 0) || FORCE) && negb (Reqb A 0) && negb (Reqb B 0) then
    let A_is_shallow := Rltb A B in
    let shallow := if A_is_shallow then A else B in
    let deep := if A_is_shallow then B else A in
    let in_shallow := (A_is_shallow && Rltb G 0) || (negb A_is_shallow && Rltb 0 G) in
    let peq := if heavy then 2 / 3 else 1 / 3 in
    Some (if FORCE then peq else if in_shallow then peq else 1 - (1 - peq) * shallow / (deep + SMALL))
  else None.
Definition survival (m : moments) (l : list pk) (p : pk) : option R :=
  let b := b_osc m (cell p) in
  p_survival (nu_is_heavy (ty p)) (fst (m b (cell p))) (snd (m b (cell p))) (Gnu l b (cell p) (mub p b)).
(** 223-233 *)
Definition flip (t : Z) : Z := ((t + RAD_NUM_TYPES / 2) mod RAD_NUM_TYPES)%Z.
Definition oscillate1 (m : moments) (l : list pk) (p : pk) (rand : R) : pk :=
  if Z.eqb (ty p) TYPE_TRACER then p
  else match survival m l p with
       | Some ps => if Rltb rand (1 - ps) then with_type p (flip (ty p)) else p
       | None => p
       end.
(** the packets in turn, each with its random number *)
Fixpoint oscillate (m : moments) (l : list pk) (ps : list (pk * R)) : list pk :=
  match ps with [] => [] | (p, r) :: ps => oscillate1 m l p r :: oscillate m l ps end.

(** Every call of accumulate_local_angles, by the oscillation step (step.c:83) and by
    every dump (io.c:1080), with the packets present at it. *)
Definition history (h : list (list pk)) : moments := fold_left (fun m l => compute_moments l m) h moments0.
End Osc.
