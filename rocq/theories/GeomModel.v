(** Metrics, four-vectors and velocity representations: core/metric.c,
    core/phys.c:58-62, 138-180, core/tetrads.c, core/fixup.c:22-60, 244-254,
    core/bounds.c:250-290, core/coord.c:330-387, over exact reals.
    4-vectors are functions of an index 0..3, matrices of two. *)
From Coq Require Import Reals Bool.
From Verif Require Import RLib FluxModel.
Open Scope R_scope.

Definition vec := nat -> R.
Definition mat := nat -> nat -> R.
(** for (mu = 0; mu < NDIM; mu++) s += f[mu], starting from 0 *)
Definition sum4 (f : nat -> R) : R := f 0%nat + f 1%nat + f 2%nat + f 3%nat.
Definition sum3 (f : nat -> R) : R := f 1%nat + f 2%nat + f 3%nat.

(** metric.c:67-88 *)
Definition lower (ucon : vec) (gcov : mat) : vec := fun i =>
  gcov i 0%nat * ucon 0%nat + gcov i 1%nat * ucon 1%nat + gcov i 2%nat * ucon 2%nat + gcov i 3%nat * ucon 3%nat.
Definition raise (ucov : vec) (gcon : mat) : vec := fun i =>
  gcon i 0%nat * ucov 0%nat + gcon i 1%nat * ucov 1%nat + gcon i 2%nat * ucov 2%nat + gcon i 3%nat * ucov 3%nat.

(** metric.c:186-193; [m] is the flat array *)
Definition MINOR (m : nat -> R) (r0 r1 r2 c0 c1 c2 : nat) : R :=
  let e r c := m (4 * r + c)%nat in
  e r0 c0 * (e r1 c1 * e r2 c2 - e r2 c1 * e r1 c2) -
  e r0 c1 * (e r1 c0 * e r2 c2 - e r2 c0 * e r1 c2) +
  e r0 c2 * (e r1 c0 * e r2 c1 - e r2 c0 * e r1 c1).
(** metric.c:195-215 *)
Definition adjoint (m : nat -> R) (i : nat) : R :=
  match i with
  | 0 => MINOR m 1 2 3 1 2 3
  | 1 => - MINOR m 0 2 3 1 2 3
  | 2 => MINOR m 0 1 3 1 2 3
  | 3 => - MINOR m 0 1 2 1 2 3
  | 4 => - MINOR m 1 2 3 0 2 3
  | 5 => MINOR m 0 2 3 0 2 3
  | 6 => - MINOR m 0 1 3 0 2 3
  | 7 => MINOR m 0 1 2 0 2 3
  | 8 => MINOR m 1 2 3 0 1 3
  | 9 => - MINOR m 0 2 3 0 1 3
  | 10 => MINOR m 0 1 3 0 1 3
  | 11 => - MINOR m 0 1 2 0 1 3
  | 12 => - MINOR m 1 2 3 0 1 2
  | 13 => MINOR m 0 2 3 0 1 2
  | 14 => - MINOR m 0 1 3 0 1 2
  | _ => MINOR m 0 1 2 0 1 2
  end%nat.
(** metric.c:217-220 *)
Definition determinant (m : nat -> R) : R :=
  m 0%nat * MINOR m 1 2 3 1 2 3 - m 1%nat * MINOR m 1 2 3 0 2 3 +
  m 2%nat * MINOR m 1 2 3 0 1 3 - m 3%nat * MINOR m 1 2 3 0 1 2.
(** metric.c:222-232: (inverse, determinant) *)
Definition invert (m : nat -> R) : (nat -> R) * R :=
  let det := determinant m in
  let inv_det := 1 / det in
  (fun i => adjoint m i * inv_det, det).
(** &g[0][0]: the two-index array as a flat one and back *)
Definition flat (g : mat) : nat -> R := fun n => g (Nat.div n 4) (Nat.modulo n 4).
Definition unflat (m : nat -> R) : mat := fun i j => m (4 * i + j)%nat.
(** metric.c:11-14: (gcon, gdet) *)
Definition gcon_func (gcov : mat) : mat * R :=
  let '(inv, gdet) := invert (flat gcov) in (unflat inv, sqrt (Rabs gdet)).
(** coord.c:323-327 *)
Definition lapse (gcon : mat) : R := 1 / sqrt (- gcon 0%nat 0%nat).

(** metric.c:118-123 *)
Definition bl_gdet (a r th : R) : R :=
  let a2 := a * a in let r2 := r * r in
  r * r * Rabs (sin th) * (1 + 5 / 10 * (a2 / r2) * (1 + cos (2 * th))).
(** metric.c:125-149 *)
Definition bl_gcov (a r th : R) : mat := fun i j =>
  let sth := Rabs (sin th) in let s2 := sth * sth in let cth := cos th in
  let a2 := a * a in let r2 := r * r in
  let DD := 1 - 2 / r + a2 / r2 in
  let mu := 1 + a2 * cth * cth / r2 in
  match i, j with
  | 0%nat, 0%nat => - (1 - 2 / (r * mu))
  | 0%nat, 3%nat | 3%nat, 0%nat => - 2 * a * s2 / (r * mu)
  | 1%nat, 1%nat => mu / DD
  | 2%nat, 2%nat => r2 * mu
  | 3%nat, 3%nat => r2 * sth * sth * (1 + a2 / r2 + 2 * a2 * s2 / (r2 * r * mu))
  | _, _ => 0
  end.
(** metric.c:151-184; SINGSMALL = 1e-20 (decs.h:110-111) *)
Definition bl_gcon (a r th : R) : mat := fun i j =>
  let sth := sin th in let cth := cos th in
  let sth := if Rltb (Rabs sth) (/ 10 ^ 20)
             then (if Rleb 0 sth then / 10 ^ 20 else - / 10 ^ 20) else sth in
  let a2 := a * a in let r2 := r * r in let r3 := r2 * r in
  let DD := 1 - 2 / r + a2 / r2 in
  let mu := 1 + a2 * cth * cth / r2 in
  match i, j with
  | 0%nat, 0%nat => -1 - 2 * (1 + a2 / r2) / (r * DD * mu)
  | 0%nat, 3%nat | 3%nat, 0%nat => - 2 * a / (r3 * DD * mu)
  | 1%nat, 1%nat => DD / mu
  | 2%nat, 2%nat => 1 / (r2 * mu)
  | 3%nat, 3%nat => (1 - 2 / (r * mu)) / (r2 * sth * sth * DD)
  | _, _ => 0
  end.

(** coord.c:342-369: the Kerr-Schild metric before the coordinate map *)
Definition ks_gcov (a r th : R) : mat := fun i j =>
  let cth := cos th in let sth := sin th in
  let s2 := sth * sth in
  let rho2 := r * r + a * a * cth * cth in
  match i, j with
  | 0%nat, 0%nat => -1 + 2 * r / rho2
  | 0%nat, 1%nat | 1%nat, 0%nat => 2 * r / rho2
  | 0%nat, 3%nat | 3%nat, 0%nat => - 2 * a * r * s2 / rho2
  | 1%nat, 1%nat => 1 + 2 * r / rho2
  | 1%nat, 3%nat | 3%nat, 1%nat => - a * s2 * (1 + 2 * r / rho2)
  | 2%nat, 2%nat => rho2
  | 3%nat, 3%nat => s2 * (rho2 + a * a * s2 * (1 + 2 * r / rho2))
  | _, _ => 0
  end.
(** coord.c:371-386: gcov in code coordinates, [dxdX] from set_dxdX *)
Definition to_code (gks dxdX : mat) : mat := fun mu nu =>
  sum4 (fun lam => sum4 (fun kap => gks lam kap * dxdX lam mu * dxdX kap nu)).

(** metric.c:20-64.  [set_gcov] is a parameter; DELTA = 1e-5. *)
Definition DELTA : R := / 10 ^ 5.
Definition bump (X : vec) (k : nat) (d : R) : vec := fun l => if Nat.eqb l k then X l + d else X l.
Definition dgcov (set_gcov : vec -> mat) (X : vec) (i j k : nat) : R :=
  let Xh := bump X k DELTA in
  let Xl := bump X k (- DELTA) in
  (set_gcov Xh i j - set_gcov Xl i j) / (Xh k - Xl k).
Definition conn_low (set_gcov : vec -> mat) (X : vec) (i j k : nat) : R :=
  let c := dgcov set_gcov X in
  5 / 10 * (c j i k + c k i j - c k j i).
Definition conn_func (set_gcov : vec -> mat) (gcon : mat) (X : vec) (i j k : nat) : R :=
  sum4 (fun l => gcon i l * conn_low set_gcov X l j k).

(** phys.c:154-180: [None] when the function reports a failure; [U m] is
    Pr[U1-1+m], m = 1..3 *)
Definition qsq_of (gcov : mat) (U : vec) : R :=
  gcov 1%nat 1%nat * U 1%nat * U 1%nat + gcov 2%nat 2%nat * U 2%nat * U 2%nat + gcov 3%nat 3%nat * U 3%nat * U 3%nat +
  2 * (gcov 1%nat 2%nat * U 1%nat * U 2%nat + gcov 1%nat 3%nat * U 1%nat * U 3%nat + gcov 2%nat 3%nat * U 2%nat * U 3%nat).
Definition mhd_gamma_calc (gcov : mat) (U : vec) : option R :=
  let qsq := qsq_of gcov U in
  if Rltb qsq 0 then
    if Rltb (/ 10 ^ 10) (Rabs qsq) then None else Some (sqrt (1 + / 10 ^ 10))
  else Some (sqrt (1 + qsq)).
(** phys.c:138-151; [None]: fail(FAIL_GAMMA) is called *)
Definition ucon_calc (gcov gcon : mat) (alpha : R) (U : vec) : option vec :=
  match mhd_gamma_calc gcov U with
  | None => None
  | Some gamma => Some (fun j => if Nat.eqb j 0 then gamma / alpha else U j - gamma * alpha * gcon 0%nat j)
  end.
(** fixup.c:22-36 *)
Definition ucon_to_utcon (gcon : mat) (ucon : vec) : vec :=
  let alpha := 1 / sqrt (- gcon 0%nat 0%nat) in
  let beta i := gcon 0%nat i * alpha * alpha in
  let gamma := alpha * ucon 0%nat in
  fun i => if Nat.eqb i 0 then 0 else ucon i + gamma * beta i / alpha.
(** fixup.c:38-60; [v m], m = 1..3 *)
Definition ut_calc_3vel (gcov gcon : mat) (v : vec) : R :=
  let AA := gcov 0%nat 0%nat in
  let BB := 2 * (gcov 0%nat 1%nat * v 1%nat + gcov 0%nat 2%nat * v 2%nat + gcov 0%nat 3%nat * v 3%nat) in
  let CC := qsq_of gcov v in
  let DD := 1 / (AA + BB + CC) in
  let one_over_alpha_sq := - gcon 0%nat 0%nat in
  let DD := if Rltb DD one_over_alpha_sq then one_over_alpha_sq else DD in
  sqrt DD.
(** fixup.c:244-254: (new velocities, flag left alone?) *)
Definition GAMMAMAX : R := 50.
Definition limit_gamma (gcov : mat) (U : vec) : vec * bool :=
  match mhd_gamma_calc gcov U with
  | None => (U, false)
  | Some gamma =>
      if Rltb GAMMAMAX gamma then
        let f := sqrt ((GAMMAMAX * GAMMAMAX - 1) / (gamma * gamma - 1)) in
        (fun i => U i * f, true)
      else (U, true)
  end.
(** bounds.c:250-290; [type] false: 0 (inner), true: 1 (outer).  [None]: a call
    of fail(). *)
Definition inflow_check (gcov gcon : mat) (alpha : R) (U : vec) (type : bool) : option vec :=
  match ucon_calc gcov gcon alpha U with
  | None => None
  | Some ucon =>
      if (Rltb 0 (ucon 1%nat) && negb type) || (Rltb (ucon 1%nat) 0 && type) then
        match mhd_gamma_calc gcov U with
        | None => None
        | Some gamma =>
            let beta1 := gcon 0%nat 1%nat * alpha * alpha in
            let V i := if Nat.eqb i 1 then beta1 / alpha else U i / gamma in
            let vsq := sum3 (fun mu => sum3 (fun nu => gcov mu nu * V mu * V nu)) in
            let vsq := if Rltb (Rabs vsq) (/ 10 ^ 13) then / 10 ^ 13 else vsq in
            let vsq := if Rleb 1 vsq then 1 - 1 / (GAMMAMAX * GAMMAMAX) else vsq in
            let gamma := 1 / sqrt (1 - vsq) in
            Some (fun i => V i * gamma)
        end
      else Some U
  end.

(** tetrads.c:15-33 *)
Definition coord_to_tetrad (Ecov : mat) (K : vec) : vec := fun mu => sum4 (fun nu => Ecov mu nu * K nu).
Definition tetrad_to_coord (Econ : mat) (K : vec) : vec := fun mu => sum4 (fun nu => Econ nu mu * K nu).
(** The double sums over a metric, tetrads.c:54, 98-102, 111-123 *)
Definition dot2 (G : mat) (a b : vec) : R := sum4 (fun mu => sum4 (fun nu => a mu * b nu * G mu nu)).
(** tetrads.c:95-108; [None]: division by zero *)
Definition normalize (G : mat) (V : vec) : option vec :=
  let norm := sqrt (Rabs (dot2 G V V)) in
  if Reqb norm 0 then None else Some (fun mu => V mu / norm).
(** tetrads.c:110-128; [None]: division by zero *)
Definition project_out (G : mat) (a b : vec) : option vec :=
  let b_sq := dot2 G b b in
  let adotb := dot2 G a b in
  if Reqb b_sq 0 then None else Some (fun mu => a mu - b mu * adotb / b_sq).
Definition unit_vec (k : nat) : vec := fun mu => if Nat.eqb mu k then 1 else 0.
(** tetrads.c:43-50 (the division is by the root of |G[k][k]|) *)
Definition xness (G : mat) (trial : vec) (k : nat) : R :=
  Rabs (sum4 (fun mu => G k mu * trial mu / sqrt (Rabs (G k k)))).
Notation "'do' x <- e ; f" := (match e with Some x => f | None => None end)
  (at level 200, x name, e at level 100, f at level 200).
(** tetrads.c:56-72: the four vectors before orthogonalisation *)
Definition start_vectors (G : mat) (U trial : vec) : vec * vec * vec * vec :=
  let n1 := xness G trial 1 in let n2 := xness G trial 2 in let n3 := xness G trial 3 in
  if Rltb (/ 10 ^ 30) (dot2 G trial trial) then
    if Rltb n2 n1 && Rltb n3 n1 then (U, trial, unit_vec 2, unit_vec 3)
    else if Rleb n1 n2 && Rltb n3 n2 then (U, unit_vec 1, trial, unit_vec 3)
    else (U, unit_vec 1, unit_vec 2, trial)
  else (U, unit_vec 1, unit_vec 2, unit_vec 3).
(** tetrads.c:75-84 *)
Definition gram_schmidt (G : mat) (v0 v1 v2 v3 : vec) : option (vec * vec * vec * vec) :=
  do e0 <- normalize G v0;
  do a <- project_out G v1 e0;
  do e1 <- normalize G a;
  do a <- project_out G v2 e0;
  do a <- project_out G a e1;
  do e2 <- normalize G a;
  do a <- project_out G v3 e0;
  do a <- project_out G a e1;
  do a <- project_out G a e2;
  do e3 <- normalize G a;
  Some (e0, e1, e2, e3).
(** tetrads.c:86-93 *)
Definition make_tetrad (G : mat) (U trial : vec) : option (mat * mat) :=
  let '(v0, v1, v2, v3) := start_vectors G U trial in
  do e <- gram_schmidt G v0 v1 v2 v3;
  let '(e0, e1, e2, e3) := e in
  let Econ : mat := fun a => match a with 0%nat => e0 | 1%nat => e1 | 2%nat => e2 | _ => e3 end in
  Some (Econ, fun a mu => if Nat.eqb a 0 then lower (Econ a) G mu * -1 else lower (Econ a) G mu).

(** tetrads.c:131-145; [None]: division by zero *)
Definition normalize_null (G : mat) (K : vec) : option vec :=
  let A := G 0%nat 0%nat in
  let B := sum3 (fun mu => 2 * G mu 0%nat * K mu) in
  let C := sum3 (fun mu => sum3 (fun nu => G mu nu * K mu * K nu)) in
  if Reqb A 0 then None
  else Some (fun mu => if Nat.eqb mu 0 then (- B - sqrt (Rabs (B * B - 4 * A * C))) / (2 * A) else K mu).
(** tetrads.c:147-161 *)
Definition normalize_null_cov (G : mat) (K : vec) : option vec :=
  let A := G 0%nat 0%nat in
  let B := sum3 (fun mu => 2 * G mu 0%nat * K mu) in
  let C := sum3 (fun mu => sum3 (fun nu => G mu nu * K mu * K nu)) in
  if Reqb A 0 then None
  else Some (fun mu => if Nat.eqb mu 0 then (- B + sqrt (Rabs (B * B - 4 * A * C))) / (2 * A) else K mu).
