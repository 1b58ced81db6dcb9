(** Floors.  core/fixup.c:83-98, 108-257 for the ideal gas (EOS_TYPE_GAMMA) without ELECTRONS
    (see ElecModel for their part) and passive scalars; core/phys.c:12-92, 130-135.
    The metric is the code's (gcov, gcon, alpha, sqrt(-g)); reals are exact. *)
From Coq Require Import Reals Bool.
From Verif Require Import RLib FluxModel GeomModel EosGModel.
Open Scope R_scope.

(** Pr[RHO], Pr[UU], Pr[U1-1+m], Pr[B1-1+m] (m = 1..3) *)
Record prims := mkp { rho : R; uu : R; vel : vec; mag : vec }.
(** U[RHO], U[UU]..U[U3] (index 0..3), U[B1-1+m] *)
Record cons := mkc { D : R; Q : vec; Bc : vec }.
(** struct of_state: ucon, ucov, bcon, bcov *)
Record state := mks { ucon : vec; ucov : vec; b_con : vec; b_cov : vec }.
(** util.c: dot *)
Definition dot (a b : vec) : R := sum4 (fun mu => a mu * b mu).
(** decs.h:87 *)
Notation SMALL := FluxModel.SMALL (only parsing).

Section Zone.
Variables (G gcon : mat) (alpha gdet gam : R).

(** phys.c:130-135, 58-62; [None]: fail() is called *)
Definition get_state (p : prims) : option state :=
  match ucon_calc G gcon alpha (vel p) with
  | None => None
  | Some u => let v := lower u G in let b := bcon (mag p) u v in Some (mks u v b (lower b G))
  end.
(** phys.c:66-92 with dir = 0, magnetic = 0 *)
Definition mhd_calc (p : prims) (q : state) (mu : nat) : R :=
  let r := Rabs (rho p) + SMALL in
  let u := uu p in
  let pres := pressure_rho0_u gam r u in
  let w := pres + r + u in
  let bsq := dot (b_con q) (b_cov q) in
  let eta := w + bsq in
  let ptot := pres + 5 / 10 * bsq in
  eta * ucon q 0%nat * ucov q mu + ptot * (if Nat.eqb 0 mu then 1 else 0) - b_con q 0%nat * b_cov q mu.
(** phys.c:12-55 with dir = 0 *)
Definition primtoflux (p : prims) (q : state) : cons :=
  let d := rho p * ucon q 0%nat in
  mkc (d * gdet)
    (fun mu => (if Nat.eqb mu 0 then mhd_calc p q 0 + d else mhd_calc p q mu) * gdet)
    (fun m => primtoflux_B gdet (mag p) (ucon q) (ucov q) 0 m).

(** 147-154: the drift velocity ucondr *)
Definition betapar (q : state) : R :=
  let bsq := dot (b_con q) (b_cov q) in - b_con q 0%nat / ((bsq + SMALL) * ucon q 0%nat).
Definition ucondr (q : state) : vec :=
  let bsq := dot (b_con q) (b_cov q) in
  let betasq := betapar q * betapar q * bsq in
  let betasqmax := 1 - 1 / (GAMMAMAX * GAMMAMAX) in
  let betasq := MY_MIN betasq betasqmax in
  let gamma := 1 / sqrt (1 - betasq) in
  fun mu => gamma * (ucon q mu + betapar q * b_con q mu).
(** 156-159 *)
Definition Bcon (p : prims) : vec := fun i => if Nat.eqb i 0 then 0 else mag p i.
(** 160-178: the velocity along the field; [p] before, [p'] after the floors *)
Definition vpar (p p' : prims) (q : state) : R :=
  let Bcov := lower (Bcon p) G in
  let udotB := dot (ucon q) Bcov in
  let B := sqrt (dot (Bcon p) Bcov) in
  let wold := enthalpy_rho0_u gam (rho p) (uu p) in
  let QdotB := udotB * wold * ucon q 0%nat in
  let wnew := enthalpy_rho0_u gam (rho p') (uu p') in
  let x := 2 * QdotB / (B * wnew * ucondr q 0%nat + SMALL) in
  x / (ucondr q 0%nat * (1 + sqrt (1 + x * x))).
(** 180-185 *)
Definition vcon (p p' : prims) (q : state) : vec := fun i =>
  if Nat.eqb i 0 then 1
  else vpar p p' q * Bcon p i / (sqrt (dot (Bcon p) (lower (Bcon p) G)) + SMALL) + ucondr q i * (1 / ucondr q 0%nat).
(** 137-196: strongly magnetised *)
Definition strong (p : prims) (q : state) (rhoflr uflr trans : R) : prims :=
  let p' := mkp (MY_MAX (rho p) rhoflr) (MY_MAX (uu p) uflr) (vel p) (mag p) in
  let trans := MY_MIN trans 1 in
  let v := vcon p p' q in
  let ut := ut_calc_3vel G gcon v in
  let utcon := ucon_to_utcon gcon (fun mu => ut * v mu) in
  mkp (rho p') (uu p') (fun i => utcon i * trans + vel p i * (1 - trans)) (mag p').
(** 198-219: weakly magnetised.  [Utoprim] stands for the inversion: conserved variables and
    guess to the primitive variables left in its argument (utop.c; see UtopModel). *)
Definition padd (p : prims) (rhoflr uflr : R) : prims :=
  mkp (MY_MAX 0 (rhoflr - rho p)) (MY_MAX 0 (uflr - uu p)) (fun _ => 0) (fun _ => 0).
Definition cadd (a b : cons) : cons := mkc (D a + D b) (fun m => Q a m + Q b m) (fun m => Bc a m + Bc b m).
Definition padd_to (p a : prims) : prims := mkp (rho p + rho a) (uu p + uu a) (fun m => vel p m + vel a m) (fun m => mag p m + mag a m).
Variable Utoprim : cons -> prims -> prims.
Definition weak (p : prims) (rhoflr uflr : R) : option prims :=
  let a := padd p rhoflr uflr in
  match get_state a, get_state p with
  | Some qa, Some q => Some (Utoprim (cadd (primtoflux p q) (primtoflux a qa)) (padd_to p a))
  | _, _ => None
  end.
(** 135-136: how strongly; 1 and more is fully *)
Definition trans_of (p : prims) (bsq : R) : R := 10 * bsq / (MY_MIN (Rabs (rho p)) (Rabs (uu p)) + SMALL) - 1.
(** 108-257: new primitives, fixup_required (set or left alone), pflag left alone? *)
Definition fixup1zone (scale : R) (p : prims) : option (prims * bool * bool) :=
  match get_state p with
  | None => None
  | Some q =>
      let bsq := dot (b_con q) (b_cov q) in
      let '(rhoflr, uflr) := set_floors gam scale (uu p) bsq in
      let applied := Rltb (rho p) rhoflr || Rltb (uu p) uflr in
      let p1 :=
        if applied then
          let trans := trans_of p bsq in
          if Rltb 0 trans then Some (strong p q rhoflr uflr trans) else weak p rhoflr uflr
        else Some p in
      match p1 with
      | None => None
      | Some p1 =>
          let '(v, ok) := limit_gamma G (vel p1) in
          Some (mkp (rho p1) (uu p1) v (mag p1), applied, ok)
      end
  end.
End Zone.

(** 83-98: METRIC == MKS; radius r, decs.h:72-74 *)
Definition get_scale (FLR_R0 FLR_POWER1 FLR_POWER2 r : R) : R :=
  if Rleb r FLR_R0 then Rpower r (- FLR_POWER1)
  else Rpower FLR_R0 (FLR_POWER2 - FLR_POWER1) * Rpower r (- FLR_POWER2).
