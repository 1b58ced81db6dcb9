(** Fluxes and the finite-volume update, core/step.c:177-228, 283-427,
    core/phys.c:12-62, 95-119, core/diag.c:382-414, over exact reals.
    Zone indices are relative to the first interior zone (C index minus NG).
    Not modelled here: the physical fluxes of mass, energy and momentum and the
    characteristic speeds (they are arguments), fix_flux (bounds.c:292-340; the
    fluxes entering [flux_ct] are arbitrary), timers, OpenMP. *)
From Coq Require Import Reals ZArith Bool.
From Verif Require Import RLib.
Open Scope R_scope.

(** grid_prim_type: zone, component *)
Definition field := Z -> Z -> Z -> nat -> R.
(** decs.h: B1, B2, B3 *)
Definition B1 := 5%nat.
Definition B2 := 6%nat.
Definition B3 := 7%nat.

(** ZSLOOP(0,h1,0,h2,0,h3) *)
Definition in_loop (h1 h2 h3 i j k : Z) : bool :=
  ((0 <=? i) && (i <=? h1) && (0 <=? j) && (j <=? h2) && (0 <=? k) && (k <=? h3))%Z.

Section CT.
Variables F1 F2 F3 : field.
(** step.c:367-371: the values assigned to the three static arrays *)
Definition emf3v (i j k : Z) : R :=
  25 / 100 * (F1 i j k B2 + F1 i (j - 1)%Z k B2 - F2 i j k B1 - F2 (i - 1)%Z j k B1).
Definition emf2v (i j k : Z) : R :=
  - (25 / 100) * (F1 i j k B3 + F1 i j (k - 1)%Z B3 - F3 i j k B1 - F3 (i - 1)%Z j k B1).
Definition emf1v (i j k : Z) : R :=
  25 / 100 * (F2 i j k B3 + F2 i j (k - 1)%Z B3 - F3 i j k B2 - F3 i (j - 1)%Z k B2).
(** step.c:365-372: elements outside the loop keep the value [old] they had *)
Variables N1 N2 N3 : Z.
Variables old1 old2 old3 : Z -> Z -> Z -> R.
Definition emf3 i j k := if in_loop N1 N2 N3 i j k then emf3v i j k else old3 i j k.
Definition emf2 i j k := if in_loop N1 N2 N3 i j k then emf2v i j k else old2 i j k.
Definition emf1 i j k := if in_loop N1 N2 N3 i j k then emf1v i j k else old1 i j k.
(** step.c:375-393 *)
Definition ct1 : field := fun i j k ip =>
  if in_loop N1 (N2 - 1) (N3 - 1) i j k then
    if Nat.eqb ip B1 then 0
    else if Nat.eqb ip B2 then 5 / 10 * (emf3 i j k + emf3 i (j + 1)%Z k)
    else if Nat.eqb ip B3 then - (5 / 10) * (emf2 i j k + emf2 i j (k + 1)%Z)
    else F1 i j k ip
  else F1 i j k ip.
Definition ct2 : field := fun i j k ip =>
  if in_loop (N1 - 1) N2 (N3 - 1) i j k then
    if Nat.eqb ip B1 then - (5 / 10) * (emf3 i j k + emf3 (i + 1)%Z j k)
    else if Nat.eqb ip B2 then 0
    else if Nat.eqb ip B3 then 5 / 10 * (emf1 i j k + emf1 i j (k + 1)%Z)
    else F2 i j k ip
  else F2 i j k ip.
Definition ct3 : field := fun i j k ip =>
  if in_loop (N1 - 1) (N2 - 1) N3 i j k then
    if Nat.eqb ip B1 then 5 / 10 * (emf2 i j k + emf2 (i + 1)%Z j k)
    else if Nat.eqb ip B2 then - (5 / 10) * (emf1 i j k + emf1 i (j + 1)%Z k)
    else if Nat.eqb ip B3 then 0
    else F3 i j k ip
  else F3 i j k ip.
End CT.

(** phys.c:107-118: only components UU..U3 (1..4) receive a source; [S] is the
    contraction of lines 109-116, [g] the metric determinant factor *)
Definition source (g : R) (S : nat -> R) (ip : nat) : R :=
  (if Nat.leb 1 ip && Nat.leb ip 4 then S ip else 0) * g.

(** step.c:213-218 *)
Definition update (Dt dx1 dx2 dx3 : R) (F1 F2 F3 : field) (U dU : nat -> R) (i j k : Z) (ip : nat) : R :=
  U ip + Dt * (- (F1 (i + 1)%Z j k ip - F1 i j k ip) / dx1
               - (F2 i (j + 1)%Z k ip - F2 i j k ip) / dx2
               - (F3 i j (k + 1)%Z ip - F3 i j k ip) / dx3 + dU ip).

(** phys.c:58-62: [B m] is Pr[B1-1+m], m = 1..3 *)
Definition bcon (B ucon ucov : nat -> R) (m : nat) : R :=
  let b0 := B 1%nat * ucov 1%nat + B 2%nat * ucov 2%nat + B 3%nat * ucov 3%nat in
  if Nat.eqb m 0 then b0 else (B m + b0 * ucon m) / ucon 0%nat.
(** phys.c:34-36 with line 54 (times g): flux of B^m in direction [dir] *)
Definition primtoflux_B (g : R) (B ucon ucov : nat -> R) (dir m : nat) : R :=
  (bcon B ucon ucov m * ucon dir - bcon B ucon ucov dir * ucon m) * g.

(** The magnetic primitives of a zone after advance (step.c:207-220): conserved
    value from primtoflux, update with the constrained-transport fluxes, and
    prim[B] = U[B]/g (utop.c:29).  Zones outside ZLOOP are not touched. *)
Definition advance_B (N1 N2 N3 : Z) (Dt dx1 dx2 dx3 : R) (g : Z -> Z -> R)
    (F1 F2 F3 : field) (ucon ucov : Z -> Z -> Z -> nat -> R) (S P : field) : field :=
  fun i j k ip =>
    if in_loop (N1 - 1) (N2 - 1) (N3 - 1) i j k && Nat.leb B1 ip && Nat.leb ip B3 then
      update Dt dx1 dx2 dx3 F1 F2 F3
        (fun ip => primtoflux_B (g i j) (fun m => P i j k (4 + m)%nat) (ucon i j k) (ucov i j k) 0 (ip - 4))
        (source (g i j) (S i j k)) i j k ip / g i j
    else P i j k ip.

(** diag.c:382-414 without the outer fabs *)
Definition divb_arg (dx1 dx2 dx3 : R) (g : Z -> Z -> R) (P : field) (i j k : Z) : R :=
  let i' := (i - 1)%Z in let j' := (j - 1)%Z in let k' := (k - 1)%Z in
  25 / 100 * (P i j k B1 * g i j + P i j' k B1 * g i j' + P i j k' B1 * g i j + P i j' k' B1 * g i j'
              - P i' j k B1 * g i' j - P i' j' k B1 * g i' j' - P i' j k' B1 * g i' j - P i' j' k' B1 * g i' j') / dx1 +
  25 / 100 * (P i j k B2 * g i j + P i' j k B2 * g i' j + P i j k' B2 * g i j + P i' j k' B2 * g i' j
              - P i j' k B2 * g i j' - P i' j' k B2 * g i' j' - P i j' k' B2 * g i j' - P i' j' k' B2 * g i' j') / dx2 +
  25 / 100 * (P i j k B3 * g i j + P i j' k B3 * g i j' + P i' j k B3 * g i' j + P i' j' k B3 * g i' j'
              - P i j k' B3 * g i j - P i j' k' B3 * g i j' - P i' j k' B3 * g i' j - P i' j' k' B3 * g i' j') / dx3.
Definition flux_ct_divb dx1 dx2 dx3 g P i j k : R := Rabs (divb_arg dx1 dx2 dx3 g P i j k).

(** SMALL, decs.h:87 *)
Definition SMALL : R := / 10 ^ 20.

(** step.c:396-427: result (Flux, maxSpeed).  [phys dir P] is primtoflux with
    the state of [P], [vchar P] is (cmax, cmin) of mhd_vchar. *)
Section LR.
Variable Pt : Type.
Variable phys : nat -> Pt -> nat -> R.
Variable vchar : Pt -> R * R.
Definition lr_to_flux (g : R) (dir : nat) (P_l P_r : Pt) : (nat -> R) * R :=
  if Rltb g SMALL then (fun _ => 0, 0)
  else
    let F_l := phys dir P_l in let F_r := phys dir P_r in
    let U_l := phys 0%nat P_l in let U_r := phys 0%nat P_r in
    let '(cmax_l, cmin_l) := vchar P_l in
    let '(cmax_r, cmin_r) := vchar P_r in
    let cmax := Rabs (MY_MAX (MY_MAX 0 cmax_l) cmax_r) in
    let cmin := Rabs (MY_MAX (MY_MAX 0 (- cmin_l)) (- cmin_r)) in
    let ctop := MY_MAX cmax cmin in
    (fun ip => 5 / 10 * (F_l ip + F_r ip - ctop * (U_r ip - U_l ip)), ctop).
End LR.

(** step.c:349-353; the speeds are maxima over all zones and processes *)
Definition fluxcalc_dt (cour dx1 dx2 dx3 cmax1 cmax2 cmax3 : R) : R :=
  let ndt1 := cour * dx1 / cmax1 in
  let ndt2 := cour * dx2 / cmax2 in
  let ndt3 := cour * dx3 / cmax3 in
  1 / (1 / ndt1 + 1 / ndt2 + 1 / ndt3).
