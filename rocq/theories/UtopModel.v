(** Inversion from conserved to primitive variables: core/utop.c, and the map it
    inverts: core/phys.c:12-92.  The inversion is over extended reals (XLib), so
    that NaN and division by zero behave as in C; the forward map over reals.
    The equation of state is a parameter (pressure functions of density and
    enthalpy/energy density, core/eos.c:78-113); its cache [extra] is not
    modelled.  Variables are indexed RHO 0, UU 1, U1-U3 2-4, B1-B3 5-7
    (decs.h:267-277); later indices are electrons and passive scalars. *)
From Coq Require Import Reals ZArith List Bool.
From Verif Require Import RLib XLib FluxModel GeomModel.
Import ListNotations.
Open Scope R_scope.

Definition vars := nat -> X.
Record geom := { gg : R; gcov : mat; gcon : mat; galpha : R }.

(** utop.c:12-14; decs.h:91 *)
Definition ERRTOL : R := / 10 ^ 10.
Definition ITERMAX : nat := 8.
Definition DEL : R := / 10 ^ 5.

(** utop.c:225-245 without the flag, which no caller reads *)
Definition gamma_func (Bsq D QdB Qtsq Wp : X) : X :=
  let QdBsq := (QdB * QdB)%X in
  let W := (D + Wp)%X in
  let W2 := (W * W)%X in
  let WB := (W + Bsq)%X in
  let utsq := (- ((W + WB) * QdBsq + W2 * Qtsq) / (QdBsq * (W + WB) + W2 * (Qtsq - WB * WB)))%X in
  xsqrt (Fin 1 + xabs utsq)%X.

Section EOS.
(** EOS_pressure_rho0_w (rho0, w) and EOS_pressure_rho0_u (rho0, u) *)
Variable press_w : X -> X -> X.
Variable press_u : X -> X -> X.

(** utop.c:206-223 *)
Definition err_eqn (Bsq D Ep QdB Qtsq Wp : X) : X :=
  let W := (Wp + D)%X in
  let gamma := gamma_func Bsq D QdB Qtsq Wp in
  let w := (W / (gamma * gamma))%X in
  let rho0 := (D / gamma)%X in
  let p := press_w rho0 w in
  (- Ep + Wp - p + Fin (5 / 10) * Bsq +
   Fin (5 / 10) * (Bsq * Qtsq - QdB * QdB) / ((Bsq + W) * (Bsq + W)))%X.

(** utop.c:247-287: [None] when the flag is raised *)
Definition Wp_func (prim : vars) (gcov : mat) : option X :=
  let rho0 := prim 0%nat in
  let u := prim 1%nat in
  let ut i := match i with O => Fin 0 | S _ => prim (S i) end in
  let utcov i := (Fin (gcov i 0%nat) * ut 0%nat + Fin (gcov i 1%nat) * ut 1%nat +
                  Fin (gcov i 2%nat) * ut 2%nat + Fin (gcov i 3%nat) * ut 3%nat)%X in
  let utsq := (Fin 0 + ut 0%nat * utcov 0%nat + ut 1%nat * utcov 1%nat + ut 2%nat * utcov 2%nat + ut 3%nat * utcov 3%nat)%X in
  let utsq := if xltb utsq (Fin 0) && xltb (xabs utsq) (Fin (/ 10 ^ 13)) then xabs utsq else utsq in
  if xltb utsq (Fin 0) || xltb (Fin (1000 * GAMMAMAX * GAMMAMAX)) utsq then None
  else
    let gamma := xsqrt (Fin 1 + xabs utsq)%X in
    let press := press_u rho0 u in
    Some ((rho0 + u + press) * gamma * gamma - rho0 * gamma)%X.

(** utop.c:121, 135: the limited step *)
Definition limited (Wp dW : X) : X := (Wp + xmax (xmin dW (Fin 2 * Wp)) (- Fin (5 / 10) * Wp))%X.
(** utop.c:125-140: [k] = ITERMAX - iter; [None]: iter == ITERMAX afterwards *)
Fixpoint secant (err_of : X -> X) (k : nat) (Wp Wp1 err err1 : X) : option X :=
  match k with
  | O => None
  | S k' =>
      if xltb (Fin ERRTOL) (xabs (err / Wp)) then
        let dW := ((Wp1 - Wp) * err / (err - err1))%X in
        let Wp' := limited Wp dW in
        if xltb (xabs (dW / Wp')) (Fin ERRTOL) then Some Wp'
        else secant err_of k' Wp' Wp (err_of Wp') err
      else Some Wp
  end.
(** utop.c:104-145 *)
Definition solve (err_of : X -> X) (Wp : X) : option X :=
  let Wpm := ((Fin 1 - Fin DEL) * Wp)%X in
  let h := (Wp - Wpm)%X in
  let Wpp := (Wp + h)%X in
  let errp := err_of Wpp in
  let err := err_of Wp in
  let errm := err_of Wpm in
  let dedW := ((errp - errm) / (Wpp - Wpm))%X in
  let dedW2 := ((errp - Fin 2 * err + errm) / (h * h))%X in
  let f := (Fin (5 / 10) * err * dedW2 / (dedW * dedW))%X in
  let dW := (- err / dedW / (Fin 1 - xmin (xmax (- Fin (3 / 10)) f) (Fin (3 / 10))))%X in
  let Wp' := limited Wp dW in
  secant err_of ITERMAX Wp' Wp (err_of Wp') err.

Definition set (p : vars) (i : nat) (x : X) : vars := fun j => if Nat.eqb j i then x else p j.
(** utop.c:41-43 *)
Definition set_B (U : vars) (g : R) (prim : vars) : vars :=
  set (set (set prim 5 (U 5%nat / Fin g)%X) 6 (U 6%nat / Fin g)%X) 7 (U 7%nat / Fin g)%X.

(** utop.c:55-92: D, Bcon, Bsq, QdB, Qtcon, Qtsq, Ep *)
Record inputs := { i_D : X; i_Bcon : nat -> X; i_Bsq : X; i_QdB : X; i_Qtcon : nat -> X; i_Qtsq : X; i_Ep : X }.
Definition xdot4 (a b : nat -> X) : X :=
  (Fin 0 + a 0%nat * b 0%nat + a 1%nat * b 1%nat + a 2%nat * b 2%nat + a 3%nat * b 3%nat)%X.
Definition xlower (g : mat) (v : nat -> X) (i : nat) : X :=
  (Fin (g i 0%nat) * v 0%nat + Fin (g i 1%nat) * v 1%nat + Fin (g i 2%nat) * v 2%nat + Fin (g i 3%nat) * v 3%nat)%X.
Definition convert (U : vars) (ge : geom) : inputs :=
  let f x := (x * Fin (galpha ge) / Fin (gg ge))%X in
  let D := f (U 0%nat) in
  let Bcon i := match i with O => Fin 0 | S k => f (U (5 + k)%nat) end in
  let Qcov i := match i with O => f (U 1%nat - U 0%nat)%X | S k => f (U (2 + k)%nat) end in
  let Bcov := xlower (gcov ge) Bcon in
  let Bsq := xdot4 Bcon Bcov in
  let Qcon := xlower (gcon ge) Qcov in
  let QdB := xdot4 Qcov Bcon in
  let ncov i := match i with O => Fin (- galpha ge) | S _ => Fin 0 end in
  let ncon := xlower (gcon ge) ncov in
  let Qdotn := xdot4 Qcon ncov in
  let Qsq := xdot4 Qcov Qcon in
  let Qtcon i := (Qcon i + ncon i * Qdotn)%X in
  {| i_D := D; i_Bcon := Bcon; i_Bsq := Bsq; i_QdB := QdB; i_Qtcon := Qtcon;
     i_Qtsq := (Qsq + Qdotn * Qdotn)%X; i_Ep := (- Qdotn - D)%X |}.

(** utop.c:148-203.  [check_u]: the compile-time condition of line 167;
    [scalars]: electron and passive variables, true for those stored per unit
    mass (lines 180-195); [bad_cs]: the sound-speed test of lines 198-204 (false
    unless a table is used).  [None]: exit(1) at line 151. *)
Definition finish (check_u : bool) (scalars : list (nat * bool)) (bad_cs : vars -> bool)
    (U : vars) (ge : geom) (inp : inputs) (Wp : X) (prim : vars) : option (Z * vars) :=
  let gamma := gamma_func (i_Bsq inp) (i_D inp) (i_QdB inp) (i_Qtsq inp) Wp in
  if xltb gamma (Fin 1) then None else
  let rho0 := (i_D inp / gamma)%X in
  let W := (Wp + i_D inp)%X in
  let w := (W / (gamma * gamma))%X in
  let P := press_w rho0 w in
  let u := (w - (rho0 + P))%X in
  if xltb rho0 (Fin 0) then Some (5%Z, prim) else
  if check_u && xltb u (Fin 0) then Some (5%Z, prim) else
  let prim := set (set prim 0 rho0) 1 u in
  let vel m := (gamma / (W + i_Bsq inp) * (i_Qtcon inp m + i_QdB inp * i_Bcon inp m / W))%X in
  let prim := set (set (set prim 2 (vel 1%nat)) 3 (vel 2%nat)) 4 (vel 3%nat) in
  let prim := fold_left (fun p (s : nat * bool) =>
      let '(i, per_mass) := s in
      set p i (if per_mass then U i / U 0%nat else Fin (galpha ge) * U i / (gamma * Fin (gg ge)))%X) scalars prim in
  if bad_cs prim then Some (6%Z, prim) else Some (0%Z, prim).

(** utop.c:16-204 *)
Definition Utoprim (check_u : bool) (scalars : list (nat * bool)) (bad_cs : vars -> bool)
    (U : vars) (ge : geom) (prim : vars) : option (Z * vars) :=
  let prim := set_B U (gg ge) prim in
  if xleb (U 0%nat) (Fin 0) then Some ((-100)%Z, prim) else
  let inp := convert U ge in
  match Wp_func prim (gcov ge) with
  | None => Some (2%Z, prim)
  | Some Wp =>
      match solve (err_eqn (i_Bsq inp) (i_D inp) (i_Ep inp) (i_QdB inp) (i_Qtsq inp)) Wp with
      | None => Some (1%Z, prim)
      | Some Wp => finish check_u scalars bad_cs U ge inp Wp prim
      end
  end.
End EOS.

(** eos_gamma.c:13-19, for an adiabatic index [gam] *)
Definition gamma_press_u (gam : R) (rho u : X) : X := (Fin (gam - 1) * u)%X.
Definition gamma_press_w (gam : R) (rho w : X) : X := ((w - rho) * Fin (gam - 1) / Fin gam)%X.

(** phys.c:66-92, direction [dir], magnetic = 0; [small] is SMALL = 1e-20,
    [pres] the pressure returned for (|rho|+SMALL, u) *)
Definition mhd_calc (small : R) (press : R -> R -> R) (rho u : R) (ucon ucov bcon bcov : vec) (dir mu : nat) : R :=
  let r := Rabs rho + small in
  let pres := press r u in
  let w := pres + r + u in
  let bsq := bcon 0%nat * bcov 0%nat + bcon 1%nat * bcov 1%nat + bcon 2%nat * bcov 2%nat + bcon 3%nat * bcov 3%nat in
  let eta := w + bsq in
  let ptot := pres + 5 / 10 * bsq in
  eta * ucon dir * ucov mu + ptot * (if Nat.eqb dir mu then 1 else 0) - bcon dir * bcov mu.
(** phys.c:12-55 with the state of phys.c:129-135; [s] the other variables:
    true for per-mass ones.  U1-U3 and B1-B3 of the primitives are [Ut 1..3],
    [B 1..3]. *)
Definition primtoflux (small : R) (press : R -> R -> R) (scalars : list (nat * bool)) (ge : geom)
    (rho u : R) (B : vec) (sc : nat -> R) (ucon : vec) (dir : nat) (i : nat) : R :=
  let ucov := lower ucon (gcov ge) in
  let b := bcon B ucon ucov in
  let bcov := lower b (gcov ge) in
  let mhd := mhd_calc small press rho u ucon ucov b bcov dir in
  gg ge * match i with
  | 0%nat => rho * ucon dir
  | 1%nat => mhd 0%nat + rho * ucon dir
  | 2%nat | 3%nat | 4%nat => mhd (i - 1)%nat
  | 5%nat | 6%nat | 7%nat => b (i - 4)%nat * ucon dir - b dir * ucon (i - 4)%nat
  | _ => if existsb (fun s => Nat.eqb (fst s) i && snd s) scalars then rho * ucon dir * sc i else sc i * ucon dir
  end.
(** eos.c:103-107: composition handed to the table at density [rho], from the
    conserved variable passed by utop.c:88 *)
Definition table_ye (small : R) (ge : geom) (ye_con gamma rho : R) : R :=
  let yedens := galpha ge * ye_con / (gamma * gg ge) in
  Rabs yedens / (Rabs rho + small).
