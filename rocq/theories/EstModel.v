(** Estimate of the electron temperature at the end of a step: core/estimate_thetae.c:21-300
    (ESTIMATE_THETAE).  Line 73 passes the address of an undeclared [m] to get_J, so the
    file does not compile with the switch on; [micro], which the lines above fill, is taken
    to be meant.  Reals are exact.  Not modelled: the messages and gsl's root finder (an
    argument, with what gsl promises as a hypothesis of the theorems). *)
From Coq Require Import Reals List ZArith Bool.
From Verif Require Import RLib.
Import ListNotations.
Open Scope R_scope.

(** One packet as the residual sees it: w, nu, dlam, theta *)
Record sph := mksph { w : R; nu : R; dlam : R; theta : R }.
(** Constants and the zone.  [emis] is get_J, [abs_inv] alpha_inv_abs and [scat_inv]
    alpha_inv_scatt, for the temperature, and for frequency and angle where they have them;
    [cell] is ggeom.g dx[1] dx[2] dx[3]. *)
Record zonep := mkz { ME : R; CL : R; HPL : R; game : R; L_unit : R; U_unit : R; T_unit : R; kphys_to_num : R;
  Ne : R; Thetae_old : R; Ucon0 : R; cell : R; dt : R;
  emis : R -> R; abs_inv : R -> R -> R -> R; scat_inv : R -> R -> R }.

Section Residual.
Variable z : zonep.
(** 61-62, ELECTRONS with EOS_TYPE_GAMMA; without ELECTRONS, EOS_u_N_Theta of the ideal gas
    (eos.c:16-32, eos_gamma.c) has gam in place of game *)
Definition u_of (T : R) : R := Ne z * T * ME z * CL z * CL z / (game z - 1).
Definition vol : R := cell z * dt z.
(** 81-89 *)
Definition abs_term (T : R) (p : sph) : R :=
  let udotk := HPL z * nu p / (ME z * CL z * CL z) in
  let dtau_a := abs_inv z T (nu p) (theta p) * L_unit z * HPL z / (ME z * CL z * CL z) * dlam p in
  let dw_a := w p * (1 - exp (- dtau_a)) in
  kphys_to_num z * dw_a * udotk / vol.
(** 94-102 *)
Definition amp (T : R) : R := 1 + 4 * T - 2 * Rpower T (3 / 2) + 16 * Rpower T 2.
Definition scat_term (T : R) (p : sph) : R :=
  let udotk := HPL z * nu p / (ME z * CL z * CL z) in
  let dtau_s := scat_inv z T (nu p) * L_unit z * HPL z / (ME z * CL z * CL z) * dlam p in
  let dw_s := w p * (1 - exp (- dtau_s)) in
  kphys_to_num z * (1 - amp T) * dw_s * udotk / vol.
(** a += f(p) over the packets of the zone, all threads in turn *)
Definition total (f : sph -> R) (ps : list sph) : R := fold_left (fun a p => a + f p) ps 0.
(** dEdt, 49-125; [ps] the packets of all threads in order *)
Definition dEdt (ps : list sph) (T : R) : R :=
  let udotG_abs := total (abs_term T) ps * (U_unit z / T_unit z) in
  let udotG_scatt := total (scat_term T) ps * (U_unit z / T_unit z) in
  Ucon0 z * (u_of T - u_of (Thetae_old z)) / (dt z * T_unit z) + emis z T + udotG_abs + udotG_scatt.
(** 255-283; [brent f lo hi] is what the loop 270-277 leaves: the root and whether the last
    status is GSL_SUCCESS, or None if the loop does not end ([iter] is never increased, so
    max_iter does not stop it) *)
Definition estimate (brent : (R -> R) -> R -> R -> option (R * bool)) (ps : list sph) : option R :=
  let lo := 5 / 10 * Thetae_old z in
  let hi := 2 * Thetae_old z in
  if Rltb 0 (dEdt ps lo * dEdt ps hi) then Some (Thetae_old z)
  else match brent (dEdt ps) lo hi with
       | None => None
       | Some (r, ok) => Some (if ok then r else Thetae_old z)
       end.
End Residual.

(** The lists of a zone and thread.  A packet is its zone (Xtoijk at the interpolated place,
    the same in both passes) and its record.  Zones are C indices. *)
Section Lists.
Context {A : Type}.
Definition zone := (Z * Z * Z)%type.
Definition zeqb (a b : zone) : bool :=
  let '(i, j, k) := a in let '(i', j', k') := b in ((i =? i') && (j =? j') && (k =? k'))%Z.
Variables N1 N2 N3 NG : Z.
(** an element of the arrays; an active zone, 180-181 *)
Definition inside (c : zone) : bool := let '(i, j, k) := c in
  ((0 <=? i) && (i <? N1 + 2 * NG) && (0 <=? j) && (j <? N2 + 2 * NG) && (0 <=? k) && (k <? N3 + 2 * NG))%Z.
Definition active (c : zone) : bool := let '(i, j, k) := c in
  (negb ((i <? NG) || (NG + N1 - 1 <? i) || (j <? NG) || (NG + N2 - 1 <? j) || (k <? NG) || (NG + N3 - 1 <? k)))%Z.
(** Ub: an access outside an array *)
Inductive outcome (B : Type) := Done (b : B) | Exit | Ub.
Arguments Done {B}. Arguments Exit {B}. Arguments Ub {B}.
(** 136-149: Nsph_zone[i][j][k][n]++ *)
Fixpoint count (ps : list (zone * A)) (nz : zone -> nat) : outcome (zone -> nat) :=
  match ps with
  | [] => Done nz
  | (c, _) :: r => if inside c then count r (fun d => if zeqb c d then S (nz d) else nz d) else Ub
  end.
(** one element of an array of length [length l] *)
Fixpoint put (l : list (option A)) (n : nat) (a : A) : option (list (option A)) :=
  match l, n with
  | [], _ => None
  | _ :: t, O => Some (Some a :: t)
  | h :: t, S m => match put t m a with None => None | Some t' => Some (h :: t') end
  end.
(** 169-214: arrays and Nsph_cntd *)
Fixpoint fill (ps : list (zone * A)) (arr : zone -> list (option A)) (cnt : zone -> nat) : outcome (zone -> list (option A)) :=
  match ps with
  | [] => Done arr
  | (c, a) :: r =>
      if active c then
        match put (arr c) (cnt c) a with
        | None => Ub
        | Some l => fill r (fun d => if zeqb c d then l else arr d) (fun d => if zeqb c d then S (cnt d) else cnt d)
        end
      else Exit
  end.
(** 136-214 for one thread, from the counters [nz0] left by the last call: safe_malloc of
    Nsph_zone elements each and Nsph_cntd = 0, 160-166.  The pointers of zones that are not
    active keep no memory. *)
Definition lists (nz0 : zone -> nat) (ps : list (zone * A)) : outcome (zone -> list (option A)) :=
  match count ps nz0 with
  | Done nz => fill ps (fun c => if active c then repeat None (nz c) else []) (fun _ => O)
  | Exit => Exit
  | Ub => Ub
  end.
(** 289-299: the counters after the call: zero in the active zones, elsewhere as counted *)
Definition reset (nz : zone -> nat) : zone -> nat := fun c => if active c then O else nz c.
End Lists.
Arguments Done {B}. Arguments Exit {B}. Arguments Ub {B}.
