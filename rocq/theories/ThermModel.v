(** Cross-sections averaged over thermal scatterers: core/scattering.c:775-913.  Not-a-number
    checks (859-862, 890-894, 935-938) are left out: the numbers here are reals. *)
From Coq Require Import Reals Bool ZArith.
From Verif Require Import RLib XLib IntLib ScatModel.
Open Scope R_scope.

(** 16-22 *)
Definition MINW : R := / 10 ^ 16.
Definition MINT : R := / 10 ^ 3.
Definition MAXT : R := 10 ^ 11.
Definition MAXGAMMA : R := 12.
Definition DMUE : R := 5 / 100.
Definition DGAMMAE : R := 5 / 100.

(** for (x = ...; x < hi; x += dx) acc = body(x, acc).  None: the body ended the program, or
    there were more than [fuel] passes. *)
Fixpoint for_lt (fuel : nat) (x dx hi : R) (body : R -> R -> option R) (acc : R) : option R :=
  match fuel with
  | O => None
  | S fuel =>
      if Rltb x hi then match body x acc with Some acc => for_lt fuel (x + dx) dx hi body acc | None => None end
      else Some acc
  end.
Section Bessel.
(** gsl_sf_bessel_Kn(2, x) *)
Variable gsl_K2 : R -> R.
(** dNdgammae, 899-913; pow(x, y) is Rpower x y for x > 0 *)
Definition K2f (thetae : R) : R :=
  if Rltb (/ 100) thetae then gsl_K2 (1 / thetae) * exp (1 / thetae)
  else sqrt (PI * thetae / 2) + 15 / 8 * sqrt (PI / 2) * Rpower thetae 1.5 + 105 / 128 * sqrt (PI / 2) * Rpower thetae 2.5
       - 315 / 1024 * sqrt (PI / 2) * Rpower thetae 3.5.
Definition dNdgammae (thetae gammae : R) : R :=
  (gammae * sqrt (gammae * gammae - 1) / (thetae * K2f thetae)) * exp (- (gammae - 1) / thetae).
(** the double loop, 874-896; [bc mue gammae] is boostcross(f, w, mue, gammae) *)
Definition average (fuel : nat) (bc : R -> R -> option R) (thetae : R) : option R :=
  let dmue := DMUE in
  let dgammae := thetae * DGAMMAE in
  for_lt fuel (- 1 + 5 / 10 * dmue) dmue 1 (fun mue cross =>
    for_lt fuel (1 + 5 / 10 * dgammae) dgammae (1 + MAXGAMMA * thetae) (fun gammae cross =>
      let maxwell := 5 / 10 * dNdgammae thetae gammae in
      match bc mue gammae with Some b => Some (cross + dmue * dgammae * b * maxwell) | None => None end) cross) 0.
(** total_cross_num for light, 856-897: f is hc_klein_nishina (682) *)
Definition total_cross_num_light (fuel : nat) (w thetae : R) : option R :=
  if Rltb thetae MINT && Rltb w MINW then Some 1
  else if Rltb thetae MINT then Some (hc_klein_nishina w)
  else average fuel (boostcross hc_klein_nishina w) thetae.
(** boostcross for neutrinos, 915-941 without 924-933 *)
Definition boostcross_nu (f : R -> R) (w mue gammae : R) : option R :=
  let v := sqrt (gammae * gammae - 1) / gammae in
  let we := w * gammae * (1 - mue * v) in
  Some (f we * (1 - mue * v)).
(** total_cross_num for neutrinos: f is hc_quad (686) *)
Definition total_cross_num_nu (fuel : nat) (wmax w thetae : R) : option R := average fuel (boostcross_nu (hc_quad wmax) w) thetae.
(** total_cross_lkup for light, 813-829.  None: an entry outside the table, or the integral
    did not end. *)
Definition total_cross_lkup_light (fuel : nat) (MAXW THOMSON : R) (table : Z -> Z -> option R) (w thetae : R) : option R :=
  if Rltb (w * thetae) (/ 10 ^ 6) then Some THOMSON
  else if Rltb thetae MINT then Some (hc_klein_nishina w * THOMSON)
  else match interpolate_hc_table MINW MAXW MINT MAXT table w thetae with
       | Looked e => Some (THOMSON * Rpower 10 e)
       | Fallback => option_map (fun s => THOMSON * s) (total_cross_num_light fuel w thetae)
       | Outside => None
       end.
(** for neutrinos (not MULTISCATT_TEST), 830-853; wmax is nu_maxw *)
Definition total_cross_lkup_nu (fuel : nat) (MAXW wmax : R) (table : Z -> Z -> option R) (w thetae : R) (t : target) (A Z : R) : option R :=
  if Rltb thetae MINT then Some (nu_total wmax w t A Z)
  else match interpolate_hc_table MINW MAXW MINT MAXT table w thetae with
       | Looked e => Some (nu_cross_factor (Rpower 10 e) t A Z)
       | Fallback => option_map (fun s => nu_cross_factor s t A Z) (total_cross_num_nu fuel wmax w thetae)
       | Outside => None
       end.
End Bessel.
