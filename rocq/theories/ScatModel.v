(** Scattering kernel.  core/scattering.c. *)
From Coq Require Import Reals Bool ZArith List.
From Verif Require Import RLib XLib IntLib.
Open Scope R_scope.

(** decs.h:87 *)
Definition SMALL : R := / 10 ^ 20.
Notation V3 := (R * R * R)%type.
Notation V4 := (R * (R * R * R))%type.
Definition dot (a b : V3) : R := let '(a1, a2, a3) := a in let '(b1, b2, b3) := b in a1 * b1 + a2 * b2 + a3 * b3.
Definition scale (c : R) (a : V3) : V3 := let '(a1, a2, a3) := a in (c * a1, c * a2, c * a3).
Definition add (a b : V3) : V3 := let '(a1, a2, a3) := a in let '(b1, b2, b3) := b in (a1 + b1, a2 + b2, a3 + b3).
(** 403-405, 570-572 *)
Definition cross (a b : V3) : V3 :=
  let '(a1, a2, a3) := a in let '(b1, b2, b3) := b in (a2 * b3 - a3 * b2, a3 * b1 - a1 * b3, a1 * b2 - a2 * b1).
(** x / |x|; None for a zero vector, whose components become not-a-number *)
Definition unit (a : V3) : option V3 := let l := sqrt (dot a a) in if Reqb l 0 then None else Some (scale (/ l) a).

(** The three unit vectors built around k from a random direction n0: lines 377-405 of
    sample_gas_particle, 550-572 of sample_scattered_rad. *)
Definition frame (k n0 : V3) : option (V3 * V3 * V3) :=
  match unit k with
  | None => None
  | Some v0 =>
      match unit (add n0 (scale (- dot v0 n0) v0)) with
      | None => None
      | Some v1 => Some (v0, v1, cross v0 v1)
      end
  end.
(** 415-417, 588-590 *)
Definition direction (fr : V3 * V3 * V3) (cth sth phi : R) : V3 :=
  let '(v0, v1, v2) := fr in add (scale cth v0) (scale sth (add (scale (cos phi) v1) (scale (sin phi) v2))).

(** sample_beta, 423-429; y is what sample_y returned *)
Definition sample_gamma (y thetae : R) : R := y * y * thetae + 1.
Definition sample_beta (g : R) : R := sqrt (1 - 1 / (g * g)) + SMALL.
(** The acceptance probability in sample_y, 462-466 *)
Definition y_prob (thetae y : R) : R := sqrt (1 + 1 / 2 * thetae * (y * y)) / (1 + y * sqrt (1 / 2 * thetae)).
(** sample_mu, 478-485; x1 is the random number, and the clamp in 347-351 *)
Definition sample_mu (beta x1 : R) : R := (1 - sqrt (1 + 2 * beta + beta * beta - 4 * beta * x1)) / beta.
Definition clamp_mu (mu : R) : R := if Rltb 1 mu then 1 else if Rltb mu (-1) then -1 else mu.
(** the particle, 377-417, once a velocity and angle are accepted *)
Definition gas_particle (k n0 : V3) (g beta mu phi : R) : option V4 :=
  match frame k n0 with
  | None => None
  | Some fr => Some (g, scale (g * beta) (direction fr mu (sqrt (1 - mu * mu)) phi))
  end.

(** boost, 606-624 *)
Definition boost (v u : V4) : V4 :=
  let '(v0, (v1, v2, v3)) := v in
  let '(u0, (u1, u2, u3)) := u in
  let g := u0 in
  let V := sqrt (Rabs (1 - 1 / (g * g))) in
  let n1 := u1 / (g * V + SMALL) in
  let n2 := u2 / (g * V + SMALL) in
  let n3 := u3 / (g * V + SMALL) in
  let gm1 := g - 1 in
  (u0 * v0 - u1 * v1 - u2 * v2 - u3 * v3,
   (- u1 * v0 + (1 + n1 * n1 * gm1) * v1 + (n1 * n2 * gm1) * v2 + (n1 * n3 * gm1) * v3,
    - u2 * v0 + (n2 * n1 * gm1) * v1 + (1 + n2 * n2 * gm1) * v2 + (n2 * n3 * gm1) * v3,
    - u3 * v0 + (n3 * n1 * gm1) * v1 + (n3 * n2 * gm1) * v2 + (1 + n3 * n3 * gm1) * v3)).

(** sample_scattered_rad, 531-596; k0p and cth are what sample_cross_section returned *)
Definition scattered_rad (k p : V4) (n0 : V3) (k0p cth phi : R) : option V4 :=
  let ke := boost k p in
  match frame (snd ke) n0 with
  | None => None
  | Some fr =>
      let kpe := (k0p, scale k0p (direction fr cth (sqrt (Rabs (1 - cth * cth))) phi)) in
      Some (boost kpe (fst p, scale (-1) (snd p)))
  end.

(** ** Cross-sections *)
(** klein_nishina, 674-679, and the bounds and box height of sample_klein_nishina, 651-672 *)
Definition klein_nishina (a ap : R) : R := let ch := 1 + 1 / a - 1 / ap in (a / ap + ap / a - 1 + ch * ch) / (a * a).
Definition kn_min (k0 : R) : R := k0 / (1 + 2 * k0).
Definition kn_box (k0 : R) : R := 2 * (1 + 2 * k0 + 2 * k0 * k0) / (k0 * k0 * (1 + 2 * k0)).
(** line 632 *)
Definition kn_cth (k k0p : R) : R := 1 - 1 / k0p + 1 / k.
(** hc_klein_nishina, 960-975 *)
Definition hc_klein_nishina (we : R) : R :=
  if Rltb we (1 / 1000)
  then 1 - 2 * we + 5.2 * we * we - 13.3 * we * we * we + 1144 * we * we * we * we / 35
  else (3 / 4) * (2 / (we * we) + (1 / (2 * we) - (1 + we) / (we * we * we)) * ln (1 + 2 * we) + (1 + we) / ((1 + 2 * we) * (1 + 2 * we))).
(** boostcross, 915-941; None is the exit for light *)
Definition boostcross (f : R -> R) (w mue gammae : R) : option R :=
  let v := sqrt (gammae * gammae - 1) / gammae in
  let we := w * gammae * (1 - mue * v) in
  let bc := f we * (1 - mue * v) in
  if Rltb 2 bc then None else Some bc.

(** constants.h:25-29 and decs.h:176-180 *)
Definition GA : R := - 1.272323.
Definition GA2 : R := GA * GA.
Definition S2THW : R := 0.222321.
Definition S4THW : R := S2THW * S2THW.
Definition NUSIGMA0 : R := 1.7611737037 / 10 ^ 44.
Inductive target := TP | TN | TA | TALPHA.
(** hc_quad and hc_quad_max; wmax is nu_maxw *)
Definition hc_quad (wmax we : R) : R := let we := if Rleb wmax we then wmax else we in we * we.
Definition hc_quad_max (wmax : R) : R := hc_quad wmax wmax.
(** total_cross_ions, 1021-1031; A and Z are Abar and Zbar of the zone *)
Definition total_cross_ions (sigma A Z : R) : R :=
  let W := 1 - 2 * (Z / A) * (1 - 2 * S2THW) in
  (1 / 16) * NUSIGMA0 * sigma * A * A * (W * 1 + 1) * (W * 1 + 1) * 1.
(** nu_cross_delta, 1033-1051.  Scattering off electrons (a zero, or an exit) is left out: the
    code has no way to choose it. *)
Definition nu_cross_delta (t : target) : R :=
  match t with
  | TP => let Cpv := 0.5 + 2 * S2THW in let Cpa := 0.5 in
          ((Cpv - 1) * (Cpv - 1) - GA2 * (Cpa - 1) * (Cpa - 1)) / ((Cpv - 1) * (Cpv - 1) + 3 * GA2 * (Cpa - 1) * (Cpa - 1))
  | TN => (1 - GA2) / (1 + 3 * GA2)
  | TA | TALPHA => 1
  end.
(** nu_cross_factor, 1054-1072 *)
Definition nu_cross_factor (sigma : R) (t : target) (A Z : R) : R :=
  match t with
  | TP => 0.25 * NUSIGMA0 * sigma * (4 * S4THW - 2 * S2THW + 0.25 * (1 + 3 * GA2))
  | TN => (NUSIGMA0 / 4) * sigma * (1 + 3 * GA2) / 4
  | TA => total_cross_ions sigma A Z
  | TALPHA => total_cross_ions sigma 4 2
  end.
(** nu_cross, 999-1008 *)
Definition nu_cross (wmax w mu : R) (t : target) (A Z : R) : R :=
  let sigma := hc_quad wmax w in
  let delta := nu_cross_delta t in
  let sigma := sigma * nu_cross_factor sigma t A Z in
  let sigma := sigma / (4 * PI) in
  sigma * (1 + delta * mu).
(** nu_cross_max, 1010-1019 *)
Definition nu_cross_max (wmax : R) (t : target) (A Z : R) : R :=
  let sigma := hc_quad_max wmax in
  let delta := nu_cross_delta t in
  let sigma := nu_cross_factor sigma t A Z in
  let sigma := sigma / (4 * PI) in
  sigma * (1 + Rabs delta).
(** get_total_cross_section with normalized = 1 for neutrinos, 517-520 *)
Definition nu_normalized (wmax k : R) : R := hc_quad wmax k / hc_quad_max wmax.
(** get_total_cross_section with normalized = 0, and the zero-temperature case of
    total_cross_lkup *)
Definition nu_total (wmax k : R) (t : target) (A Z : R) : R := nu_cross_factor (hc_quad wmax k) t A Z.
(** ms_flat and ms_flat_max, 981-996; c is NUSIGMA0 * pow(ms_theta_nu0, 2) / (16 pi) *)
Definition ms_flat (c delta0 mu : R) (i : nat) : R := 1 * ((2 * 2 * INR i + 1) * c) * (1 + delta0 * mu ^ (2 * i + 1)).
Definition ms_flat_max (c delta0 : R) (i : nat) : R :=
  if Rltb 0 delta0 then ms_flat c delta0 1 i else if Rltb delta0 0 then ms_flat c delta0 (-1) i else ms_flat c delta0 0 i.
(** the test of rejection_sample, 947-958, for random numbers r1, r2: Some of the angle when
    accepted *)
Definition accept (f : R -> R) (xmax r1 r2 : R) : option R :=
  let mu := 2 * r1 - 1 in let x := r2 * xmax in if Rleb (f mu) x then None else Some mu.

(** ** The table of hot cross-sections *)
(** 14-19 *)
Definition NW : Z := 220.
Definition NT : Z := 90.
Definition log10 (x : R) : R := ln x / ln 10.
Section Table.
(** ends of the two axes *)
Variables MINW MAXW MINT MAXT : R.
Definition dlw : R := log10 (MAXW / MINW) / IZR NW.
Definition dlT : R := log10 (MAXT / MINT) / IZR NT.
(** TRUNCATE_HOTCROSS, 775-784 *)
Definition truncate (lo hi x : R) : R :=
  let x := if Rleb x lo then lo + Rabs (1 / 100 * lo) else x in
  if Rleb hi x then hi - Rabs (1 / 100 * hi) else x.
(** 787-800: the exponent; the second None is the fall-back to the integral.  The table is a
    function of two indices that is None outside its bounds. *)
Inductive result := Looked (e : R) | Fallback | Outside.
Definition lookup (table : Z -> Z -> option R) (w thetae : R) : result :=
  if Rltb MINW w && Rltb w MAXW && (Rltb MINT thetae && Rltb thetae MAXT) then
    let lw := log10 w in
    let lT := log10 thetae in
    let fi := (lw - log10 MINW) / dlw in
    let fj := (lT - log10 MINT) / dlT in
    match to_int (Fin fi), to_int (Fin fj) with
    | Some i, Some j =>
        let di := fi - IZR i in
        let dj := fj - IZR j in
        match table i j, table (i + 1)%Z j, table i (j + 1)%Z, table (i + 1)%Z (j + 1)%Z with
        | Some a, Some b, Some c, Some d => Looked ((1 - di) * (1 - dj) * a + di * (1 - dj) * b + (1 - di) * dj * c + di * dj * d)
        | _, _, _, _ => Outside
        end
    | _, _ => Outside
    end
  else Fallback.
Definition interpolate_hc_table (table : Z -> Z -> option R) (w thetae : R) : result :=
  lookup table (truncate MINW MAXW w) (truncate MINT MAXT thetae).
End Table.
