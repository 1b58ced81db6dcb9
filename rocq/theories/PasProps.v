(** C122, C123: passive scalars. *)
From Coq Require Import Reals Bool ZArith List Lia Lra.
From Verif Require Import RLib FluxModel TabModel InvModel PasModel PasSpec PasProofs PasMore PasWit.
Import ListNotations.
Open Scope R_scope.

(** A scalar of either kind is got back from its conserved density, when the inversion finds
    the Lorentz factor the gas has. *)
Theorem C122_round : forall number g lapse gamma rho P, 0 < g -> 0 < lapse -> 0 < gamma -> 0 < rho ->
  let ut := gamma / lapse in scalar_prim number g lapse gamma (scalar_flux number g (rho * ut) ut P) (rho * ut * g) = P.
Proof. exact round_trip. Qed.
Print Assumptions C122_round.
(** Whatever the floors do to a zone, with a tabulated equation of state both electron
    fractions are left as they were before, brought into the table; so is the marker of the
    atmosphere, brought between 0 and 1; and scalars per baryon of the problem are unchanged. *)
Theorem C122_numbers : forall yes mks n set g lapse thresh minu f p, ax_min yes < ax_max yes -> (2 <= n)%nat -> (mks = true -> (3 <= n)%nat) ->
  let p' := fix_zone n (init_types mks set) (init_passives yes mks) g lapse thresh minu f p in
  brought_in (ax_min yes) (ax_max yes) (p 8%nat) (p' 8%nat) /\ brought_in (ax_min yes) (ax_max yes) (p 9%nat) (p' 9%nat) /\
  (mks = true -> brought_01 (p 10%nat) (p' 10%nat)) /\
  (forall e, (2 <= e < n)%nat -> (mks = true -> e <> 2%nat) -> set e = true -> p' (8 + e)%nat = p (8 + e)%nat).
Proof. exact zone_numbers. Qed.
Print Assumptions C122_numbers.
(** A scalar per volume keeps its conserved density when matter is added in the normal frame
    and the inversion succeeds, and its value otherwise. *)
Theorem C122_intrinsic : forall yes mks n set g lapse thresh minu f p e, 0 < g -> 0 < lapse -> (2 <= e < n)%nat -> (mks = true -> e <> 2%nat) -> set e = false ->
  let p' := fix_zone n (init_types mks set) (init_passives yes mks) g lapse thresh minu f p in
  match f with
  | Normal _ _ ut _ (Some (_, gamma)) => 0 < gamma -> p' (8 + e)%nat * (gamma / lapse) = p (8 + e)%nat * ut
  | _ => p' (8 + e)%nat = p (8 + e)%nat
  end.
Proof. exact zone_intrinsic. Qed.
Print Assumptions C122_intrinsic.
(** The scalars' part leaves the basic variables, the energy of cold gas apart, alone. *)
Theorem C122_basics : forall yes mks n number g lapse thresh minu f p ip, (ip < 8)%nat -> ip <> 1%nat ->
  fix_zone n number (init_passives yes mks) g lapse thresh minu f p ip = apply_floors number g lapse f p ip.
Proof. exact zone_basics. Qed.
Print Assumptions C122_basics.
(** Cold gas is given the least energy of its density at the electron fraction it had,
    except where matter was added and the inversion succeeded: there at that fraction
    diluted by the matter added, although the fraction itself is then put back. *)
Theorem C122_cold : forall yes mks n set g lapse thresh minu f p, 0 < g -> p 0%nat < thresh ->
  match f with Normal ra _ ut uta (Some _) => p 0%nat * ut + ra * uta <> 0 | _ => True end ->
  let p' := fix_zone n (init_types mks set) (init_passives yes mks) g lapse thresh minu f p in
  p' 1%nat = minu (p' 0%nat) (match f with Normal ra _ ut uta (Some _) => diluted (p 0%nat) ut ra uta (p 8%nat) | _ => p 8%nat end).
Proof. exact zone_cold. Qed.
Print Assumptions C122_cold.
Theorem C122_diluted : forall rho ut ra uta Y, 0 < rho -> 0 < ut -> 0 < ra -> 0 < uta -> 0 < Y -> 0 < diluted rho ut ra uta Y < Y.
Proof. exact diluted_less. Qed.
Print Assumptions C122_diluted.
(** So the energy of a zone just put on the cold floor can be below the least energy of the
    density and electron fraction it has. *)
Theorem C122_cold_refuted : exists yes n set g lapse thresh minu f p, ax_min yes < ax_max yes /\ (3 <= n)%nat /\ 0 < p 0%nat < thresh /\ ax_min yes <= p 8%nat < ax_max yes /\
  let p' := fix_zone n (init_types true set) (init_passives yes true) g lapse thresh minu f p in p' 8%nat = p 8%nat /\ p' 1%nat < minu (p' 0%nat) (p' 8%nat).
Proof. exact cold_refuted. Qed.
Print Assumptions C122_cold_refuted.
(** Matter added by the floors brings electrons with it. *)
Theorem C122_leptons_refuted : exists yes n set g lapse thresh minu f p, ax_min yes < ax_max yes /\ (3 <= n)%nat /\ 0 < p 0%nat /\ ax_min yes <= p 8%nat < ax_max yes /\
  let p' := fix_zone n (init_types true set) (init_passives yes true) g lapse thresh minu f p in p 0%nat * p 8%nat < p' 0%nat * p' 8%nat.
Proof. exact leptons_refuted. Qed.
Print Assumptions C122_leptons_refuted.

(** A zone of density 1 and Ye 1/2 to which as much is added. *)
Example C122_nonvacuous : thin_zone 0%nat = 2 /\ thin_zone 8%nat = 1 / 2 /\ thin_zone 10%nat = 1 /\ thin_zone 1%nat = 1 / 2.
Proof. exact thin_numbers. Qed.

(** A scalar per baryon that has one value in a zone, and at its edges and those of its
    neighbours, keeps that value, however the gas moves. *)
Theorem C123_uniform : forall number vchar dx1 dx2 dx3 Dt g g1 g2 g3 lo1 hi1 lo2 hi2 lo3 hi3 S Pi i j k e, number e = true ->
  (forall i j k, 0 <= g1 i j k) -> (forall i j k, 0 <= g2 i j k) -> (forall i j k, 0 <= g3 i j k) -> forall lapse gamma y, p_scalar Pi (8 + e)%nat = y ->
  faces (fun _ _ P => p_scalar P (8 + e)%nat = y) lo1 hi1 lo2 hi2 lo3 hi3 i j k ->
  advanced number vchar dx1 dx2 dx3 Dt g g1 g2 g3 lo1 hi1 lo2 hi2 lo3 hi3 S Pi i j k 0%nat <> 0 ->
  scalar_after number vchar dx1 dx2 dx3 Dt g lapse gamma g1 g2 g3 lo1 hi1 lo2 hi2 lo3 hi3 S Pi i j k (8 + e) = y.
Proof. exact uniform. Qed.
Print Assumptions C123_uniform.
(** Where the gas is nowhere faster than its signals, a scalar per baryon that has one value
    in the zone stays in any range that contains it and its values at the neighbours' edges,
    if not more mass can leave in the step than there is. *)
Theorem C123_between : forall number vchar dx1 dx2 dx3 Dt g g1 g2 g3 lo1 hi1 lo2 hi2 lo3 hi3 S Pi i j k e, number e = true ->
  (forall i j k, 0 <= g1 i j k) -> (forall i j k, 0 <= g2 i j k) -> (forall i j k, 0 <= g3 i j k) -> forall lo hi c1 c2 c3, 0 <= Dt -> 0 < dx1 -> 0 < dx2 -> 0 < dx3 ->
  faces (fun _ dir P => moves vchar dir P) lo1 hi1 lo2 hi2 lo3 hi3 i j k ->
  speeds_below number vchar g1 g2 g3 lo1 hi1 lo2 hi2 lo3 hi3 c1 c2 c3 i j k ->
  faces (fun _ _ P => inside_range lo hi (p_scalar P (8 + e)%nat)) lo1 hi1 lo2 hi2 lo3 hi3 i j k ->
  let y P := p_scalar P (8 + e)%nat in forall lapse gamma,
  (y (lo1 i j k) = y Pi /\ y (hi1 i j k) = y Pi) /\ (y (lo2 i j k) = y Pi /\ y (hi2 i j k) = y Pi) /\ (y (lo3 i j k) = y Pi /\ y (hi3 i j k) = y Pi) ->
  at_most_out Dt dx1 (g1 i j k) c1 (lo1 i j k) + at_most_out Dt dx1 (g1 (i + 1)%Z j k) c1 (hi1 i j k) +
  at_most_out Dt dx2 (g2 i j k) c2 (lo2 i j k) + at_most_out Dt dx2 (g2 i (j + 1)%Z k) c2 (hi2 i j k) +
  at_most_out Dt dx3 (g3 i j k) c3 (lo3 i j k) + at_most_out Dt dx3 (g3 i j (k + 1)%Z) c3 (hi3 i j k) <= p_rho Pi * p_ucon Pi 0%nat * g ->
  0 < advanced number vchar dx1 dx2 dx3 Dt g g1 g2 g3 lo1 hi1 lo2 hi2 lo3 hi3 S Pi i j k 0%nat ->
  inside_range lo hi (scalar_after number vchar dx1 dx2 dx3 Dt g lapse gamma g1 g2 g3 lo1 hi1 lo2 hi2 lo3 hi3 S Pi i j k (8 + e)).
Proof. exact donor. Qed.
Print Assumptions C123_between.
(** The same for a scalar whose values at opposite edges have the zone's value as their mean,
    if through no face more mass can leave than a sixth of what there is. *)
Theorem C123_linear : forall number vchar dx1 dx2 dx3 Dt g g1 g2 g3 lo1 hi1 lo2 hi2 lo3 hi3 S Pi i j k e, number e = true ->
  (forall i j k, 0 <= g1 i j k) -> (forall i j k, 0 <= g2 i j k) -> (forall i j k, 0 <= g3 i j k) -> forall lo hi c1 c2 c3, 0 <= Dt -> 0 < dx1 -> 0 < dx2 -> 0 < dx3 ->
  faces (fun _ dir P => moves vchar dir P) lo1 hi1 lo2 hi2 lo3 hi3 i j k ->
  speeds_below number vchar g1 g2 g3 lo1 hi1 lo2 hi2 lo3 hi3 c1 c2 c3 i j k ->
  faces (fun _ _ P => inside_range lo hi (p_scalar P (8 + e)%nat)) lo1 hi1 lo2 hi2 lo3 hi3 i j k ->
  let y P := p_scalar P (8 + e)%nat in let D := p_rho Pi * p_ucon Pi 0%nat * g in forall lapse gamma,
  (y (lo1 i j k) + y (hi1 i j k) = 2 * y Pi) /\ (y (lo2 i j k) + y (hi2 i j k) = 2 * y Pi) /\ (y (lo3 i j k) + y (hi3 i j k) = 2 * y Pi) ->
  (at_most_out Dt dx1 (g1 i j k) c1 (lo1 i j k) <= D / 6 /\ at_most_out Dt dx1 (g1 (i + 1)%Z j k) c1 (hi1 i j k) <= D / 6) /\
  (at_most_out Dt dx2 (g2 i j k) c2 (lo2 i j k) <= D / 6 /\ at_most_out Dt dx2 (g2 i (j + 1)%Z k) c2 (hi2 i j k) <= D / 6) /\
  (at_most_out Dt dx3 (g3 i j k) c3 (lo3 i j k) <= D / 6 /\ at_most_out Dt dx3 (g3 i j (k + 1)%Z) c3 (hi3 i j k) <= D / 6) ->
  0 < advanced number vchar dx1 dx2 dx3 Dt g g1 g2 g3 lo1 hi1 lo2 hi2 lo3 hi3 S Pi i j k 0%nat ->
  inside_range lo hi (scalar_after number vchar dx1 dx2 dx3 Dt g lapse gamma g1 g2 g3 lo1 hi1 lo2 hi2 lo3 hi3 S Pi i j k (8 + e)).
Proof. exact linear. Qed.
Print Assumptions C123_linear.
(** The code's limit on the time step is not enough for that: with such edges, all values
    from 0 to 1, a whole step leaves a negative scalar.  (The code takes a whole step with
    the edges of the half step; these edges are not claimed to be those.) *)
Theorem C123_courant_refuted : exists number vchar dx1 dx2 dx3 cour g g1 g2 g3 lo1 hi1 lo2 hi2 lo3 hi3 S Pi c1 c2 c3, number 0%nat = true /\ cour = 9 / 10 /\ 0 < dx1 /\ 0 < dx2 /\ 0 < dx3 /\
  faces (fun _ dir P => moves vchar dir P) lo1 hi1 lo2 hi2 lo3 hi3 0 0 0 /\ speeds_below number vchar g1 g2 g3 lo1 hi1 lo2 hi2 lo3 hi3 c1 c2 c3 0 0 0 /\
  faces (fun _ _ P => inside_range 0 1 (p_scalar P 8%nat)) lo1 hi1 lo2 hi2 lo3 hi3 0 0 0 /\
  p_scalar (lo1 0%Z 0%Z 0%Z) 8%nat + p_scalar (hi1 0%Z 0%Z 0%Z) 8%nat = 2 * p_scalar Pi 8%nat /\
  p_scalar (lo2 0%Z 0%Z 0%Z) 8%nat + p_scalar (hi2 0%Z 0%Z 0%Z) 8%nat = 2 * p_scalar Pi 8%nat /\
  p_scalar (lo3 0%Z 0%Z 0%Z) 8%nat + p_scalar (hi3 0%Z 0%Z 0%Z) 8%nat = 2 * p_scalar Pi 8%nat /\
  scalar_after number vchar dx1 dx2 dx3 (fluxcalc_dt cour dx1 dx2 dx3 c1 c2 c3) g 1 1 g1 g2 g3 lo1 hi1 lo2 hi2 lo3 hi3 S Pi 0 0 0 8 < 0.
Proof. exact courant_refuted. Qed.
Print Assumptions C123_courant_refuted.

(** Gas moving at the signal speed, its scalar rising from 0 to 1 across a zone. *)
Example C123_nonvacuous : faces (fun _ dir P => moves speed dir P) (low (1 / 4)) (low (3 / 4)) (flat (1 / 2)) (flat (1 / 2)) (flat (1 / 2)) (flat (1 / 2)) 0 0 0 /\
  speeds_below (fun _ => true) speed one one one (low (1 / 4)) (low (3 / 4)) (flat (1 / 2)) (flat (1 / 2)) (flat (1 / 2)) (flat (1 / 2)) 1 1 1 0 0 0 /\
  faces (fun _ _ P => inside_range 0 1 (p_scalar P 8%nat)) (low (1 / 4)) (low (3 / 4)) (flat (1 / 2)) (flat (1 / 2)) (flat (1 / 2)) (flat (1 / 2)) 0 0 0 /\
  at_most_out (1 / 10) 1 1 1 (gas (3 / 4)) <= 1 / 6.
Proof. exact case_linear. Qed.
