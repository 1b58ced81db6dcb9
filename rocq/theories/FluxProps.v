(** Property theorems C33-C35 and C70 (fluxes and update). *)
From Coq Require Import Reals ZArith Bool Lia Lra.
From Verif Require Import RLib FluxModel FluxSpec FluxProofs FluxMore.
Open Scope R_scope.

(** C33.  Blocks of any sizes and offsets whose flux arrays (before flux_ct)
    are windows of global arrays; whatever was left in the static emf arrays,
    whatever the four-velocities and source terms.  At every corner all of
    whose eight zones were advanced by some block the corner-centred divergence
    of the densitised field is unchanged, for every time step. *)
Theorem C33_divergence : forall Dt dx1 dx2 dx3 g G1 G2 G3 P P' i j k,
  dx1 <> 0 -> dx2 <> 0 -> dx3 <> 0 ->
  (forall x y z, around i j k x y z -> covered Dt dx1 dx2 dx3 g G1 G2 G3 P P' x y z) ->
  corner_div dx1 dx2 dx3 (dens g P' B1) (dens g P' B2) (dens g P' B3) i j k =
  corner_div dx1 dx2 dx3 (dens g P B1) (dens g P B2) (dens g P B3) i j k.
Proof. exact ct_divb. Qed.
Print Assumptions C33_divergence.
(** The code's own diagnostic reports that divergence. *)
Theorem C33_diagnostic : forall dx1 dx2 dx3 g P i j k,
  flux_ct_divb dx1 dx2 dx3 g P i j k =
  Rabs (corner_div dx1 dx2 dx3 (dens g P B1) (dens g P B2) (dens g P B3) i j k).
Proof. intros. exact (f_equal Rabs (divb_corner dx1 dx2 dx3 g P i j k)). Qed.
Print Assumptions C33_diagnostic.
(** The conserved magnetic variables are the densitised primitives, and a field
    component has no flux in its own direction. *)
Theorem C33_conserved : forall g B ucon ucov m, ucon 0%nat <> 0 -> (1 <= m)%nat ->
  primtoflux_B g B ucon ucov 0 m = g * B m /\ primtoflux_B g B ucon ucov m m = 0.
Proof. intros g B ucon ucov m H M. exact (conj (cons_B g B ucon ucov m H M) (flux_B_self g B ucon ucov m)). Qed.
Print Assumptions C33_conserved.
(** flux_ct leaves fluxes alone that come from one electric field linear in position, whatever
    was in the static arrays: it averages to second order and changes no other flux. *)
Theorem C33_consistent : forall E1 E2 E3 F1 F2 F3 N1 N2 N3 s1 s2 s3, affine E1 -> affine E2 -> affine E3 -> from_emf E1 E2 E3 F1 F2 F3 ->
  forall i j k ip,
  ct1 F1 F2 F3 N1 N2 N3 s2 s3 i j k ip = F1 i j k ip /\
  ct2 F1 F2 F3 N1 N2 N3 s1 s3 i j k ip = F2 i j k ip /\
  ct3 F1 F2 F3 N1 N2 N3 s1 s2 i j k ip = F3 i j k ip.
Proof. exact ct_consistent. Qed.
Print Assumptions C33_consistent.
Example C33_consistent_nonvacuous : let E3 := fun x y z : R => x + 2 * y + 3 * z in let E := fun _ _ _ : R => 7 in
  let F1 : field := fun i j k ip => if Nat.eqb ip B2 then E3 (IZR i - 1/2) (IZR j) (IZR k) else if Nat.eqb ip B3 then - 7 else 0 in
  let F2 : field := fun i j k ip => if Nat.eqb ip B1 then - E3 (IZR i) (IZR j - 1/2) (IZR k) else if Nat.eqb ip B3 then 7 else 0 in
  let F3 : field := fun i j k ip => if Nat.eqb ip B1 then 7 else if Nat.eqb ip B2 then - 7 else 0 in
  affine E /\ affine E3 /\ from_emf E E E3 F1 F2 F3.
Proof.
  split; [exists 7, 0, 0, 0; intros; lra|]. split; [exists 0, 1, 2, 3; intros; lra|]. repeat split.
Qed.
(** One 2x2x2 block, a sheared flux of B2 in direction 1: the field changes in
    a zone of the block, and the corner (1,1,1) is covered. *)
Definition ex_F1 : field := fun i j k ip => if Nat.eqb ip B2 then IZR i * IZR j else 0.
Definition ex_0 : field := fun _ _ _ _ => 0.
Definition ex_block : block := Block 2 2 2 0 0 0 ex_F1 ex_0 ex_0
  (fun _ _ _ => 7) (fun _ _ _ => 7) (fun _ _ _ => 7) (fun _ _ _ _ => 1) (fun _ _ _ _ => 3) (fun _ _ _ _ => 5).
Example C33_nonvacuous :
  windows ex_F1 ex_0 ex_0 ex_block /\
  block_advance 1 1 1 1 (fun _ _ => 1) ex_0 ex_block 0%Z 0%Z 0%Z B1 = 1 / 4 /\
  (let P' := fun i j k ip => block_advance 1 1 1 1 (fun _ _ => 1) ex_0 ex_block i j k ip in
   forall x y z, around 1 1 1 x y z -> covered 1 1 1 1 (fun _ _ => 1) ex_F1 ex_0 ex_0 ex_0 P' x y z).
Proof.
  assert (W : windows ex_F1 ex_0 ex_0 ex_block).
  { split; [|intros; cbn; lra]. intros i j k ip _. cbn [f1 f2 f3 ex_block o1 o2 o3]. rewrite !Z.add_0_l. auto. }
  split; [exact W|]. split.
  - pose proof (zone1 1 1 1 1 (fun _ _ => 1) ex_F1 ex_0 ex_0 ex_0 ex_block W 0 0 0) as H.
    destruct H as [H _]; [cbn; unfold inside_block; cbn; lia|lra|lra|lra|lra|].
    cbv zeta in H. rewrite Rmult_1_l in H. rewrite H.
    unfold ideal1, e3, e2, emf3v, emf2v, ex_F1, ex_0, ex_block. cbn -[IZR]. lra.
  - intros P' x y z A. exists ex_block, x, y, z. unfold around in A.
    split; [exact W|]. split; [unfold inside_block; cbn; lia|]. cbn [o1 o2 o3 ex_block].
    repeat split; try lia. lra.
Qed.

(** C34.  Totals over a grid of any size change by the boundary fluxes and the
    sources only. *)
Theorem C34_totals : forall N1 N2 N3 Dt dx1 dx2 dx3 F1 F2 F3 (U dU : field) ip,
  dx1 <> 0 -> dx2 <> 0 -> dx3 <> 0 ->
  Rsum3 N1 N2 N3 (fun i j k => update Dt dx1 dx2 dx3 F1 F2 F3 (U i j k) (dU i j k) i j k ip) =
  Rsum3 N1 N2 N3 (fun i j k => U i j k ip) +
  Dt * (Rsum2 N2 N3 (fun j k => F1 0%Z j k ip - F1 (Z.of_nat N1) j k ip) / dx1 +
        Rsum2 N1 N3 (fun i k => F2 i 0%Z k ip - F2 i (Z.of_nat N2) k ip) / dx2 +
        Rsum2 N1 N2 (fun i j => F3 i j 0%Z ip - F3 i j (Z.of_nat N3) ip) / dx3 +
        Rsum3 N1 N2 N3 (fun i j k => dU i j k ip)).
Proof. exact totals. Qed.
Print Assumptions C34_totals.
(** Quantities other than energy and momentum have no source: with matching
    boundary fluxes (periodic grid) their total is constant. *)
Theorem C34_periodic : forall N1 N2 N3 Dt dx1 dx2 dx3 F1 F2 F3 (U S : field) g ip,
  dx1 <> 0 -> dx2 <> 0 -> dx3 <> 0 ->
  (forall j k, F1 (Z.of_nat N1) j k ip = F1 0%Z j k ip) ->
  (forall i k, F2 i (Z.of_nat N2) k ip = F2 i 0%Z k ip) ->
  (forall i j, F3 i j (Z.of_nat N3) ip = F3 i j 0%Z ip) ->
  (ip < 1 \/ 4 < ip)%nat ->
  Rsum3 N1 N2 N3 (fun i j k => update Dt dx1 dx2 dx3 F1 F2 F3 (U i j k) (source (g i j) (S i j k)) i j k ip) =
  Rsum3 N1 N2 N3 (fun i j k => U i j k ip).
Proof. exact periodic_totals. Qed.
Print Assumptions C34_periodic.
(** flux_ct does not disturb the other conserved quantities. *)
Theorem C34_ct_keeps : forall F1 F2 F3 N1 N2 N3 a b c i j k ip, ip <> B1 -> ip <> B2 -> ip <> B3 ->
  ct1 F1 F2 F3 N1 N2 N3 a b i j k ip = F1 i j k ip /\ ct2 F1 F2 F3 N1 N2 N3 c b i j k ip = F2 i j k ip /\
  ct3 F1 F2 F3 N1 N2 N3 c a i j k ip = F3 i j k ip.
Proof. exact ct_keeps. Qed.
Print Assumptions C34_ct_keeps.
(** Two zones in a row, flux i^2 in direction 1, dx1 = 1/2: the total falls by
    the outflow 4 through the right face, times 2. *)
Example C34_nonvacuous :
  Rsum3 2 1 1 (fun i j k => update 1 (1/2) 1 1 (fun i _ _ _ => IZR i * IZR i) ex_0 ex_0 (fun _ => 3) (fun _ => 1) i j k 0%nat)
  = 6 + 1 * (- 8 + 2) /\
  update 1 (1/2) 1 1 (fun i _ _ _ => IZR i * IZR i) ex_0 ex_0 (fun _ => 3) (fun _ => 1) 0%Z 0%Z 0%Z 0%nat = 2.
Proof. unfold Rsum3, update, ex_0. cbn -[IZR]. split; lra. Qed.

(** C35. *)
Theorem C35_consistent : forall Pt phys vchar g dir p, SMALL <= g ->
  forall ip, fst (lr_to_flux Pt phys vchar g dir p p) ip = phys dir p ip.
Proof. exact lr_consistent. Qed.
Print Assumptions C35_consistent.
Theorem C35_degenerate : forall Pt phys vchar g dir l r, g < SMALL ->
  forall ip, fst (lr_to_flux Pt phys vchar g dir l r) ip = 0.
Proof. exact lr_small. Qed.
Print Assumptions C35_degenerate.
(** [refl] reflects a state in the direction; [par] is the parity of each
    conserved quantity under it. *)
Theorem C35_reflect : forall Pt phys vchar refl par g dir l r,
  (forall p ip, phys 0%nat (refl p) ip = par ip * phys 0%nat p ip) ->
  (forall p ip, phys dir (refl p) ip = - par ip * phys dir p ip) ->
  (forall p, vchar (refl p) = (- snd (vchar p), - fst (vchar p))) ->
  (forall ip, fst (lr_to_flux Pt phys vchar g dir (refl r) (refl l)) ip =
    - par ip * fst (lr_to_flux Pt phys vchar g dir l r) ip) /\
  snd (lr_to_flux Pt phys vchar g dir (refl r) (refl l)) = snd (lr_to_flux Pt phys vchar g dir l r).
Proof. exact lr_reflect. Qed.
Print Assumptions C35_reflect.
(** The dissipation speed bounds every signal speed of both states, and is no
    larger than needed. *)
Theorem C35_dissipation : forall Pt phys vchar g dir l r, SMALL <= g ->
  let c := snd (lr_to_flux Pt phys vchar g dir l r) in
  forall p, p = l \/ p = r -> forall s, snd (vchar p) <= s <= fst (vchar p) -> Rabs s <= c.
Proof. exact lr_speed. Qed.
Print Assumptions C35_dissipation.
Theorem C35_dissipation_least : forall Pt phys vchar g dir l r, SMALL <= g ->
  let c := snd (lr_to_flux Pt phys vchar g dir l r) in
  c = 0 \/ c = fst (vchar l) \/ c = fst (vchar r) \/ c = - snd (vchar l) \/ c = - snd (vchar r).
Proof. exact lr_speed_least. Qed.
Print Assumptions C35_dissipation_least.
(** A quantity carried with one speed within the signal speeds: the flux rises
    with the left density and falls with the right one. *)
Theorem C35_upwind : forall Pt phys vchar g dir l r ip a, SMALL <= g ->
  snd (vchar l) <= a <= fst (vchar l) ->
  phys dir l ip = a * phys 0%nat l ip -> phys dir r ip = a * phys 0%nat r ip ->
  exists x y, 0 <= x /\ 0 <= y /\ x - y = a /\
  fst (lr_to_flux Pt phys vchar g dir l r) ip = x * phys 0%nat l ip - y * phys 0%nat r ip.
Proof. exact lr_monotone. Qed.
Print Assumptions C35_upwind.
(** Density and velocity (d, v), flux d*v, signal speeds v-1 and v+1; the
    reflection negates v. *)
Definition ex_phys (dir : nat) (p : R * R) (ip : nat) : R :=
  if Nat.eqb dir 0 then fst p else fst p * snd p.
Definition ex_vchar (p : R * R) : R * R := (snd p + 1, snd p - 1).
Example C35_nonvacuous :
  fst (lr_to_flux _ ex_phys ex_vchar 1 1 (2, 1 / 2) (1, 1 / 2)) 0%nat = 3 / 2 /\
  (forall p, ex_vchar (fst p, - snd p) = (- snd (ex_vchar p), - fst (ex_vchar p))) /\
  (forall p ip, ex_phys 1 (fst p, - snd p) ip = - 1 * ex_phys 1 p ip).
Proof.
  split.
  - assert (S : SMALL <= 1) by (unfold SMALL; rewrite <- Rinv_1; apply Rinv_le_contravar; [lra|apply pow_R1_Rle; lra]).
    destruct (lr_unfold (R * R) ex_phys ex_vchar 1 1 (2, 1/2) (1, 1/2) S) as (c & -> & ->).
    unfold ex_phys, ex_vchar. cbn [fst snd Nat.eqb].
    rewrite (Rmax_right 0) by lra. rewrite (Rmax_left (1 / 2 + 1)) by lra.
    rewrite (Rmax_right 0) by lra. rewrite (Rmax_left (- (1 / 2 - 1))) by lra. rewrite Rmax_left by lra. lra.
  - split; intros; unfold ex_vchar, ex_phys; cbn [fst snd Nat.eqb]; [f_equal|]; ring.
Qed.

(** C70.  The proposed step obeys the Courant condition summed over the
    directions, with the given safety number, and exactly so. *)
Theorem C70_courant : forall cour dx1 dx2 dx3 c1 c2 c3, 0 < cour -> 0 < dx1 -> 0 < dx2 -> 0 < dx3 ->
  0 < c1 -> 0 < c2 -> 0 < c3 ->
  let dt := fluxcalc_dt cour dx1 dx2 dx3 c1 c2 c3 in
  0 < dt /\ dt * (c1 / dx1 + c2 / dx2 + c3 / dx3) = cour /\
  dt * c1 < cour * dx1 /\ dt * c2 < cour * dx2 /\ dt * c3 < cour * dx3.
Proof. exact courant. Qed.
Print Assumptions C70_courant.
Example C70_nonvacuous : fluxcalc_dt (9/10) 1 2 4 1 1 1 = 18 / 35.
Proof. unfold fluxcalc_dt. lra. Qed.
