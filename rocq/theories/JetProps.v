(** C129: electromagnetic flux of the jet in the log. *)
From Coq Require Import Reals Bool ZArith Lra Lia.
From Verif Require Import RLib GeomModel FloorModel BinModel DiagModel DiagSpec DiagProofs DiagMore JetModel JetSpec JetProofs.
Open Scope R_scope.

(** In flat space, with matter removed, component UU of the radial flux is minus Poynting's
    vector, but for the density SMALL that mhd_calc adds. *)
Theorem C129_energy : forall p gdet, exists q, get_state mink mink 1 (P_EM p) = Some q /\
  flux_magnetic gdet (P_EM p) q 1 0 = - (poynting (velocity (vel p)) (mag p) 1%nat + FluxModel.SMALL * lorentz (vel p) * vel p 1%nat) * gdet.
Proof. intros p gdet. exists (flat_state (P_EM p)). split; [apply flat_get|apply flat_energy]. Qed.
Print Assumptions C129_energy.

(** What a zone contributes: component U1, the radial momentum carried outward, where the
    field of the rest frame squared exceeds the density. *)
Theorem C129_zone : forall p gdet, 0 < rho p ->
  (rho p < b2 (velocity (vel p)) (mag p) ->
   jet_zone mink mink 1 gdet p = Some (- (stress (velocity (vel p)) (mag p) 1%nat + FluxModel.SMALL * (vel p 1%nat * vel p 1%nat)) * gdet)) /\
  (b2 (velocity (vel p)) (mag p) <= rho p -> jet_zone mink mink 1 gdet p = Some 0).
Proof.
  intros p gdet P. unfold jet_zone. rewrite flat_get, flat_bsq, flat_momentum. 
  change (vel (P_EM p)) with (vel p). change (mag (P_EM p)) with (mag p). cbv zeta.
  assert (E : rho p * (b2 (velocity (vel p)) (mag p) / rho p) = b2 (velocity (vel p)) (mag p)) by (field; lra).
  split; intros H; destruct (Rltb_spec 1 (b2 (velocity (vel p)) (mag p) / rho p)) as [K|K]; try (exfalso; nra); cbv iota; f_equal; ring.
Qed.
Print Assumptions C129_zone.

Definition back (p : prims) : prims := mkp (rho p) (uu p) (fun i => - vel p i) (mag p).

Lemma velocity_back p i : velocity (vel (back p)) i = - velocity (vel p) i.
Proof.
  unfold velocity. replace (lorentz (vel (back p))) with (lorentz (vel p)); [cbn [vel back]; unfold Rdiv; ring|].
  unfold lorentz. f_equal. unfold dot3. cbn [vel back]. ring.
Qed.
Lemma electric_back p B i : (i = 1 \/ i = 2 \/ i = 3)%nat -> electric (velocity (vel (back p))) B i = - electric (velocity (vel p)) B i.
Proof. intros [-> | [-> | ->]]; unfold electric, cross; rewrite !velocity_back; ring. Qed.

(** Turning the flow round turns Poynting's vector round and leaves the number reported. *)
Theorem C129_blind : forall p gdet, 0 < rho p ->
  poynting (velocity (vel (back p))) (mag (back p)) 1%nat = - poynting (velocity (vel p)) (mag p) 1%nat /\
  jet_zone mink mink 1 gdet (back p) = jet_zone mink mink 1 gdet p.
Proof.
  intros p gdet P. change (mag (back p)) with (mag p). split.
  - unfold poynting. cbn [cross]. rewrite !electric_back by auto. ring.
  - assert (EE : dot3 (electric (velocity (vel (back p))) (mag p)) (electric (velocity (vel (back p))) (mag p)) =
                 dot3 (electric (velocity (vel p)) (mag p)) (electric (velocity (vel p)) (mag p))).
    { unfold dot3. rewrite !electric_back by auto. ring. }
    assert (BB : b2 (velocity (vel (back p))) (mag (back p)) = b2 (velocity (vel p)) (mag p)).
    { change (mag (back p)) with (mag p). unfold b2. rewrite EE. reflexivity. }
    destruct (C129_zone p gdet P) as [A1 A2]. destruct (C129_zone (back p) gdet P) as [D1 D2].
    rewrite BB in D1, D2. change (rho (back p)) with (rho p) in *.
    destruct (Rlt_or_le (rho p) (b2 (velocity (vel p)) (mag p))) as [H|H].
    + rewrite (A1 H), (D1 H). f_equal. change (mag (back p)) with (mag p). unfold stress. rewrite EE, !electric_back by auto. cbn [vel back]. ring.
    + rewrite (A2 H), (D2 H). reflexivity.
Qed.
Print Assumptions C129_blind.

(** So it is not the energy flux: a magnetised fluid at rest, with no energy flowing, is
    reported with a flux, and one flowing outward is reported as losing energy inward. *)
Lemma still_lorentz : lorentz (fun _ => 0) = 1.
Proof. unfold lorentz, dot3. replace (1 + (0 * 0 + 0 * 0 + 0 * 0)) with 1 by ring. apply sqrt_1. Qed.
Lemma outward_lorentz : lorentz (fun i => if Nat.eqb i 1 then 3 / 4 else 0) = 5 / 4.
Proof. unfold lorentz, dot3. cbn [Nat.eqb]. replace (1 + (3 / 4 * (3 / 4) + 0 * 0 + 0 * 0)) with (5 / 4 * (5 / 4)) by field. apply sqrt_square. lra. Qed.
Lemma still_zone : jet_zone mink mink 1 1 (mkp (1 / 4) 0 (fun _ => 0) (fun i => if Nat.eqb i 2 then 1 else 0)) = Some (- (1 / 2)).
Proof.
  destruct (C129_zone (mkp (1 / 4) 0 (fun _ => 0) (fun i => if Nat.eqb i 2 then 1 else 0)) 1) as [A _]; [cbn; lra|].
  rewrite A; cbn [vel mag rho]; unfold b2, stress, dot3, electric, cross, velocity; rewrite still_lorentz; cbn [Nat.eqb]; [f_equal; field|lra].
Qed.
Theorem C129_jet_refuted : exists p q r, 0 < rho p /\ 0 < rho q /\ 0 < r /\
  poynting (velocity (vel p)) (mag p) 1%nat = 0 /\ jet_zone mink mink 1 1 p = Some (- (1 / 2)) /\
  0 < poynting (velocity (vel q)) (mag q) 1%nat /\ jet_zone mink mink 1 1 q = Some (- r).
Proof.
  set (q := mkp (1 / 4) 0 (fun i => if Nat.eqb i 1 then 3 / 4 else 0) (fun i => if Nat.eqb i 2 then 1 else 0)).
  exists (mkp (1 / 4) 0 (fun _ => 0) (fun i => if Nat.eqb i 2 then 1 else 0)), q, (17 / 25 + FluxModel.SMALL * (9 / 16)).
  assert (S : 0 < FluxModel.SMALL) by (unfold FluxModel.SMALL; lra).
  split; [cbn; lra|]. split; [cbn; lra|]. split; [lra|]. split; [|split; [apply still_zone|split]].
  - cbn [vel mag]. unfold poynting, electric, cross, velocity. rewrite still_lorentz. cbn [Nat.eqb]. field.
  - unfold q. cbn [vel mag]. unfold poynting, electric, cross, velocity. rewrite outward_lorentz. cbn [Nat.eqb]. lra.
  - destruct (C129_zone q 1) as [A _]; [cbn; lra|].
    rewrite A; unfold q; cbn [vel mag rho]; unfold b2, stress, dot3, electric, cross, velocity; rewrite outward_lorentz; cbn [Nat.eqb]; [f_equal; field|lra].
Qed.
Print Assumptions C129_jet_refuted.

(** The contributions of the shell 5 are each added once, over all processes, if the first
    processes have more than five zones across. *)
Theorem C129_sum : forall g jz, (0 < c1 g)%nat -> (5 < n1 g)%nat -> jet_EM_flux g jz = through g jz 5.
Proof. exact jet_sum. Qed.
Print Assumptions C129_sum.

(** With fewer zones to a process the shell exists and nothing is reported. *)
Theorem C129_sum_refuted : exists g jz, (5 < tot1 g)%nat /\ jet_EM_flux g jz = 0 /\ 0 < through g jz 5.
Proof.
  exists (one_zone 3 2 1 1), (fun _ _ _ => 1). split; [cbn; lia|]. split; [apply jet_thin; cbn; lia|].
  unfold through, around, sum, tot2, tot3. cbn. lra.
Qed.
Print Assumptions C129_sum_refuted.

Example C129_nonvacuous : exists p, 0 < rho p /\ rho p < b2 (velocity (vel p)) (mag p) /\ jet_zone mink mink 1 1 p = Some (- (1 / 2)) /\
  jet_EM_flux (Grid 8 2 1 1 1 1 0 1 1 1) (fun _ _ _ => - (1 / 2)) = -1.
Proof.
  exists (mkp (1 / 4) 0 (fun _ => 0) (fun i => if Nat.eqb i 2 then 1 else 0)). split; [cbn; lra|]. split; [|split; [apply still_zone|]].
  - cbn [vel mag rho]. unfold b2, dot3, electric, cross, velocity. rewrite still_lorentz. cbn [Nat.eqb]. lra.
  - rewrite C129_sum by (cbn; lia). unfold through, around, sum, tot2, tot3. cbn. lra.
Qed.
