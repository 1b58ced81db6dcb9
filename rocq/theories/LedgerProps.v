(** C106: lepton number between gas and neutrinos. *)
From Coq Require Import Reals Bool ZArith List Lia Lra.
From Verif Require Import TallyModel LedgerModel LedgerSpec LedgerProofs.
From Verif Require EmitModel EmitSpec.
Import ListNotations.
Open Scope R_scope.

(** C106, what is true of every step: any sequence of emissions, absorptions, scatterings and losses, followed by apply_rad_force with
    a recovery that keeps the mass, changes the total that count_leptons reports by exactly the drift of LedgerSpec. *)
Theorem C106_drift : forall dt d3x MP M_unit uh ug, dt * d3x <> 0 -> MP <> 0 -> M_unit <> 0 -> forall zs, NoDup zs ->
  forall RHO_unit L_unit f rho' ut' s s' es lost, RHO_unit * L_unit ^ 3 = M_unit ->
  (forall z, In z zs -> rho (f z) * ut (f z) * g (f z) <> 0 /\ rho' z * ut' z * g (f z) = rho (f z) * ut (f z) * g (f z)) ->
  (forall z, radG_ye s z = 0) -> lost_local s = 0 -> Forall (inside zs) es -> happens dt d3x MP M_unit uh ug s es = Some s' ->
  lepton_tot d3x MP RHO_unit L_unit zs (apply_rad_force dt f rho' ut' (radG_ye s')) (packets s') (lost + lost_local s')
  - lepton_tot d3x MP RHO_unit L_unit zs f (packets s) lost = drift uh ug (packets s) es.
Proof. exact ledger. Qed.
Print Assumptions C106_drift.
(** Where u^t is 1 and no scattering fails the total does not change. *)
Theorem C106_calm : forall dt d3x MP M_unit uh ug, dt * d3x <> 0 -> MP <> 0 -> M_unit <> 0 -> forall zs, NoDup zs ->
  forall RHO_unit L_unit f rho' ut' s s' es lost, RHO_unit * L_unit ^ 3 = M_unit ->
  (forall z, In z zs -> rho (f z) * ut (f z) * g (f z) <> 0 /\ rho' z * ut' z * g (f z) = rho (f z) * ut (f z) * g (f z)) ->
  (forall z, radG_ye s z = 0) -> lost_local s = 0 -> Forall (inside zs) es -> Forall (calm uh ug) es -> happens dt d3x MP M_unit uh ug s es = Some s' ->
  lepton_tot d3x MP RHO_unit L_unit zs (apply_rad_force dt f rho' ut' (radG_ye s')) (packets s') (lost + lost_local s')
  = lepton_tot d3x MP RHO_unit L_unit zs f (packets s) lost.
Proof.
  intros dt d3x MP M_unit uh ug D HM HU zs ND RU L f rho' ut' s s' es lost EU H R0 L0 F C E. pose proof (ledger dt d3x MP M_unit uh ug D HM HU zs ND RU L f rho' ut' s s' es lost EU H R0 L0 F E) as X.
  rewrite (calm_drift uh ug es (packets s) C) in X. lra.
Qed.
Print Assumptions C106_calm.
(** The emission is that of C61: the gas of the zones loses u^t times the lepton number of the packets made there. *)
Theorem C106_emission : forall RHO_unit L_unit zs f rho' ut' r u gd es e ds e' rest,
  EmitModel.dt r * EmitModel.d3x r <> 0 -> EmitModel.MP r <> 0 -> EmitModel.M_unit r <> 0 -> EmitModel.neutrinos r = true ->
  Forall (fun zd => u (EmitModel.zone_of (fst zd)) = EmitModel.ucon0 (fst zd) /\ gd (EmitModel.zone_of (fst zd)) = EmitModel.gdet (fst zd)) es ->
  EmitModel.emit_sites false r es e ds = EmitModel.Got e' rest ->
  RHO_unit * L_unit ^ 3 = EmitModel.M_unit r -> (forall z, In z zs -> rho (f z) * ut (f z) * g (f z) <> 0 /\ rho' z * ut' z * g (f z) = rho (f z) * ut (f z) * g (f z)) ->
  exists new, EmitModel.photons e' = new ++ EmitModel.photons e /\
  let force e := apply_rad_force (EmitModel.dt r) f rho' ut' (fun z => EmitModel.radG_ye (EmitModel.cells e z)) in
  let gas e := lepton_gas (EmitModel.d3x r) (EmitModel.MP r) RHO_unit L_unit zs (force e) in
  gas e' - gas e = - fold_right (fun z a => u z * EmitSpec.total (fun p => EmitModel.w p * lepton_number (EmitModel.type p))
                                   (filter (fun p => let '(_, i, j, k) := EmitModel.origin p in EmitModel.zone_eqb (i, j, k) z) new) + a) 0 zs.
Proof. exact emission. Qed.
Print Assumptions C106_emission.
(** One electron neutrino packet made in gas with u^t = 5/4 and nothing else: the total changes. *)
Definition C106_zone : zone := (3, 3, 3)%Z.
Definition C106_gas : zone -> gas := fun _ => mkg 4 (5 / 4) (1 / 2) 1.
Definition C106_empty : state := mks [] (fun _ => 0) 0.
Theorem C106_refuted : exists dt d3x MP M_unit uh ug zs RHO_unit L_unit f rho' ut' s s' es lost, 0 < dt * d3x /\ 0 < MP /\ 0 < M_unit /\ NoDup zs /\ RHO_unit * L_unit ^ 3 = M_unit /\
  (forall z, In z zs -> 0 < rho (f z) * ut (f z) * g (f z) /\ rho' z * ut' z * g (f z) = rho (f z) * ut (f z) * g (f z) /\ uh z = ut (f z) /\ ug z = ut (f z)) /\
  (forall z, radG_ye s z = 0) /\ lost_local s = 0 /\ Forall (inside zs) es /\ (forall n b, ~ In (ScatterFails n b) es) /\ happens dt d3x MP M_unit uh ug s es = Some s' /\
  lepton_tot d3x MP RHO_unit L_unit zs (apply_rad_force dt f rho' ut' (radG_ye s')) (packets s') (lost + lost_local s') <> lepton_tot d3x MP RHO_unit L_unit zs f (packets s) lost.
Proof.
  exists 1, 1, 1, 1, (fun _ => 5 / 4), (fun _ => 5 / 4), [C106_zone], 1, 1, C106_gas, (fun _ => 4), (fun _ => 5 / 4), C106_empty.
  eexists. exists [Emit C106_zone (mkn 1 0)], 0. do 3 (split; [lra|]). split; [repeat constructor; cbn; tauto|]. split; [ring|].
  split; [intros z _; cbn; repeat split; lra|]. split; [reflexivity|]. split; [reflexivity|]. split; [repeat constructor; cbn; tauto|]. split; [intros n b [X|[]]; discriminate|]. split; [reflexivity|].
  intros X. match type of X with ?a = ?b => assert (Y : a - b = 0) by lra end.
  rewrite (ledger 1 1 1 1 (fun _ => 5 / 4) (fun _ => 5 / 4) ltac:(lra) ltac:(lra) ltac:(lra) [C106_zone] ltac:(repeat constructor; cbn; tauto) 1 1 C106_gas (fun _ => 4) (fun _ => 5 / 4) C106_empty _ [Emit C106_zone (mkn 1 0)] 0) in Y.
  - unfold drift, drift1, worth, lepton_number in Y. cbn [nw ntype] in Y. lra.
  - ring.
  - intros z _. cbn. split; lra.
  - reflexivity.
  - reflexivity.
  - repeat constructor; cbn; tauto.
  - reflexivity.
Qed.
Print Assumptions C106_refuted.
(** Emission takes u^t from another state than absorption: made and absorbed at once in the same zone, a packet still leaves a change. *)
Theorem C106_round_refuted : exists uh ug s' es, uh C106_zone <> ug C106_zone /\ 1 <= uh C106_zone /\ 1 <= ug C106_zone /\ es = [Emit C106_zone (mkn 1 0); Absorb 0 C106_zone] /\
  happens 1 1 1 1 uh ug C106_empty es = Some s' /\ lepton_rad (packets s') = 0 /\
  lepton_tot 1 1 1 1 [C106_zone] (apply_rad_force 1 C106_gas (fun _ => 4) (fun _ => 5 / 4) (radG_ye s')) (packets s') (0 + lost_local s') <> lepton_tot 1 1 1 1 [C106_zone] C106_gas [] 0.
Proof.
  exists (fun _ => 5 / 4), (fun _ => 1). eexists. exists [Emit C106_zone (mkn 1 0); Absorb 0 C106_zone]. repeat (split; [first [lra|reflexivity]|]). split; [unfold lepton_rad; cbn; ring|].
  intros X. match type of X with ?a = ?b => assert (Y : a - b = 0) by lra end. change (@nil nu_packet) with (packets C106_empty) in Y.
  rewrite (ledger 1 1 1 1 (fun _ => 5 / 4) (fun _ => 1) ltac:(lra) ltac:(lra) ltac:(lra) [C106_zone] ltac:(repeat constructor; cbn; tauto) 1 1 C106_gas (fun _ => 4) (fun _ => 5 / 4) C106_empty _ [Emit C106_zone (mkn 1 0); Absorb 0 C106_zone] 0) in Y.
  - cbn [drift drift1 after nth_error packets C106_empty] in Y. unfold worth, lepton_number in Y. cbn [nw ntype] in Y. lra.
  - ring.
  - intros z _. cbn. split; lra.
  - reflexivity.
  - reflexivity.
  - repeat constructor; cbn; tauto.
  - reflexivity.
Qed.
Print Assumptions C106_round_refuted.
Example C106_nonvacuous : exists s', happens 1 1 1 1 (fun _ => 1) (fun _ => 1) C106_empty [Emit C106_zone (mkn 2 0); Emit C106_zone (mkn 3 1); Scatter 1 4; Leave 0; Absorb 0 C106_zone] = Some s' /\
  Forall (inside [C106_zone]) [Emit C106_zone (mkn 2 0); Emit C106_zone (mkn 3 1); Scatter 1 4; Leave 0; Absorb 0 C106_zone] /\
  Forall (calm (fun _ => 1) (fun _ => 1)) [Emit C106_zone (mkn 2 0); Emit C106_zone (mkn 3 1); Scatter 1 4; Leave 0; Absorb 0 C106_zone] /\
  length (packets s') = 2%nat /\ lost_local s' = -3 /\ lepton_rad (packets s') = 1 / 2.
Proof.
  eexists. split; [reflexivity|]. split; [repeat constructor; cbn; try tauto; lra|]. split; [repeat constructor|]. split; [reflexivity|]. split; [cbn; unfold get_lepton_sign; cbn; lra|]. unfold lepton_rad. cbn. unfold get_lepton_sign. cbn. field.
Qed.
