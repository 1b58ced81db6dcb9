(** C105: the stress tensor of the radiation. *)
From Coq Require Import Reals Bool ZArith List Permutation Lia Lra.
From Verif Require Import GeomModel GeomSpec NullProofs TallyModel TallySpec TallyProofs.
Import ListNotations.
Open Scope R_scope.

(** C105.  Neither the order of the superphotons nor their distribution over threads matters. *)
Theorem C105_order : forall k L dx gdet ts ts', Permutation (concat ts) (concat ts') -> forall z,
  let a := set_Rmunu k L dx gdet ts in let b := set_Rmunu k L dx gdet ts' in
  Nsph a z = Nsph b z /\ nph a z = nph b z /\ forall mu nu, Rmunu a z mu nu = Rmunu b z mu nu.
Proof. exact order_all. Qed.
Print Assumptions C105_order.
(** Summed over zones: every superphoton that is not a tracer counts once, and the densities times the volumes (in cm^3) give the
    number of particles. *)
Theorem C105_numbers : forall k L dx gdet ts zs, NoDup zs -> (forall p, In p (concat ts) -> In (pz p) zs) ->
  let a := set_Rmunu k L dx gdet ts in let real := filter (fun p => negb (Z.eqb (ptype p) (-1))) (concat ts) in
  totalZ (Nsph a) zs = Z.of_nat (length real) /\
  (L <> 0 -> (forall i j k, In (i, j, k) zs -> gdet i j * dx 1%nat * dx 2%nat * dx 3%nat <> 0) ->
   total (fun z => let '(i, j, k) := z in nph a z * (gdet i j * dx 1%nat * dx 2%nat * dx 3%nat * L ^ 3)) zs = total pw real).
Proof.
  intros k L dx gdet ts zs N I a real. split; [exact (numbers k L dx gdet ts zs N I)|]. intros L0 V. unfold real. fold counted. change (fun p => negb (ptype p =? -1)%Z) with counted.
  rewrite <- (particles k L dx gdet ts zs N I); [|intros [[i j] q] H; exact (V i j q H)|exact L0]. apply total_ext. intros [[i j] q] _. reflexivity.
Qed.
Print Assumptions C105_numbers.
(** R^0_nu times the volume, summed over zones, is the total covariant four-momentum of the superphotons in the code's unit. *)
Theorem C105_momentum : forall k L dx gdet ts zs nu, NoDup zs -> (forall p, In p (concat ts) -> In (pz p) zs /\ (ptype p <> (-1)%Z -> pKcon p 0%nat <> 0)) ->
  (forall i j k, In (i, j, k) zs -> gdet i j * dx 1%nat * dx 2%nat * dx 3%nat <> 0) ->
  total (fun z => let '(i, j, _) := z in Rmunu (set_Rmunu k L dx gdet ts) z 0%nat nu * (gdet i j * dx 1%nat * dx 2%nat * dx 3%nat)) zs =
  k * total (fun p => pw p * pKcov p nu) (filter (fun p => negb (Z.eqb (ptype p) (-1))) (concat ts)).
Proof.
  intros k L dx gdet ts zs nu N I V. change (fun p => negb (ptype p =? -1)%Z) with counted. rewrite <- (momentum k L dx gdet ts zs nu N).
  - apply total_ext. intros [[i j] q] _. reflexivity.
  - intros p Ip. destruct (I p Ip) as [Z K]. split; [exact Z|]. intros C. apply K. unfold counted in C. apply negb_true_iff, Z.eqb_neq in C. exact C.
  - intros [[i j] q] H. exact (V i j q H).
Qed.
Print Assumptions C105_momentum.
(** In one zone, superphotons on future null directions with weights that are not negative, metric that of the zone: the tensor is
    symmetric and traceless; every observer finds an energy density that is not negative and an energy flux not faster than light. *)
Theorem C105_tensor : forall k L dx gdet G alpha beta, spacetime G alpha beta -> forall ts i j l, 0 < k -> 0 < gdet i j * dx 1%nat * dx 2%nat * dx 3%nat ->
  (forall p, In p (concat ts) -> pz p = (i, j, l) -> ptype p <> (-1)%Z ->
     0 <= pw p /\ 0 < pKcon p 0%nat /\ inner G (pKcon p) (pKcon p) = 0 /\ same4 (pKcov p) (fun mu => sigma4 (fun nu => G mu nu * pKcon p nu))) ->
  let T := Rmunu (set_Rmunu k L dx gdet ts) (i, j, l) in
  sigma4 (fun mu => T mu mu) = 0 /\ self_adjoint G T /\ forall u, causal G u -> 0 <= inner G (act T u) u /\ causal G (fun mu => - act T u mu).
Proof.
  intros k L dx gdet G alpha beta ST ts i j l Hk Hv Hp T.
  assert (HP : forall p, In p (concat ts) -> here (i, j, l) p = true -> 0 <= pw p /\ 0 < pKcon p 0%nat /\ inner G (pKcon p) (pKcon p) = 0 /\ same4 (pKcov p) (lower (pKcon p) G)).
  { intros p Ip H. unfold here, counted in H. apply andb_prop in H. destruct H as [H1 H2]. destruct (zone_eqb_spec (i, j, l) (pz p)) as [E|]; [|discriminate]. apply negb_true_iff, Z.eqb_neq in H2.
    destruct (Hp p Ip (eq_sym E) H2) as (A & B & C & D). repeat split; try assumption. intros mu Hmu. rewrite (D mu Hmu). unfold lower, sigma4, sum4. ring. }
  split; [|split; [|intros u U]].
  - apply (traceless k L dx gdet G ts (i, j, l) Hv HP).
  - apply (adjoint k L dx gdet G alpha beta ST ts (i, j, l) Hv HP).
  - apply (dominant k L dx gdet G alpha beta ST ts (i, j, l) Hk Hv HP u U).
Qed.
Print Assumptions C105_tensor.
Definition C105_flat : mat := drift 0.
Definition C105_right : packet := mkp (3, 3, 3)%Z (vec4 2 2 0 0) (vec4 (-2) 2 0 0) 5 0.
Definition C105_up : packet := mkp (3, 3, 3)%Z (vec4 1 0 1 0) (vec4 (-1) 0 1 0) 3 1.
Definition C105_tracer : packet := mkp (4, 3, 3)%Z (vec4 0 0 0 0) (vec4 0 0 0 0) 7 (-1).
Example C105_nonvacuous : let ts := [[C105_right; C105_tracer]; [C105_up]] in let zs := [(3, 3, 3); (4, 3, 3)]%Z in let a := set_Rmunu 1 1 (fun _ => 1) (fun _ _ => 1) ts in
  spacetime C105_flat 1 (drift_beta 0) /\ NoDup zs /\ (forall p, In p (concat ts) -> In (pz p) zs /\ (ptype p <> (-1)%Z -> pKcon p 0%nat <> 0)) /\
  (forall p, In p (concat ts) -> pz p = (3, 3, 3)%Z -> ptype p <> (-1)%Z ->
     0 <= pw p /\ 0 < pKcon p 0%nat /\ inner C105_flat (pKcon p) (pKcon p) = 0 /\ same4 (pKcov p) (fun mu => sigma4 (fun nu => C105_flat mu nu * pKcon p nu))) /\
  Rmunu a (3, 3, 3)%Z 0%nat 0%nat = -13 /\ Rmunu a (3, 3, 3)%Z 1%nat 1%nat = 10 /\ Nsph a (4, 3, 3)%Z = 0%Z.
Proof.
  cbv zeta. split; [exact (drift_st 0)|]. split; [repeat constructor; cbn; intuition congruence|]. split.
  { intros p [<-|[<-|[<-|[]]]]; cbn [C105_right C105_up C105_tracer pz ptype pKcon vec4]; (split; [cbn; tauto|]); intros; try lra. congruence. }
  split.
  { intros p [<-|[<-|[<-|[]]]]; cbn [C105_right C105_up C105_tracer pz ptype pKcon pKcov pw]; intros E NT; try congruence; (split; [lra|]); (split; [unfold vec4; lra|]);
      (split; [unfold inner, sigma4, C105_flat, drift, vec4; ring|]); intros [|[|[|[|mu]]]] Hm; try lia; unfold sigma4, C105_flat, drift, vec4; ring. }
  unfold set_Rmunu, gather1, C105_right, C105_up, C105_tracer, upd, volume. cbn [concat app fold_left ptype pz pKcon pKcov pw Z.eqb Pos.eqb TYPE_TRACER zone_eqb andb Rmunu Nsph cleared vec4]. repeat split; unfold vec4; try field.
Qed.
