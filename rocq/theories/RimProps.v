(** C113: where packets leave the radiation domain, and the camera. *)
From Coq Require Import Reals Lra Lia Bool List.
From Verif Require Import RLib ExchModel GeomModel RimModel RimSpec RimProofs.
Import ListNotations.
Open Scope R_scope.

(** A packet stays active exactly if it is inside every edge that is not
    periodic (the outer edge of the gas for tracers, of the radiation for the
    rest) and three degrees off the axis; the camera takes exactly the packets of
    radiation beyond the outer edge. *)
Theorem C113_active : forall c tracer X a r, bound_rad_isactive c tracer X = Act a r ->
  (a = true <-> in_domain c tracer X) /\ (r = true <-> tracer = false /\ bR c D1 = RCamera /\ hi c D1 < X D1 /\ mks c = true).
Proof. exact active_ok. Qed.
Print Assumptions C113_active.

(** The program stops exactly when a packet is beyond an edge of a kind that is
    not implemented. *)
Theorem C113_stop : forall c tracer X, bound_rad_isactive c tracer X = Exit <-> beyond_unhandled c tracer X.
Proof. exact exit_ok. Qed.
Print Assumptions C113_stop.
Theorem C113_supported : forall c tracer X, supported c -> bound_rad_isactive c tracer X <> Exit.
Proof. exact supported_ok. Qed.
Print Assumptions C113_supported.

(** A packet goes on exactly if it is in the domain, its position is known, and
    it has weight and positive energy; a packet the camera took does not go on. *)
Theorem C113_packet : forall c tracer v f r, bound_packet c tracer v = Some (f, r) ->
  (f <> Lost <-> in_domain c tracer (pos v) /\ interp_ok v = true /\ SMALL <= weight v /\ k_0 v <= 0) /\
  (f = Sent -> outside v = true) /\ (f = Kept -> outside v = false) /\
  (r = true <-> tracer = false /\ bR c D1 = RCamera /\ hi c D1 < pos v D1 /\ mks c = true) /\
  (r = true -> f = Lost).
Proof. exact packet_ok. Qed.
Print Assumptions C113_packet.

(** Over any history, with packets being born in every step and whatever their
    paths, the camera takes no packet twice, and none that is still there. *)
Theorem C113_once : forall c steps l recs rest, run c steps l = Some (recs, rest) ->
  NoDup (map num (l ++ concat (map fst steps))) ->
  (forall p, In p recs \/ In p rest -> In p l \/ In p (concat (map fst steps))) /\
  NoDup (map num recs) /\ NoDup (map num rest) /\ (forall p q, In p recs -> In q rest -> num p <> num q).
Proof. exact run_ok. Qed.
Print Assumptions C113_once.

(** But the camera is asked before the errors are looked at: it takes a packet of
    no weight and negative energy whose position is not known. *)
Theorem C113_camera_refuted : exists c v, supported c /\ 0 < k_0 v /\ weight v < SMALL /\ interp_ok v = false /\
  bound_packet c false v = Some (Lost, true).
Proof. exact camera_bad. Qed.
Print Assumptions C113_camera_refuted.

(** And the test of the energy is made for tracers too, which carry the fluid's
    velocity: a tracer in a flow outside the horizon, of unit norm and future
    directed, is lost well inside the domain if u_t is positive, as it may be in
    the ergosphere. *)
Theorem C113_tracer_refuted : exists a r th u v c, a * a < 1 /\ 1 + sqrt (1 - a * a) < r /\ 0 < u 0%nat /\ dot2 (ks_gcov a r th) u u = -1 /\
  k_0 v = lower u (ks_gcov a r th) 0%nat /\ weight v = 1 /\ interp_ok v = true /\ supported c /\ in_domain c true (pos v) /\
  bound_packet c true v = Some (Lost, false).
Proof. exact tracer_lost. Qed.
Print Assumptions C113_tracer_refuted.

(** Packets and tracers near the axis are lost far from every edge. *)
Theorem C113_axis_refuted : exists c X, supported c /\ (forall d, lo c d < X d < hi c d) /\
  bound_rad_isactive c true X = Act false false /\ bound_rad_isactive c false X = Act false false.
Proof. exact axis_lost. Qed.
Print Assumptions C113_axis_refuted.

(** A black-hole run with a camera: a packet beyond the outer edge of the
    radiation is taken, a tracer there goes on. *)
Example C113_nonvacuous : supported (bh (PI / 2)) /\ in_domain (bh (PI / 2)) true far /\ ~ in_domain (bh (PI / 2)) false far /\
  (exists a, bound_rad_isactive (bh (PI / 2)) false far = Act a true) /\ in_domain (bh (PI / 2)) false mid /\
  exists recs rest, run (bh (PI / 2)) [([Packet 1 false; Packet 2 true], fun _ => View far true 1 (-1) false); ([Packet 3 false], fun _ => View mid true 1 (-1) true)] [] = Some (recs, rest).
Proof.
  split; [apply bh_supported|]. split; [apply bh_in; unfold far; lra|]. split.
  { intros [_ D]. destruct (D D1) as [_ D']. cbn in D'. specialize (D' ltac:(discriminate)). unfold far in D'. lra. }
  split.
  { destruct (bound_rad_isactive (bh (PI / 2)) false far) as [|a r] eqn:E; [exfalso; revert E; apply supported_ok, bh_supported|].
    exists a. f_equal. apply (active_ok _ _ _ _ _ E). cbn. repeat split; trivial. lra. }
  split; [apply bh_in; unfold mid; lra|].
  assert (B : forall t v, exists f r, bound_packet (bh (PI / 2)) t v = Some (f, r)).
  { intros t v. unfold bound_packet. destruct (bound_rad_isactive (bh (PI / 2)) t (pos v)) as [|a r] eqn:E; [exfalso; revert E; apply supported_ok, bh_supported|].
    destruct (_ || _); [eauto|]. destruct (outside v); eauto. }
  assert (P : forall see l, exists recs rest, pass (bh (PI / 2)) see l = Some (recs, rest)).
  { intros see l. induction l as [|p l (recs & rest & IH)]; cbn [pass]; [eauto|]. destruct (B (tr p) (see p)) as (f & r & ->). rewrite IH. eauto. }
  cbn [run]. destruct (P (fun _ => View far true 1 (-1) false) ([Packet 1 false; Packet 2 true] ++ [])) as (r1 & s1 & ->).
  destruct (P (fun _ => View mid true 1 (-1) true) ([Packet 3 false] ++ s1)) as (r2 & s2 & ->). eauto.
Qed.
