(** Property theorems C44-C46 (flavour oscillations). *)
From Coq Require Import Reals Bool ZArith List Lra.
From Verif Require Import RLib OscModel OscSpec OscProofs OscNoise.
Import ListNotations.
Open Scope R_scope.

(** C44.  Whatever the moments are, a packet keeps weight, position and direction;
    tracers are left alone; a neutrino is unchanged or becomes the other flavour of its
    kind, and that happens exactly when the random number falls below one minus the
    survival probability. *)
Theorem C44_step : forall FORCE m l p r, let q := oscillate1 FORCE m l p r in
  wt q = wt p /\ cell q = cell p /\ mub q = mub p /\ (ty p = (-1)%Z -> q = p) /\
  (neutrino (ty p) -> q = p \/ (partner (ty p) (ty q) /\ osc q = true /\ exists ps, survival FORCE m l p = Some ps /\ r < 1 - ps)) /\
  (forall ps, neutrino (ty p) -> survival FORCE m l p = Some ps -> r < 1 - ps -> partner (ty p) (ty q)).
Proof. exact step_spec. Qed.
Print Assumptions C44_step.
(** Oscillating twice restores the flavour. *)
Theorem C44_involution : forall t, neutrino t -> neutrino (flip t) /\ partner t (flip t) /\ flip (flip t) = t.
Proof. exact involution. Qed.
Print Assumptions C44_involution.
(** One call over all packets keeps their number and the total weight of particles
    (c = true) and of antiparticles. *)
Theorem C44_totals : forall FORCE m l ps c, Forall (fun p => neutrino (ty (fst p)) \/ ty (fst p) = TYPE_TRACER) ps ->
  length (oscillate FORCE m l ps) = length ps /\
  total (fun p => Bool.eqb (particle (ty p)) c && negb (Z.eqb (ty p) TYPE_TRACER)) (oscillate FORCE m l ps) =
  total (fun p => Bool.eqb (particle (ty p)) c && negb (Z.eqb (ty p) TYPE_TRACER)) (map fst ps).
Proof. exact list_spec. Qed.
Print Assumptions C44_totals.
(** An antineutrino that becomes a heavy antineutrino. *)
Example C44_nonvacuous : ty (oscillate1 false (history 2 [now]) now anti (1 / 5)) = 3%Z.
Proof. apply anti_oscillates. lra. Qed.

(** C45.  After any history of calls, with any packets, survival probabilities lie
    between the equilibrium share of the flavour and one. *)
Theorem C45_range : forall NMU FORCE h l p ps, neutrino (ty p) -> survival FORCE (history NMU h) l p = Some ps -> share (ty p) <= ps <= 1.
Proof. exact range. Qed.
Print Assumptions C45_range.
(** Its value: equilibrium on the smaller side, and on the other side the same weight
    leaves as on the smaller one. *)
Theorem C45_value : forall FORCE m l p ps, neutrino (ty p) -> let b := b_osc m (cell p) in
  let A := fst (m b (cell p)) in let B := snd (m b (cell p)) in let G := Gnu l b (cell p) (mub p b) in
  0 <= A -> 0 <= B -> survival FORCE m l p = Some ps ->
  0 < A /\ 0 < B /\
  (FORCE = true -> ps = share (ty p)) /\
  (FORCE = false -> (G < 0 -> A < B -> ps = share (ty p)) /\ (0 < G -> B <= A -> ps = share (ty p)) /\
                    (G < 0 -> B <= A -> (1 - ps) * (A + / 10 ^ 20) = (1 - share (ty p)) * B) /\
                    (0 < G -> A < B -> (1 - ps) * (B + / 10 ^ 20) = (1 - share (ty p)) * A) /\ G <> 0).
Proof. exact value. Qed.
Print Assumptions C45_value.
(** The basis used in a zone is the one with the larger difference of the two sides. *)
Theorem C45_basis : forall m z b, Rabs (snd (m b z) - fst (m b z)) <= Rabs (snd (m (b_osc m z) z) - fst (m (b_osc m z) z)).
Proof. exact basis_largest. Qed.
Print Assumptions C45_basis.
(** The antineutrino of C44 survives with a probability. *)
Example C45_nonvacuous : neutrino (ty anti) /\ exists h ps, survival false (history 2 h) now anti = Some ps.
Proof. split; [split; reflexivity || discriminate|]. exists ([] ++ [now]). apply anti_survives. Qed.

(** C46.  The moments are the sum over all calls so far, not those of the packets
    present. *)
Theorem C46_sum : forall NMU h b z, history NMU h b z = (over (fun l => negative NMU l b z) h, over (fun l => positive NMU l b z) h).
Proof. exact history_spec. Qed.
Print Assumptions C46_sum.
(** What a direction bin of a zone counts for: the flavour excess of the neutrinos that are in
    it, if that is above the noise of their weights, and nothing otherwise; the square of the
    noise is never negative. *)
Theorem C46_bin : forall b z imu l, Forall (fun p => (neutrino (ty p) \/ ty p = (-1)%Z) /\ 0 <= wt p) l ->
  let B := filter (here b z imu) l in let g := rsum (fun p => lepton (ty p) * wt p) B in
  0 <= noise2 B /\ (sqrt (noise2 B) < Rabs g -> Gnu l b z imu = g) /\ (Rabs g <= sqrt (noise2 B) -> Gnu l b z imu = 0).
Proof. exact gnu_bin. Qed.
Print Assumptions C46_bin.
(** One neutrino alone in its bin never counts; two or more electron (anti)neutrinos of equal
    weight always do. *)
Theorem C46_alone : forall b z imu l p, Forall (fun p => (neutrino (ty p) \/ ty p = (-1)%Z) /\ 0 <= wt p) l ->
  filter (here b z imu) l = [p] -> Gnu l b z imu = 0.
Proof. exact gnu_lone. Qed.
Print Assumptions C46_alone.
Theorem C46_equal : forall b z imu l t w, Forall (fun p => (neutrino (ty p) \/ ty p = (-1)%Z) /\ 0 <= wt p) l -> (t = 0 \/ t = 1)%Z -> 0 < w ->
  (2 <= length (filter (here b z imu) l))%nat -> (forall p, In p (filter (here b z imu) l) -> ty p = t /\ wt p = w) ->
  Gnu l b z imu = lepton t * (INR (length (filter (here b z imu) l)) * w).
Proof. exact gnu_equal. Qed.
Print Assumptions C46_equal.
Example C46_bin_nonvacuous : Forall (fun p => (neutrino (ty p) \/ ty p = (-1)%Z) /\ 0 <= wt p) crowd /\
  Gnu crowd true (0, 0)%nat 1 = - 6 /\ Gnu crowd true (1, 0)%nat 1 = 0.
Proof. exact (conj crowd_ok crowd_bin). Qed.
(** Only the first call gives what is claimed. *)
Theorem C46_first_partial : forall NMU l b z, history NMU [l] b z = (negative NMU l b z, positive NMU l b z).
Proof. exact first. Qed.
Print Assumptions C46_first_partial.
(** The same packets with different pasts have different survival probabilities. *)
Theorem C46_current_refuted : exists h h' l p ps ps', In p l /\
  survival false (history 2 (h ++ [l])) l p = Some ps /\ survival false (history 2 (h' ++ [l])) l p = Some ps' /\ ps <> ps'.
Proof. exact carried_refuted. Qed.
Print Assumptions C46_current_refuted.
(** A dump between two steps changes them too, since it calls the same routine. *)
Theorem C46_dump_refuted : exists l0 l p ps ps', In p l /\
  survival false (history 2 [l0; l]) l p = Some ps /\ survival false (history 2 [l0; l0; l]) l p = Some ps' /\ ps <> ps'.
Proof. exact dump_refuted. Qed.
Print Assumptions C46_dump_refuted.
(** Moments that are not zero. *)
Example C46_nonvacuous : negative 2 now false (0, 0)%nat = 8 /\ positive 2 now false (0, 0)%nat = 4.
Proof. destruct (mix_moments 1 2 false) as (A & B); try lra. unfold now. rewrite A, B. lra. Qed.
