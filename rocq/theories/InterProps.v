(** Property theorems C20 (choice of interaction), C21 (weights), C22 (momentum) and
    C24 (several interactions per step). *)
From Coq Require Import Reals Bool Arith List Lia Lra Sorting Permutation.
From Verif Require Import RLib GeomModel InterModel InterSpec InterProofs InterTimes InterCases InterMore.
Import ListNotations.
Open Scope R_scope.

(** C20.  Absorption happens exactly when its sampled depth is reached, and before every
    scattering's. *)
Theorem C20_absorb : forall ABS xa da l, 0 <= da -> Forall (fun c => 0 < xs c /\ 0 <= ds c /\ 1 <= bs c) l ->
  decide ABS xa da l = Absorb <-> ABS = true /\ xa <= da /\ Forall (fun c => before xa da (xs c) (ds c)) l.
Proof. exact decide_absorb. Qed.
Print Assumptions C20_absorb.
(** When the packet scatters, it is by the process reached first (the first in order of
    equals), not later than the absorption, and within the step. *)
Theorem C20_scatter : forall ABS xa da l, 0 < xa -> 0 <= da -> Forall (fun c => 0 < xs c /\ 0 <= ds c /\ 1 <= bs c) l ->
  forall n f, decide ABS xa da l = Scatter n f ->
  exists c, nth_error l n = Some c /\ f = xs c / (ds c + SMALL) /\ 0 < f < 1 /\
    (forall c', In c' l -> ~ before (xs c') (ds c') (xs c) (ds c)) /\
    (forall c', In c' (firstn n l) -> before (xs c) (ds c) (xs c') (ds c')) /\
    (ABS = true -> xa <= da -> ~ before xa da (xs c) (ds c)).
Proof. exact decide_scatter. Qed.
Print Assumptions C20_scatter.
(** Nothing happens exactly when absorption is not reached and not all of the
    scatterings are. *)
Theorem C20_nothing : forall ABS xa da l, Forall (fun c => 0 < xs c /\ 0 <= ds c /\ 1 <= bs c) l ->
  decide ABS xa da l = Nothing <-> ~ (ABS = true /\ xa <= da) /\ ~ (l <> [] /\ Forall reached l).
Proof. exact decide_nothing. Qed.
Print Assumptions C20_nothing.
(** With one scattering process (photons) the claim holds in full. *)
Theorem C20_one_process_partial : forall ABS xa da c, 0 < xs c /\ 0 <= ds c /\ 1 <= bs c ->
  decide ABS xa da [c] <> Nothing <-> (ABS = true /\ xa <= da) \/ reached c.
Proof. exact decide_single. Qed.
Print Assumptions C20_one_process_partial.
(** With two (neutrinos have three or four) the packet may pass the sampled depth of one
    of them and not interact. *)
Theorem C20_interacts_refuted : exists ABS xa da l, 0 < xa /\ 0 <= da /\
  Forall (fun c => 0 < xs c /\ 0 <= ds c /\ 1 <= bs c) l /\ Exists reached l /\ decide ABS xa da l = Nothing.
Proof. exact decide_refuted. Qed.
Print Assumptions C20_interacts_refuted.
Example C20_nonvacuous : sound (half true true) /\ decide true (xabs (half true true)) (dabs (half true true)) (chans (half true true)) = Scatter 0 (1 / 2) /\
  sound absorbs /\ decide true (xabs absorbs) (dabs absorbs) (chans absorbs) = Absorb.
Proof. exact (conj (half_sound true true) (conj (half_decide true true true) (conj (proj1 absorbs_ok) (proj2 (proj2 absorbs_ok))))). Qed.

(** C21.  In any sequence of interactions in which no scattering fails and no packet is
    thrown out, the weight of all packets plus the weight absorbed is constant. *)
Theorem C21_conserved : forall ABS n1 n2 n3 t dt d3x kphys Kat l nid s, Forall (fun m => sound m /\ smooth m) l ->
  weight (run ABS n1 n2 n3 t dt d3x kphys Kat nid s l) + absorbed (run ABS n1 n2 n3 t dt d3x kphys Kat nid s l) = weight s + absorbed s.
Proof. exact run_weight. Qed.
Print Assumptions C21_conserved.
(** No weight ever becomes negative, whatever fails. *)
Theorem C21_nonnegative : forall ABS n1 n2 n3 t dt d3x kphys Kat l nid s, Forall sound l ->
  (forall p, In p (packets s) -> 0 <= w p) ->
  forall p, In p (packets (run ABS n1 n2 n3 t dt d3x kphys Kat nid s l)) -> 0 <= w p.
Proof. exact run_nonneg. Qed.
Print Assumptions C21_nonnegative.
(** A scattering that fails loses the share of the scattered packet. *)
Theorem C21_failed : forall ABS n1 n2 n3 t dt d3x kphys Kat nid s m ph rest n f,
  todo s = ph :: rest -> sound m -> at_ m = Good -> interp_ok m = true ->
  decide ABS (xabs m) (dabs m) (chans m) = Scatter n f -> scatter_ok m && push_ok m = false ->
  weight (step ABS n1 n2 n3 t dt d3x kphys Kat nid s m) = weight s - w ph / bs (nth n (chans m) (mkch 0 0 0)) /\
  events (step ABS n1 n2 n3 t dt d3x kphys Kat nid s m) = events s.
Proof. exact step_weight_failed. Qed.
Print Assumptions C21_failed.
Theorem C21_failed_refuted : exists m, sound m /\ at_ m = Good /\ scatter_ok m = false /\
  weight (step false 1 1 1 0 1 1 1 Kflat 1 (start 0 [p0 1]) m) + absorbed (step false 1 1 1 0 1 1 1 Kflat 1 (start 0 [p0 1]) m)
  < weight (start 0 [p0 1]) + absorbed (start 0 [p0 1]).
Proof. exact weight_refuted. Qed.
Print Assumptions C21_failed_refuted.
(** A packet found outside the grid, or with a bad frequency, is the only thing that goes;
    one that is skipped, or does not interact, stays as it is. *)
Theorem C21_removed : forall ABS n1 n2 n3 t dt d3x kphys Kat nid s m ph rest, todo s = ph :: rest -> at_ m = Bad ->
  Permutation (ph :: packets (step ABS n1 n2 n3 t dt d3x kphys Kat nid s m)) (packets s) /\
  radG (step ABS n1 n2 n3 t dt d3x kphys Kat nid s m) = radG s /\ events (step ABS n1 n2 n3 t dt d3x kphys Kat nid s m) = events s.
Proof. exact step_removed. Qed.
Print Assumptions C21_removed.
Theorem C21_passed : forall ABS n1 n2 n3 t dt d3x kphys Kat nid s m,
  at_ m = Skip \/ (at_ m = Good /\ (decide ABS (xabs m) (dabs m) (chans m) = Nothing \/ interp_ok m = false)) ->
  Permutation (packets (step ABS n1 n2 n3 t dt d3x kphys Kat nid s m)) (packets s) /\
  radG (step ABS n1 n2 n3 t dt d3x kphys Kat nid s m) = radG s /\ events (step ABS n1 n2 n3 t dt d3x kphys Kat nid s m) = events s.
Proof. exact step_passed. Qed.
Print Assumptions C21_passed.
Example C21_nonvacuous : Forall (fun m => sound m /\ smooth m) [half true true; half true true; absorbs].
Proof. exact two_ok. Qed.

(** C22.  One absorption: the zone of the packet receives exactly its momentum, per unit
    step and volume, and the packet keeps none. *)
Theorem C22_absorb : forall ABS n1 n2 n3 t dt d3x kphys Kat, dt * d3x <> 0 -> forall nid s m ph rest,
  todo s = ph :: rest -> at_ m = Good -> interp_ok m = true -> decide ABS (xabs m) (dabs m) (chans m) = Absorb ->
  exists g, radG (step ABS n1 n2 n3 t dt d3x kphys Kat nid s m) = (fold_zone n1 n2 n3 (sz m), g) :: radG s /\
    (forall mu, dt * d3x * g mu = kphys * (w ph * Kat ph m mu)) /\
    weight (step ABS n1 n2 n3 t dt d3x kphys Kat nid s m) = weight s - w ph /\
    In (mkp (id ph) 0 (K ph) (t0 ph) (tracer ph)) (packets (step ABS n1 n2 n3 t dt d3x kphys Kat nid s m)).
Proof. exact step_absorb. Qed.
Print Assumptions C22_absorb.
(** The zone credited is the packet's own, except that a direction with a single zone
    always means that zone. *)
Theorem C22_zone : forall n1 n2 n3 i j k,
  (n1 = 1%nat -> i = NG) -> (n2 = 1%nat -> j = NG) -> (n3 = 1%nat -> k = NG) -> fold_zone n1 n2 n3 (i, j, k) = (i, j, k).
Proof. exact fold_zone_id. Qed.
Print Assumptions C22_zone.
(** Any sequence of scatterings and absorptions along straight paths conserves the
    momentum of packets and fluid together, as long as nothing fails. *)
Theorem C22_conserved : forall ABS n1 n2 n3 t dt d3x kphys Kat, dt * d3x <> 0 -> forall mu l nid s,
  (forall ph m, Kat ph m mu = K ph mu) -> Forall (fun m => sound m /\ smooth m) l ->
  kphys * momentum (run ABS n1 n2 n3 t dt d3x kphys Kat nid s l) mu + dt * d3x * impulse (run ABS n1 n2 n3 t dt d3x kphys Kat nid s l) mu
  = kphys * momentum s mu + dt * d3x * impulse s mu.
Proof. exact run_momentum. Qed.
Print Assumptions C22_conserved.
(** If the push of the scattered packet fails, the fluid has already been given its
    recoil: the momentum of the lost packet is missing. *)
Theorem C22_push_failed : forall ABS n1 n2 n3 t dt d3x kphys Kat, dt * d3x <> 0 -> forall nid s m ph rest n f mu,
  todo s = ph :: rest -> (forall ph, Kat ph m mu = K ph mu) -> sound m ->
  at_ m = Good -> interp_ok m = true -> decide ABS (xabs m) (dabs m) (chans m) = Scatter n f -> scatter_ok m = true -> push_ok m = false ->
  kphys * momentum (step ABS n1 n2 n3 t dt d3x kphys Kat nid s m) mu + dt * d3x * impulse (step ABS n1 n2 n3 t dt d3x kphys Kat nid s m) mu =
  kphys * momentum s mu + dt * d3x * impulse s mu - kphys * (w ph / bs (nth n (chans m) (mkch 0 0 0)) * K' m mu).
Proof. exact step_push_failed. Qed.
Print Assumptions C22_push_failed.
Theorem C22_push_failed_refuted : exists m, sound m /\ at_ m = Good /\ scatter_ok m = true /\ push_ok m = false /\
  momentum (step false 1 1 1 0 1 1 1 Kflat 1 (start 0 [p0 1]) m) 0 + impulse (step false 1 1 1 0 1 1 1 Kflat 1 (start 0 [p0 1]) m) 0
  <> momentum (start 0 [p0 1]) 0 + impulse (start 0 [p0 1]) 0.
Proof. exact momentum_refuted. Qed.
Print Assumptions C22_push_failed_refuted.
Example C22_nonvacuous : Forall (fun m => sound m /\ smooth m) [half true true; half true true; absorbs] /\
  decide true (xabs absorbs) (dabs absorbs) (chans absorbs) = Absorb /\ start 0 [p0 1] = mkst [] [p0 1] 0 0 [] [].
Proof. exact (conj two_ok (conj (proj2 (proj2 absorbs_ok)) s0_start)). Qed.

(** C24.  All interactions fall within the step, and those of a packet that has at most
    a hundred of them come in order of time. *)
Theorem C24_times_partial : forall ABS n1 n2 n3 t dt d3x kphys Kat, 0 <= dt -> forall nid ps l i, NoDup (map id ps) ->
  (forall p, In p ps -> (id p < nid)%nat /\ t0 p <= t + dt) -> Forall sound l ->
  (forall e, In e (events (run ABS n1 n2 n3 t dt d3x kphys Kat nid (start t ps) l)) -> t <= when e <= t + dt) /\
  ((length (history i (run ABS n1 n2 n3 t dt d3x kphys Kat nid (start t ps) l)) <= 100)%nat ->
   StronglySorted (fun a b => when b <= when a) (history i (run ABS n1 n2 n3 t dt d3x kphys Kat nid (start t ps) l))).
Proof. exact run_times. Qed.
Print Assumptions C24_times_partial.
(** After a hundred interactions the packet is not left alone but taken again from the
    beginning of the step: there is no cap, and time goes backwards. *)
Theorem C24_cap_refuted : exists ps l, NoDup (map id ps) /\ (forall p, In p ps -> (id p < 1)%nat /\ t0 p <= 0 + 1) /\
  Forall (fun m => sound m /\ smooth m) l /\
  let s := run false 1 1 1 0 1 1 1 Kflat 1 (start 0 ps) l in
  (length (history 0 s) = 101)%nat /\ exists a b r, history 0 s = a :: b :: r /\ when a < when b.
Proof. exact cap_refuted. Qed.
Print Assumptions C24_cap_refuted.
(** Tracers and packets of negligible weight do not interact and are not changed, whatever
    happens to the others. *)
Theorem C24_untouched : forall ABS n1 n2 n3 t dt d3x kphys Kat, 0 <= dt -> forall nid ps l p, NoDup (map id ps) ->
  (forall p, In p ps -> (id p < nid)%nat /\ t0 p <= t + dt) -> Forall sound l -> In p ps -> tracer p = true \/ w p < / 10 ^ 20 ->
  In p (packets (run ABS n1 n2 n3 t dt d3x kphys Kat nid (start t ps) l)) /\ history (id p) (run ABS n1 n2 n3 t dt d3x kphys Kat nid (start t ps) l) = [].
Proof. exact idle_untouched. Qed.
Print Assumptions C24_untouched.
(** No packet, present at the start or made during the step, interacts before it is born. *)
Theorem C24_birth : forall ABS n1 n2 n3 t dt d3x kphys Kat, 0 <= dt -> forall nid ps l, NoDup (map id ps) ->
  (forall p, In p ps -> (id p < nid)%nat /\ t0 p <= t + dt) -> Forall sound l ->
  let s := run ABS n1 n2 n3 t dt d3x kphys Kat nid (start t ps) l in
  forall p e, In p ps \/ In p (packets s) -> In e (history (id p) s) -> t0 p <= when e.
Proof. exact not_before_birth. Qed.
Print Assumptions C24_birth.
(** A tracer and a packet born in the middle of the step that scatters later. *)
Example C24_late_nonvacuous : (NoDup (map id late) /\ (forall p, In p late -> (id p < 2)%nat /\ t0 p <= 0 + 1) /\ Forall sound [half true true]) /\
  exists e, history 1 (run false 1 1 1 0 1 1 1 Kflat 2 (start 0 late) [half true true]) = [e] /\ when e = 3 / 4.
Proof. exact (conj late_ok late_event). Qed.
Example C24_nonvacuous : exists a b, events (run false 1 1 1 0 1 1 1 Kflat 1 (start 0 [p0 1]) [half true true; half true true]) = [a; b] /\
  when a = 3 / 4 /\ when b = 1 / 2.
Proof. exact two_events. Qed.
