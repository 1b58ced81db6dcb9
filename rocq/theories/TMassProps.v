(** C88, continued: the mass of all tracers that a problem reports (prob/torus_cbc/problem.c:421). *)
From Coq Require Import Reals Bool ZArith List Lia Lra.
From Verif Require Import RLib BinModel TracModel TracSpec TracProofs TracProps TMassModel.
Import ListNotations.
Open Scope R_scope.

Lemma add_list_sum l : forall m, add_list l m = m + sumR (map weight (filter is_tracer l)).
Proof.
  induction l as [|p l IH]; intros m; cbn [add_list filter]; [cbn; ring|]. rewrite IH. destruct (is_tracer p); cbn [map sumR]; ring.
Qed.
Lemma add_threads_sum ls : forall m, add_threads ls m = m + sumR (map weight (filter is_tracer (concat ls))).
Proof.
  induction ls as [|l ls IH]; intros m; cbn [add_threads concat]; [cbn; ring|]. rewrite IH, add_list_sum, filter_app, map_app, sumR_app. ring.
Qed.

(** What is reported is the sum of the weights of the tracers of all threads of all
    processes; radiation packets do not count. *)
Theorem C88_report : forall procs, get_total_tracer_mass procs = sumR (map weight (filter is_tracer (concat (concat procs)))).
Proof.
  intros procs. unfold get_total_tracer_mass. induction procs as [|p procs IH]; cbn [map fold_right concat]; [reflexivity|].
  rewrite IH, add_threads_sum, concat_app, filter_app, map_app, sumR_app. ring.
Qed.
Print Assumptions C88_report.

Lemma pair_sums {A B} (U : A -> R) (T : B -> R) (outs : list A) : forall procs, length outs = length procs ->
  (forall r zs ls, nth_error procs r = Some zs -> nth_error outs r = Some ls -> U ls = T zs) -> sumR (map U outs) = sumR (map T procs).
Proof.
  induction outs as [|o outs IH]; intros [|p procs] L H; try discriminate L; [reflexivity|]. cbn [map sumR].
  rewrite (H 0%nat p o eq_refl eq_refl), (IH procs); [reflexivity|now injection L|]. intros r zs ls Z E. exact (H (S r) zs ls Z E).
Qed.
Lemma sum_concat {A} (f : A -> R) ls : sumR (map f (concat ls)) = sumR (map (fun l => sumR (map f l)) ls).
Proof. induction ls as [|l ls IH]; [reflexivity|]. cbn [concat map sumR]. rewrite map_app, sumR_app, IH. reflexivity. Qed.
Lemma filter_concat {A} (f : A -> bool) ls : filter f (concat ls) = concat (map (filter f) ls).
Proof. induction ls as [|l ls IH]; [reflexivity|]. cbn [concat map]. rewrite filter_app, IH. reflexivity. Qed.

(** the tracers among the packets of a process, as the list it holds says *)
Definition holds (ps : list (list packet)) (ls : list (list tracer)) : Prop :=
  map weight (filter is_tracer (concat ps)) = map mass (tracers ls).

(** After the tracers of a run have been made, and whatever radiation packets there are
    besides, the mass reported is that of the fluid in the tracer cells of the whole grid,
    in whatever way the zones are spread over the processes. *)
Theorem C88_report_sampled : forall m rnd fuel n NTOT nt start procs outs packets,
  all_sample m rnd fuel n NTOT nt start procs outs -> (0 <= n <= INT_MAX)%Z -> (0 < nt)%nat -> (0 < reduce procs <= NTOT)%Z ->
  (forall r dir, dx (m r) dir = dx (m 0%nat) dir) -> Forall2 holds packets outs ->
  get_total_tracer_mass packets = sumR (map (zone_mass (m 0%nat)) (filter flag (concat procs))).
Proof.
  intros m rnd fuel n NTOT nt start procs outs packets [L A] N T C D H. rewrite C88_report.
  transitivity (sumR (map (fun ls => sumR (map mass (tracers ls))) outs)).
  - clear A L. induction H as [|p o ps os E H IH]; [reflexivity|]. cbn [concat map sumR].
    rewrite concat_app, filter_app, map_app, sumR_app, IH. unfold holds in E. rewrite E. reflexivity.
  - rewrite filter_concat, sum_concat, map_map. apply pair_sums; [exact L|]. intros r zs ls Z O.
    rewrite (C88_total _ _ _ _ _ _ _ _ _ _ _ _ (A r zs ls Z O) N T C). f_equal. apply map_ext. intros z. unfold zone_mass. rewrite (D r 1%nat), (D r 2%nat), (D r 3%nat). reflexivity.
Qed.
Print Assumptions C88_report_sampled.

Example C88_report_nonvacuous : get_total_tracer_mass [[[mkp true 1; mkp false 5]; [mkp true 2]]; [[]; [mkp true 4]]] = 7.
Proof. unfold get_total_tracer_mass. cbn. ring. Qed.
(** the run of C88_nonvacuous satisfies the hypotheses *)
Example C88_report_sampled_nonvacuous : exists procs outs packets, all_sample (fun _ => unit_grid) (fun _ _ => 1 / 2) 2 32 16 1 (fun _ => 0%nat) procs outs /\
  Forall2 holds packets outs /\ forall ps, In ps packets -> In (mkp false 3) (concat ps).
Proof.
  destruct C88_nonvacuous as (procs & outs & A & _). exists procs, outs, (map (fun ls => [mkp false 3] :: map (map (fun t => mkp true (mass t))) ls) outs).
  split; [exact A|]. split.
  - clear A. induction outs as [|o outs IH]; constructor; [|exact IH]. unfold holds, tracers. cbn [concat filter app is_tracer].
    rewrite <- concat_map. induction (concat o) as [|t l IHl]; [reflexivity|]. cbn [map filter is_tracer weight]. f_equal. exact IHl.
  - intros ps I. apply in_map_iff in I. destruct I as (ls & <- & _). left. reflexivity.
Qed.
