(** Property theorems C116 (histograms of where packets were made). *)
From Coq Require Import Reals Bool ZArith List Arith Lra.
From Verif Require Import RLib XLib IntLib BinModel TabRound RzModel RzSpec RzProofs RzWit.
Import ListNotations.
Open Scope R_scope.

(** C116.  In exact arithmetic every distance from the axis, and every height, falls into
    exactly one bin, *)
Theorem C116_bins_partial : forall c v m, fits c -> / 10 ^ 20 <= m -> 0 <= v -> exists! b, falls (nbins c) m v b.
Proof. exact falls_ex. Qed.
Print Assumptions C116_bins_partial.
(** and for packets still on the process they were made on the histograms of a dump are, on
    every process, those of the packets of all threads and processes: no access is outside
    the arrays, each packet is counted with its weight in the bins of the centre of the zone
    it was made in, and so are, separately, those that oscillated. *)
Theorem C116_histograms_partial : forall c rb zb ps, fits c -> pointwise c ->
  (forall q p, In q ps -> In p (concat (threads q)) -> (forall dir, (1 <= dir <= 3)%nat -> pgs q dir = made_on p dir) /\ falls (nbins c) (rz_rmax c) (radius c p) (rb p) /\ falls (nbins c) (rz_zmax c) (height c p) (zb p)) ->
  exists h, generate_rz_histograms exact exact c ps (map (fun _ => cleared c) ps) = Some (map (fun _ => h) ps) /\ counts c rb zb (everyone ps) h.
Proof. exact hist_ok. Qed.
Print Assumptions C116_histograms_partial.
(** The bins add up to the weight of all packets, and of those that oscillated. *)
Theorem C116_total : forall c rb zb ps h, counts c rb zb ps h -> (forall p, In p ps -> (rb p < nbins c)%nat /\ (zb p < nbins c)%nat) ->
  total (hr h) = weight (fun _ => true) ps /\ total (hz h) = weight (fun _ => true) ps /\
  total (osc_hr h) = weight has_oscillated ps /\ total (osc_hz h) = weight has_oscillated ps.
Proof. exact totals. Qed.
Print Assumptions C116_total.
(** Each dump of a run has the histograms of the packets there are then, nothing being left
    of earlier dumps, whatever the rounding. *)
Theorem C116_dumps : forall fl fs c (good : list proc -> hists -> Prop) snaps n, (0 < n)%nat ->
  (forall ps, In ps snaps -> length ps = n /\ exists h, generate_rz_histograms fl fs c ps (map (fun _ => cleared c) ps) = Some (map (fun _ => h) ps) /\ good ps h) ->
  exists l, dumps fl fs c snaps (repeat (cleared c) n) = Some l /\ Forall2 good snaps l.
Proof. exact dumps_ok. Qed.
Print Assumptions C116_dumps.
(** In double precision taking the small number away does nothing: with the default range
    and number of bins what was made at the edge or beyond is counted outside the array. *)
Theorem C116_edge : forall v, 40 <= v -> bin_of rnd64 (MY_MIN v (rnd64 (Rabs 40 - / 10 ^ 20))) (rnd64 (40 / INR 32)) = Some 32%Z.
Proof. exact edge_bin. Qed.
Print Assumptions C116_edge.
Theorem C116_edge_refuted : exists c ps p, (0 < nbins c)%nat /\ 0 < rz_rmax c /\ 0 < rz_zmax c /\ everyone ps = [p] /\ tracer p = false /\
  (forall q dir, In q ps -> pgs q dir = made_on p dir) /\
  generate_rz_histograms rnd64 rnd32 c ps (map (fun _ => cleared c) ps) = None.
Proof. exact edge_refuted. Qed.
Print Assumptions C116_edge_refuted.
(** A packet that went to another process is counted in the wrong bin: the zone kept is
    that of the process it was made on. *)
Theorem C116_moved_refuted : exists c ps p b h, fits c /\ everyone ps = [p] /\ w p = 1 /\ tracer p = false /\ falls (nbins c) (rz_rmax c) (radius c p) b /\
  generate_rz_histograms exact exact c ps (map (fun _ => cleared c) ps) = Some (map (fun _ => h) ps) /\ nth b (hr h) 0 = 0.
Proof. exact moved_refuted. Qed.
Print Assumptions C116_moved_refuted.
(** Tracers are counted as if they were radiation, with their mass for weight. *)
Theorem C116_tracer_refuted : exists c ps h, fits c /\ (forall p, In p (everyone ps) -> tracer p = true) /\
  generate_rz_histograms exact exact c ps (map (fun _ => cleared c) ps) = Some (map (fun _ => h) ps) /\ 0 < total (hr h).
Proof. exact tracer_refuted. Qed.
Print Assumptions C116_tracer_refuted.
(** The absolute values of the range are taken only at one of two places: a negative range
    gives negative bins. *)
Theorem C116_negative_refuted : exists c p, (0 < nbins c)%nat /\ rz_rmax c < 0 /\ exists k, ir exact exact c (made_on p) p = Some k /\ (k < 0)%Z.
Proof. exact negative_refuted. Qed.
Print Assumptions C116_negative_refuted.
(** The coordinates used by the code, flat and spherical, depend on the position alone. *)
Theorem C116_coordinates : forall n a b s d bl, (forall x y, x 1%nat = y 1%nat -> x 2%nat = y 2%nat -> x 3%nat = y 3%nat -> bl x = bl y) ->
  pointwise (Cfg n a b s d cart_flat) /\ pointwise (Cfg n a b s d (cart_mks bl)).
Proof. exact both_pointwise. Qed.
Print Assumptions C116_coordinates.
(** One packet in a box of two bins. *)
Example C116_nonvacuous : let p := Pk 1 false false (fun _ => 3%Z) (fun _ => 0%Z) in let ps := [Proc (fun _ => 0%Z) [[p]]] in
  exists h, generate_rz_histograms exact exact box ps (map (fun _ => cleared box) ps) = Some (map (fun _ => h) ps) /\ total (hr h) = 1.
Proof. exact (box_ok false). Qed.
