(** Vocabulary for the histograms of where packets were made. *)
From Coq Require Import Reals Bool ZArith List Arith.
From Verif Require Import RLib RzModel.
Import ListNotations.
Open Scope R_scope.

(** exact arithmetic *)
Definition exact (x : R) : R := x.
(** centre of the zone the packet was made in; a grid starts with three ghost zones *)
Definition birth (c : cfg) (p : packet) (dir : nat) : R := startx c dir + (IZR (origin p dir + made_on p dir) - 3 + 1 / 2) * delx c dir.
(** one of n bins up to m, for a distance v; what lies beyond m is counted at m *)
Definition falls (n : nat) (m v : R) (b : nat) : Prop :=
  let d := m / INR n + / 10 ^ 20 in (b < n)%nat /\ INR b * d <= Rmin v (m - / 10 ^ 20) < INR (S b) * d.
Definition radius (c : cfg) (p : packet) : R := let X := cart_coord c (birth c p) in sqrt (X 1%nat ^ 2 + X 2%nat ^ 2).
Definition height (c : cfg) (p : packet) : R := Rabs (cart_coord c (birth c p) 3%nat).
(** total weight of the packets chosen *)
Definition weight (sel : packet -> bool) (ps : list packet) : R := fold_right (fun p s => (if sel p then w p else 0) + s) 0 ps.
Definition total (l : list R) : R := fold_right Rplus 0 l.
Definition everyone (ps : list proc) : list packet := concat (map (fun p => concat (threads p)) ps).
(** the histograms of the packets, rb and zb being the bins they fall into *)
Definition counts (c : cfg) (rb zb : packet -> nat) (ps : list packet) (h : hists) : Prop :=
  length (hr h) = nbins c /\ length (hz h) = nbins c /\ length (osc_hr h) = nbins c /\ length (osc_hz h) = nbins c /\
  forall b, (b < nbins c)%nat ->
    nth b (hr h) 0 = weight (fun p => rb p =? b) ps /\ nth b (hz h) 0 = weight (fun p => zb p =? b) ps /\
    nth b (osc_hr h) 0 = weight (fun p => has_oscillated p && (rb p =? b)) ps /\ nth b (osc_hz h) 0 = weight (fun p => has_oscillated p && (zb p =? b)) ps.
