(** Property theorem C23 (scattering biases). *)
From Coq Require Import Reals Bool List Lra.
From Verif Require Import RLib XLib BiasModel BiasSpec BiasProofs.
Import ListNotations.
Open Scope R_scope.

(** C23.  Whatever the optical depths and biases are, infinite and not-a-number
    included, after bounding every bias is a number of at least one. *)
Theorem C23_at_least_one : forall l p, In p (bound_all_biases l) -> exists r, snd p = Fin r /\ 1 <= r.
Proof. exact bound_ge1. Qed.
Print Assumptions C23_at_least_one.
(** For finite optical depths the processes with a bias above one together stay below
    the safety factor, and all of them below it plus the optical depth. *)
Theorem C23_bounded_partial : forall l, Forall (fun p => 0 <= fst p) l ->
  exists l', bound_all_biases (fin l) = fin l' /\ map fst l' = map fst l /\
    expected l' <= 1 / 2 + depth l /\ expected (boosted l') <= 1 / 2.
Proof. exact bound_finite. Qed.
Print Assumptions C23_bounded_partial.
(** The claimed bound on all of them fails in optically thick zones. *)
Theorem C23_bounded_refuted : exists l l', Forall (fun p => 0 <= fst p) l /\ bound_all_biases (fin l) = fin l' /\ 1 / 2 < expected l'.
Proof. exact bound_refuted. Qed.
Print Assumptions C23_bounded_refuted.
(** Rebalancing two or more processes gives all those of non-negligible depth the same
    product of bias and depth, the largest there was; a single one keeps its bias. *)
Theorem C23_rebalanced : (forall d b, rebalance_biases (fin [(d, b)]) = fin [(d, b)]) /\ forall a b l, exists m l', rebalance_biases (fin (a :: b :: l)) = fin l' /\ map fst l' = map fst (a :: b :: l) /\
  (exists p, In p (a :: b :: l) /\ m = fst p * snd p) /\ Forall (fun p => fst p * snd p <= m) (a :: b :: l) /\
  Forall (fun p => (/ 10 ^ 20 <= fst p -> snd p * (fst p + / 10 ^ 20) = m) /\ (fst p < / 10 ^ 20 -> snd p = 1)) l'.
Proof. exact (conj rebalance_one rebalance_finite). Qed.
Print Assumptions C23_rebalanced.
(** The other method of bounding, for any bias. *)
Theorem C23_single : forall bias dtau num, 0 < dtau -> 0 < num -> exists r, bound_bias bias (Fin dtau) num = Fin r /\ 1 <= r /\
  (r = 1 \/ (r * (dtau * num) <= 1 /\ (bias = NaN \/ xleb (Fin r) bias = true))).
Proof. exact bound_bias_ge1. Qed.
Print Assumptions C23_single.
(** Two processes, one with a bias that is not a number. *)
Example C23_nonvacuous : exists q, In q (bound_all_biases [(Fin 1, NaN); (Fin (1 / 4), Fin 8)]) /\ fst q = Fin (1 / 4).
Proof. exact two_biases. Qed.
