(** Property theorems on the error routine. *)
From Coq Require Import Reals List.
From Verif Require Import RLib GeomModel GeomSpec FailModel FailProofs.
Import ListNotations.
Open Scope R_scope.

(** C65. The program ends after fail() if no active zone has an imaginary Lorentz factor
    (squared velocity below -1e-10): in particular on any space-time. *)
Theorem C65_ends_partial : forall zones, Forall (fun z => symmetric (gcov z)) zones ->
  Forall (fun z => - / 10 ^ 10 <= spatial (gcov z) (vel z) (vel z)) zones -> forall fuel, fail (S fuel) zones = Ended.
Proof. exact ends. Qed.
Print Assumptions C65_ends_partial.
Theorem C65_spacetime : forall zones, Forall (fun z => exists a b, spacetime (gcov z) a b) zones -> forall fuel, fail (S fuel) zones = Ended.
Proof. exact ends_spacetime. Qed.
Print Assumptions C65_spacetime.
(** If some active zone has, each call of fail() calls fail() again, without end. *)
Theorem C65_recursion : forall zones, Forall (fun z => symmetric (gcov z)) zones ->
  Exists (fun z => spatial (gcov z) (vel z) (vel z) < - / 10 ^ 10) zones -> forall fuel, fail fuel zones = Deeper.
Proof. exact never_ends. Qed.
Print Assumptions C65_recursion.
Theorem C65_refuted : exists zones, (forall z, In z zones -> symmetric (gcov z)) /\
  (exists z, In z zones /\ ucon_calc (gcov z) (gcon z) (alpha z) (vel z) = None) /\ forall fuel, fail fuel zones = Deeper.
Proof. exact refuted. Qed.
Print Assumptions C65_refuted.
Example C65_nonvacuous : Forall (fun z => exists a b, spacetime (gcov z) a b) [z_good; z_good] /\
  Forall (fun z => symmetric (gcov z)) [z_good; z_bad] /\
  Exists (fun z => spatial (gcov z) (vel z) (vel z) < - / 10 ^ 10) [z_good; z_bad].
Proof.
  split; [|split; [exact syms|right; left; exact z_bad_bad]].
  repeat constructor; (exists 1, (fun _ => 0); exact flat_st).
Qed.
