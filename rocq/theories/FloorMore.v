(** The velocity along the field. *)
From Coq Require Import Reals Bool Lia Lra.
From Verif Require Import RLib GeomModel GeomSpec SpaceProofs FloorModel FloorProofs.
Open Scope R_scope.

Lemma along_ok G al beta : spacetime G al beta -> forall gam p p' q,
  let v := vcon G gam p p' q in
  let B := sqrt (spatial G (mag p) (mag p)) in
  let e i := v i - ucondr q i / ucondr q 0%nat in
  v 0%nat = 1 /\ (forall i, (1 <= i < 4)%nat -> (B + / 10 ^ 20) * e i = vpar G gam p p' q * mag p i) /\
  (B + / 10 ^ 20) ^ 2 * spatial G e e = (vpar G gam p p' q * B) ^ 2.
Proof.
  intros ST gam p p' q v B e. split; [reflexivity|].
  assert (S0 : 0 < / 10 ^ 20) by (apply Rinv_0_lt_compat, pow_lt; lra).
  assert (B0 : 0 <= B) by apply sqrt_pos.
  assert (BB : sqrt (dot (Bcon p) (lower (Bcon p) G)) = B).
  { unfold B. f_equal. rewrite <- (BB_spatial G al beta ST p). apply dot_inner. }
  assert (E : forall i, (1 <= i < 4)%nat -> e i = vpar G gam p p' q * mag p i / (B + / 10 ^ 20)).
  { intros i Hi. unfold e, v, vcon. replace (Nat.eqb i 0) with false by (symmetry; apply Nat.eqb_neq; lia). rewrite BB.
    unfold Bcon at 1. replace (Nat.eqb i 0) with false by (symmetry; apply Nat.eqb_neq; lia). change SMALL with (/ 10 ^ 20). unfold Rdiv. ring. }
  split; [intros i Hi; rewrite E by assumption; field; lra|].
  assert (Q : spatial G e e = (vpar G gam p p' q / (B + / 10 ^ 20)) ^ 2 * spatial G (mag p) (mag p)).
  { unfold spatial. rewrite !E by lia. set (s := / 10 ^ 20) in *. clearbody s. clear - B0 S0. field. lra. }
  rewrite Q. assert (BS : spatial G (mag p) (mag p) = B * B) by (unfold B; symmetry; apply sqrt_sqrt; apply (sp_nonneg G al beta ST)).
  rewrite BS. set (s := / 10 ^ 20) in *. clearbody s B. field. lra.
Qed.
