(** Witnesses for the writing of the table of opacities (C121). *)
From Coq Require Import Reals Bool ZArith List Lra Lia Psatz.
From Verif Require Import RLib XLib IntLib TabModel TabSpec TabProofs InvModel OpacModel OpacSpec OpacProofs OwrModel OwrSpec OwrProofs.
Import ListNotations.
Open Scope R_scope.

Lemma holds_exists size buf : (0 <= size)%Z -> (forall a, (0 <= a < size)%Z -> buf a <> None) -> exists l, holds l size buf.
Proof.
  intros S H. destruct (collect_map buf size S) as (l & _ & L & R); [|exists l; split; [exact L|exact R]]. intros i I. specialize (H i I). destruct (buf i); [eauto|congruence].
Qed.
Lemma written_all HPL MEV fort nb b : (1 <= nb)%Z -> (1 <= Nrho b)%Z -> (1 <= NT b)%Z -> (1 <= NYe b)%Z -> (Nrho b * NT b * NYe b * 3 * nb < 2147483648)%Z ->
  exists kg jg gk gj, opac_emis_to_hdf 3 nb HPL MEV fort b = Some (kg, jg) /\ holds gk (Nrho b * NT b * NYe b * 3 * nb) kg /\ holds gj (Nrho b * NT b * NYe b * 3 * nb) jg.
Proof.
  intros A B C D E. destruct (written nb HPL MEV fort A 3 b ltac:(lia) B C D E) as (kg & jg & W & _ & _ & F). specialize (F eq_refl).
  assert (0 <= Nrho b * NT b * NYe b * 3 * nb)%Z by (repeat apply Z.mul_nonneg_nonneg; lia).
  destruct (holds_exists _ kg H) as (gk & GK); [intros a I; apply F; exact I|]. destruct (holds_exists _ jg H) as (gj & GJ); [intros a I; apply F; exact I|]. exists kg, jg, gk, gj. auto.
Qed.
Definition cube : bounds := Bounds 2 2 2 0 1 0 1 0 1.
Lemma fourth_refuted : forall HPL MEV fort, exists b nb kg jg i j k n, opac_emis_to_hdf 4 nb HPL MEV fort b = Some (kg, jg) /\
  inside (Nrho b) (NT b) (NYe b) 4 nb i j k 3 n /\ kg (slot (Nrho b) (NT b) 4 nb i j k 3 n) = None /\ jg (slot (Nrho b) (NT b) 4 nb i j k 3 n) = None.
Proof.
  intros HPL MEV fort. destruct (written 2 HPL MEV fort ltac:(lia) 4 cube ltac:(lia) ltac:(cbn; lia) ltac:(cbn; lia) ltac:(cbn; lia) ltac:(cbn; lia)) as (kg & jg & W & _ & F & _).
  exists cube, 2%Z, kg, jg, 0%Z, 0%Z, 0%Z, 0%Z. split; [exact W|]. assert (IN : inside (Nrho cube) (NT cube) (NYe cube) 4 2 0 0 0 3 0) by (repeat split; cbn; lia). split; [exact IN|]. apply F; [exact IN|lia].
Qed.
Lemma overflow_refuted : forall HPL MEV fort, exists b nb, Nrho b = 391%Z /\ NT b = 163%Z /\ NYe b = 66%Z /\ nb = 201%Z /\ opac_emis_to_hdf 3 nb HPL MEV fort b = None.
Proof. intros HPL MEV fort. exists (Bounds 391 163 66 0 1 0 1 0 1), 201%Z. repeat split. Qed.
Lemma ln3 : SMALL < ln 3 - ln 1.
Proof.
  rewrite ln_1, Rminus_0_r. assert (SMALL < 1) by (unfold SMALL; rewrite <- Rinv_1 at 1; apply Rinv_lt_contravar; [rewrite Rmult_1_l; apply pow_lt; lra|]; apply Rlt_pow_R1; [lra|lia]).
  assert (1 <= ln 3). { rewrite <- (ln_exp 1). destruct (Req_dec (exp 1) 3) as [->|N]; [lra|]. left. apply ln_increasing; [apply exp_pos|]. pose proof exp_le_3. lra. } lra.
Qed.
Lemma reread_refuted : forall HPL MEV fort, exists b nb lo hi kg jg gj, 0 < lo < hi /\ SMALL < (ln hi - ln lo) / IZR (nb - 1) /\ opac_emis_to_hdf 3 nb HPL MEV fort b = Some (kg, jg) /\
  holds gj (Nrho b * NT b * NYe b * 3 * nb) jg /\ regrid (reread b 3 (lnus nb lo hi) nb lo hi) gj = None.
Proof.
  intros HPL MEV fort. destruct (written_all HPL MEV fort 2 cube ltac:(lia) ltac:(cbn; lia) ltac:(cbn; lia) ltac:(cbn; lia) ltac:(cbn; lia)) as (kg & jg & gk & gj & W & _ & J).
  exists cube, 2%Z, 1, 3, kg, jg, gj. assert (S : SMALL < (ln 3 - ln 1) / IZR (2 - 1)) by (pose proof ln3; change (IZR (2 - 1)) with 1; lra).
  split; [lra|]. split; [exact S|]. split; [exact W|]. split; [exact J|]. apply (reread_top cube 2 2 1 3 1 3 gj jg); auto; try lia; try lra; cbn; lia.
Qed.
