(** C121: writing the table of opacities, and reading it back. *)
From Coq Require Import Reals Bool ZArith List Lra Lia.
From Verif Require Import RLib XLib IntLib TabModel TabSpec TabProofs InvModel OpacModel OpacSpec OpacProofs OwrModel OwrSpec OwrProofs OwrMore.
Import ListNotations.
Open Scope R_scope.

(** Nothing is stored outside the arrays.  The element a reader takes for group n of species
    t at node (i, j, k) holds the opacity and the emissivity, per frequency instead of per
    energy, that the routine gives there for its entry t nb + n, for three species; those of
    further species are never stored.  With three species every element is stored. *)
Theorem C121_written : forall nb HPL MEV fort, (1 <= nb)%Z -> forall nt b, (3 <= nt)%Z -> (1 <= Nrho b)%Z -> (1 <= NT b)%Z -> (1 <= NYe b)%Z -> (Nrho b * NT b * NYe b * nt * nb < 2147483648)%Z ->
  let f i j k := fort (pow10 (node (lrho_min b) (lrho_max b) (Nrho b) i)) (node (Ye_min b) (Ye_max b) (NYe b) k) (pow10 (node (lT_min b) (lT_max b) (NT b) j)) in
  exists kg jg, opac_emis_to_hdf nt nb HPL MEV fort b = Some (kg, jg) /\
  (forall i j k t n, inside (Nrho b) (NT b) (NYe b) nt nb i j k t n -> (t < 3)%Z ->
     kg (slot (Nrho b) (NT b) nt nb i j k t n) = Some (fst (f i j k (t * nb + n)%Z)) /\ jg (slot (Nrho b) (NT b) nt nb i j k t n) = Some (snd (f i j k (t * nb + n)%Z) * (HPL / MEV))) /\
  (forall i j k t n, inside (Nrho b) (NT b) (NYe b) nt nb i j k t n -> (3 <= t)%Z -> kg (slot (Nrho b) (NT b) nt nb i j k t n) = None /\ jg (slot (Nrho b) (NT b) nt nb i j k t n) = None) /\
  (nt = 3%Z -> forall a, (0 <= a < Nrho b * NT b * NYe b * nt * nb)%Z -> kg a <> None /\ jg a <> None).
Proof. exact written. Qed.
Print Assumptions C121_written.
(** So with four species, as in runs with oscillations, the file has entries that were
    never computed. *)
Theorem C121_fourth_refuted : forall HPL MEV fort, exists b nb kg jg i j k n, opac_emis_to_hdf 4 nb HPL MEV fort b = Some (kg, jg) /\
  inside (Nrho b) (NT b) (NYe b) 4 nb i j k 3 n /\ kg (slot (Nrho b) (NT b) 4 nb i j k 3 n) = None /\ jg (slot (Nrho b) (NT b) 4 nb i j k 3 n) = None.
Proof. exact fourth_refuted. Qed.
Print Assumptions C121_fourth_refuted.
(** The size of the arrays overflows an int for a large table and two hundred bins. *)
Theorem C121_overflow_refuted : forall HPL MEV fort, exists b nb, Nrho b = 391%Z /\ NT b = 163%Z /\ NYe b = 66%Z /\ nb = 201%Z /\ opac_emis_to_hdf 3 nb HPL MEV fort b = None.
Proof. exact overflow_refuted. Qed.
Print Assumptions C121_overflow_refuted.
(** The axes written are evenly spaced, as the reader takes them to be, and go from one
    bound to the other. *)
Theorem C121_axes : forall lo hi n, (2 <= n <= 2147483647)%Z -> lo < hi -> even (axis_of lo hi n) ((hi - lo) / IZR (n - 1)).
Proof. exact axis_even. Qed.
Print Assumptions C121_axes.
Theorem C121_ends : forall lo hi n i, (2 <= n)%Z -> (0 <= i < n)%Z -> rd (axis_of lo hi n) i = Some (between_ends lo hi n i).
Proof. exact axis_ends. Qed.
Print Assumptions C121_ends.
(** Read back by a run none of whose groups is at the highest frequency written, the entry of
    each group whose frequency was written is what was written for it. *)
Theorem C121_reread : forall b nb nb' lo hi lo' hi' grid buf, (2 <= nb <= 2147483647)%Z -> (2 <= nb' <= 2147483647)%Z -> 0 < lo < hi -> 0 < lo' < hi' ->
  SMALL < (ln hi - ln lo) / IZR (nb - 1) -> (1 <= Nrho b)%Z -> (1 <= NT b)%Z -> (1 <= NYe b)%Z -> holds grid (Nrho b * NT b * NYe b * 3 * nb) buf ->
  (forall n, (0 <= n < nb')%Z -> nu_of lo' hi' (nb' - 1) n <> hi) ->
  exists tab, regrid (reread b 3 (lnus nb lo hi) nb' lo' hi') grid = Some tab /\
  forall i j k t n q, inside (Nrho b) (NT b) (NYe b) 3 nb' i j k t n -> (0 <= q)%Z -> (q + 1 < nb)%Z -> nu_of lo' hi' (nb' - 1) n = nu_of lo hi (nb - 1) q ->
    tab (slot (Nrho b) (NT b) 3 nb' i j k t n) = buf (slot (Nrho b) (NT b) 3 nb i j k t q).
Proof. exact reread_ok. Qed.
Print Assumptions C121_reread.
(** Read back by the run that wrote it the table is read past its end. *)
Theorem C121_reread_refuted : forall HPL MEV fort, exists b nb lo hi kg jg gj, 0 < lo < hi /\ SMALL < (ln hi - ln lo) / IZR (nb - 1) /\ opac_emis_to_hdf 3 nb HPL MEV fort b = Some (kg, jg) /\
  holds gj (Nrho b * NT b * NYe b * 3 * nb) jg /\ regrid (reread b 3 (lnus nb lo hi) nb lo hi) gj = None.
Proof. exact reread_refuted. Qed.
Print Assumptions C121_reread_refuted.

(** A table of two values on each axis. *)
Example C121_nonvacuous : exists kg jg gk gj, opac_emis_to_hdf 3 3 1 1 (fun rho Ye T n => (rho * T, Ye + IZR n)) cube = Some (kg, jg) /\ holds gk 72 kg /\ holds gj 72 jg /\
  (forall n, (0 <= n < 2)%Z -> nu_of 1 2 1 n <> 3) /\ nu_of 1 2 1 0 = nu_of 1 3 2 0.
Proof.
  destruct (written_all 1 1 (fun rho Ye T n => (rho * T, Ye + IZR n)) 3 cube ltac:(lia) ltac:(cbn; lia) ltac:(cbn; lia) ltac:(cbn; lia) ltac:(cbn; lia)) as (kg & jg & gk & gj & W & K & J).
  exists kg, jg, gk, gj. split; [exact W|]. split; [exact K|]. split; [exact J|]. split.
  - intros n N. assert (C : (n = 0 \/ n = 1)%Z) by lia. unfold nu_of. destruct C as [-> | ->].
    + replace (0 / 1) with 0 by field. rewrite Rpower_O by lra. lra.
    + replace (1 / 1) with 1 by field. rewrite Rpower_1 by lra. lra.
  - unfold nu_of. replace (0 / 1) with 0 by field. replace (0 / 2) with 0 by field. rewrite !Rpower_O by lra. ring.
Qed.
