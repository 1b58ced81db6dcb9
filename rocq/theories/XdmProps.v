(** C128: the metadata for visualisation describe what the files hold. *)
From Coq Require Import Reals ZArith List String Bool Lra Lia.
From Verif Require Import RLib IntLib XdmModel XdmSpec XdmProofs.
Import ListNotations.
Open Scope string_scope.
Open Scope list_scope.
Open Scope Z_scope.

(** The coordinates and every attribute that is not a vector name a dataset that is there, with its size, and a slab in it. *)
Theorem C128_right : forall c it, 0 <= iX1_max c <= N1TOT c -> 0 <= N2TOT c -> 0 <= N3TOT c ->
  In it (geom_meta c ++ attributes c) -> dset it <> "jcon" -> dset it <> "Jrad" -> right_ c it.
Proof.
  intros c it H1 H2 H3 I A B. apply in_app_iff in I. destruct I as [I|I]; [apply coord_right; assumption|].
  destruct (all_right c it H1 H2 H3 I) as [[R _]|[_ [_ [E|E]]]]; [exact R|contradiction|contradiction].
Qed.
Print Assumptions C128_right.

(** The vectors never do: the file named is the metadata file itself. *)
Theorem C128_vectors : forall c it, In it (attributes c) -> dset it = "jcon" \/ dset it = "Jrad" -> ~ right_ c it.
Proof. intros c it I E [D _]. rewrite (vec_file c it I E) in D. exact D. Qed.
Print Assumptions C128_vectors.

(** So not every description of a full dump is right. *)
Theorem C128_vectors_refuted : exists c it, 0 < iX1_max c <= N1TOT c /\ 0 < N2TOT c /\ 0 < N3TOT c /\ In it (attributes c) /\ attr it = "jcon" /\
  In ("jcon", dims it) (datasets c DumpFile) /\ ~ right_ c it.
Proof.
  exists (mkx 8 6 4 8 2 true false false false 8 (fun _ => "v")).
  exists (vec_component (mkx 8 6 4 8 2 true false false false 8 (fun _ => "v")) "jcon" 0).
  split; [cbn; lia|]. split; [reflexivity|]. split; [reflexivity|]. split; [|split; [reflexivity|split]].
  - unfold attributes. rewrite !in_app_iff. do 6 right. cbn [if_ full_dump]. rewrite !in_app_iff. right. left. left. reflexivity.
  - cbn. tauto.
  - intros [D _]. exact D.
Qed.
Print Assumptions C128_vectors_refuted.

(** Even with the file of the dump named in its place the description of Jrad would be wrong: its first index is the number
    of scatterings. *)
Theorem C128_Jrad_refuted : exists c it, 0 < iX1_max c <= N1TOT c /\ 0 < N2TOT c /\ 0 < N3TOT c /\ radiation c = true /\ In it (attributes c) /\
  dset it = "Jrad" /\ forall d, In ("Jrad", d) (datasets c DumpFile) -> d <> dims it.
Proof.
  exists (mkx 8 6 4 8 2 true false false true 8 (fun _ => "v")).
  exists (vec_component (mkx 8 6 4 8 2 true false false true 8 (fun _ => "v")) "Jrad" 0).
  split; [cbn; lia|]. split; [reflexivity|]. split; [reflexivity|]. split; [reflexivity|]. split; [|split; [reflexivity|]].
  - unfold attributes. rewrite !in_app_iff. do 6 right. cbn [if_ full_dump]. rewrite !in_app_iff. do 4 right. cbn [if_ radiation].
    rewrite !in_app_iff. right. left. left. reflexivity.
  - intros d I. cbn in I. repeat (destruct I as [I|I]; [first [discriminate I|injection I as <-; discriminate]|]). destruct I.
Qed.
Print Assumptions C128_Jrad_refuted.

(** All attributes are given on the same cells, one fewer in each direction than the nodes of the mesh, from the first zone on. *)
Theorem C128_cells : forall c it, In it (attributes c) -> firstn 3 (count it) = map (fun n => n - 1) (mesh c) /\ firstn 3 (start it) = [0; 0; 0].
Proof. exact cells. Qed.
Print Assumptions C128_cells.

(** Every primitive variable is there under its name, and every component of the metric and of the Jacobians. *)
Theorem C128_complete : forall c,
  (forall ip, (ip < NVAR c)%nat -> exists it, In it (attributes c) /\ attr it = vnams c ip /\ file it = DumpFile /\ dset it = "P" /\ start it = [0; 0; 0; Z.of_nat ip]) /\
  (forall name mu nu, 0 <= mu < 4 -> 0 <= nu < 4 -> In name ["Lambda_h2cart_con"; "Lambda_h2cart_cov"; "gcon"; "gcov"] ->
   exists it, In it (attributes c) /\ attr it = name /\ comp it = [mu; nu] /\ file it = GridFile /\ dset it = name /\ start it = [0; 0; 0; mu; nu]).
Proof. intros c. split; [apply prim_there|apply tensor_there]. Qed.
Print Assumptions C128_complete.

(** The number of shells fits the grid if Rout_vis lies between Rin and Rout; at the faces it is exact. *)
Theorem C128_shells : forall Rin Rout n1 r, (0 < Rin)%R -> (Rin < Rout)%R -> 0 < n1 ->
  ((Rin <= r <= Rout)%R -> 0 <= bl_i_of_r Rin Rout n1 r <= n1) /\
  forall k, 0 <= k -> bl_i_of_r Rin Rout n1 (Rin * exp (IZR k * (ln (Rout / Rin) / IZR n1)))%R = k.
Proof. intros. split; [intros; apply shells; assumption|intros; apply shells_exact; assumption]. Qed.
Print Assumptions C128_shells.

(** Rout_vis is not limited by Rout: beyond it the slabs leave the datasets. *)
Theorem C128_shells_refuted : exists Rin Rout r c it, (0 < Rin < Rout)%R /\ (Rout < r)%R /\ 0 < N1TOT c /\ 0 < N2TOT c /\ 0 < N3TOT c /\
  iX1_max c = bl_i_of_r Rin Rout (N1TOT c) r /\ In it (attributes c) /\ dset it = "P" /\ ~ right_ c it.
Proof.
  set (c := mkx 8 6 4 8 2 true false false false 9 (fun _ => "v")).
  exists 1%R, 2%R, (1 * exp (IZR 9 * (ln (2 / 1) / IZR 8)))%R, c, (prim_meta c 0).
  split; [lra|]. split.
  - rewrite Rmult_1_l. rewrite <- (exp_ln 2) at 1 by lra. apply exp_increasing.
    assert (0 < ln 2)%R by (rewrite <- ln_1; apply ln_increasing; lra). replace (2 / 1)%R with 2%R by lra. lra.
  - split; [reflexivity|]. split; [reflexivity|]. split; [reflexivity|]. split; [|split; [|split; [reflexivity|]]].
    + symmetry. apply (shells_exact 1 2 8 9); try lra; lia.
    + unfold attributes. rewrite !in_app_iff. do 5 right. left. left. reflexivity.
    + apply too_far; cbn; lia.
Qed.
Print Assumptions C128_shells_refuted.

Example C128_nonvacuous : let c := mkx 8 6 4 9 2 true true true true 5 (fun _ => "v") in
  In (scalar_meta c "Qcoul" DumpFile) (geom_meta c ++ attributes c) /\ right_ c (scalar_meta c "Qcoul" DumpFile) /\ right_ c (prim_meta c 8).
Proof.
  intros c.
  assert (I : In (scalar_meta c "Qcoul" DumpFile) (geom_meta c ++ attributes c)).
  { unfold attributes. rewrite !in_app_iff. do 7 right. cbn [if_ full_dump c]. rewrite !in_app_iff. do 3 right. left. right. left. reflexivity. }
  split; [exact I|]. split; [apply C128_right; try exact I; try discriminate; cbn; lia|apply prim_right; cbn; lia].
Qed.
