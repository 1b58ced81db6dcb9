From Coq Require Import Reals ZArith List String Bool Lra Lia.
From Verif Require Import RLib IntLib XdmModel XdmSpec.
Import ListNotations.
Open Scope string_scope.
Open Scope list_scope.
Open Scope Z_scope.

Lemma inside_3 a b d x y z : 0 <= x <= a -> 0 <= y <= b -> 0 <= z <= d -> inside [a; b; d] [0; 0; 0] [x; y; z].
Proof.
  intros. split; [reflexivity|]. split; [reflexivity|]. intros i p q m.
  destruct i as [|[|[|[|i]]]]; cbn; intros E1 E2 E3; try discriminate; injection E1 as <-; injection E2 as <-; injection E3 as <-; lia.
Qed.
Lemma inside_4 a b d e x y z k : 0 <= x <= a -> 0 <= y <= b -> 0 <= z <= d -> 0 <= k < e -> inside [a; b; d; e] [0; 0; 0; k] [x; y; z; 1].
Proof.
  intros. split; [reflexivity|]. split; [reflexivity|]. intros i p q m.
  destruct i as [|[|[|[|[|i]]]]]; cbn; intros E1 E2 E3; try discriminate; injection E1 as <-; injection E2 as <-; injection E3 as <-; lia.
Qed.
Lemma inside_5 a b d e f x y z k l : 0 <= x <= a -> 0 <= y <= b -> 0 <= z <= d -> 0 <= k < e -> 0 <= l < f -> inside [a; b; d; e; f] [0; 0; 0; k; l] [x; y; z; 1; 1].
Proof.
  intros. split; [reflexivity|]. split; [reflexivity|]. intros i p q m.
  destruct i as [|[|[|[|[|[|i]]]]]]; cbn; intros E1 E2 E3; try discriminate; injection E1 as <-; injection E2 as <-; injection E3 as <-; lia.
Qed.

Section P.
Variable c : xcfg.
Hypothesis H1 : 0 <= iX1_max c <= N1TOT c.
Hypothesis H2 : 0 <= N2TOT c.
Hypothesis H3 : 0 <= N3TOT c.

Lemma scalar_right name w : In (name, grid_dims c) (datasets c w) -> right_ c (scalar_meta c name w).
Proof. intros H. split; [exact H|]. apply inside_3; lia. Qed.
Lemma tensor_right name w it : In (name, tens_dims c) (datasets c w) -> In it (tensor_meta c name w) -> right_ c it.
Proof.
  intros H I. unfold tensor_meta in I. apply in_flat_map in I. destruct I as (mu & M & I). apply in_map_iff in I. destruct I as (nu & <- & N).
  assert (0 <= mu < 4) by (clear -M; destruct M as [<-|[<-|[<-|[<-|[]]]]]; lia). assert (0 <= nu < 4) by (clear -N; destruct N as [<-|[<-|[<-|[<-|[]]]]]; lia).
  split; [exact H|]. unfold tensor_component, NDIM. apply inside_5; lia.
Qed.
Lemma prim_right ip : (ip < NVAR c)%nat -> right_ c (prim_meta c ip).
Proof. intros H. split; [left; reflexivity|]. apply inside_4; lia. Qed.
Lemma coord_right it : In it (geom_meta c) -> right_ c it.
Proof.
  intros I. unfold geom_meta in I. apply in_map_iff in I. destruct I as (k & <- & K). assert (1 <= k < 4) by (clear -K; destruct K as [<-|[<-|[<-|[]]]]; lia).
  split; [cbn; tauto|]. unfold coord_meta, NDIM. apply inside_4; lia.
Qed.
End P.

Lemma vec_wrong c name it : In it (vec_meta c name) -> ~ right_ c it /\ file it = XmfFile /\ dset it = name.
Proof.
  intros I. unfold vec_meta in I. apply in_map_iff in I. destruct I as (k & <- & K). split; [|split; reflexivity].
  intros [D _]. exact D.
Qed.

(** every attribute but the vectors *)
Lemma all_right c it : 0 <= iX1_max c <= N1TOT c -> 0 <= N2TOT c -> 0 <= N3TOT c -> In it (attributes c) ->
  (right_ c it /\ file it <> XmfFile) \/ (~ right_ c it /\ file it = XmfFile /\ (dset it = "jcon" \/ dset it = "Jrad")).
Proof.
  intros H1 H2 H3 I. unfold attributes in I.
  assert (T : forall name w, w <> XmfFile -> In (name, tens_dims c) (datasets c w) -> In it (tensor_meta c name w) -> right_ c it /\ file it <> XmfFile).
  { intros name w Hw D J. split; [eapply tensor_right; eauto|]. unfold tensor_meta in J. apply in_flat_map in J. destruct J as (mu & _ & J).
    apply in_map_iff in J. destruct J as (nu & <- & _). exact Hw. }
  assert (S : forall name w, w <> XmfFile -> In (name, grid_dims c) (datasets c w) -> scalar_meta c name w = it -> right_ c it /\ file it <> XmfFile).
  { intros name w Hw D <-. split; [apply scalar_right; auto|exact Hw]. }
  assert (V : forall name, name = "jcon" \/ name = "Jrad" -> In it (vec_meta c name) -> ~ right_ c it /\ file it = XmfFile /\ (dset it = "jcon" \/ dset it = "Jrad")).
  { intros name Hn J. destruct (vec_wrong c name it J) as (A & B & C). rewrite C. auto. }
  repeat rewrite in_app_iff in I.
  destruct I as [I|[I|[I|[I|[I|[I|I]]]]]].
  - left. apply (T "Lambda_h2cart_con" GridFile); [discriminate|cbn; tauto|exact I].
  - left. apply (T "Lambda_h2cart_cov" GridFile); [discriminate|cbn; tauto|exact I].
  - left. apply (T "gcon" GridFile); [discriminate|cbn; tauto|exact I].
  - left. apply (T "gcov" GridFile); [discriminate|cbn; tauto|exact I].
  - left. destruct I as [I|[I|[]]]; [apply (S "gdet" GridFile)|apply (S "alpha" GridFile)]; solve [discriminate|cbn; tauto|exact I].
  - left. apply in_map_iff in I. destruct I as (ip & <- & J). apply in_seq in J. split; [apply prim_right; auto; lia|discriminate].
  - unfold if_ in I at 1. destruct (full_dump c) eqn:F; [|destruct I]. repeat rewrite in_app_iff in I.
    assert (D0 : forall x, In x ([("divb", grid_dims c)] ++
       if_ (eosvars c) [("PRESS", grid_dims c); ("ENT", grid_dims c); ("TEMP", grid_dims c); ("CS2", grid_dims c)] ++
       if_ (electrons c) ([("Qvisc", grid_dims c)] ++ if_ (radiation c) [("Qcoul", grid_dims c)]) ++
       [("jcon", vec_dims c)] ++
       if_ (radiation c) [("nph", grid_dims c); ("Jrad", [MAXNSCATT c + 2; N1TOT c; N2TOT c; N3TOT c]); ("Rmunu", tens_dims c)])%list -> In x (datasets c DumpFile)).
    { intros x X. unfold datasets. rewrite F. right. exact X. }
    destruct I as [I|[I|[I|[I|I]]]].
    + left. destruct I as [I|[]]. apply (S "divb" DumpFile); [discriminate| |exact I]. apply D0. left. reflexivity.
    + right. apply (V "jcon"); auto.
    + left. unfold if_ in I. destruct (eosvars c); [|destruct I].
      destruct I as [I|[I|[I|[I|[]]]]];
        [apply (S "PRESS" DumpFile)|apply (S "ENT" DumpFile)|apply (S "TEMP" DumpFile)|apply (S "CS2" DumpFile)];
        solve [discriminate|exact I|apply D0; cbn; tauto].
    + left. unfold if_ in I at 1. destruct (electrons c); [|destruct I]. apply in_app_iff in I.
      assert (D1 : forall x, In x ([("Qvisc", grid_dims c)] ++ if_ (radiation c) [("Qcoul", grid_dims c)])%list -> In x (datasets c DumpFile)).
      { intros x X. apply D0. rewrite !in_app_iff. right. right. left. exact X. }
      destruct I as [[I|[]]|I].
      * apply (S "Qvisc" DumpFile); [discriminate| |exact I]. apply D1. left. reflexivity.
      * unfold if_ in I. destruct (radiation c); [|destruct I]. destruct I as [I|[]]. apply (S "Qcoul" DumpFile); [discriminate| |exact I]. apply D1. cbn. tauto.
    + unfold if_ in I at 1. destruct (radiation c); [|destruct I]. repeat rewrite in_app_iff in I.
      assert (D1 : forall x, In x [("nph", grid_dims c); ("Jrad", [MAXNSCATT c + 2; N1TOT c; N2TOT c; N3TOT c]); ("Rmunu", tens_dims c)] -> In x (datasets c DumpFile)).
      { intros x X. apply D0. rewrite !in_app_iff. right. right. right. right. exact X. }
      destruct I as [[I|[]]|[I|I]].
      * left. apply (S "nph" DumpFile); [discriminate| |exact I]. apply D1. cbn. tauto.
      * right. apply (V "Jrad"); auto.
      * left. apply (T "Rmunu" DumpFile); [discriminate| |exact I]. apply D1. cbn. tauto.
Qed.

Lemma cells c it : In it (attributes c) -> firstn 3 (count it) = map (fun n => n - 1) (mesh c) /\ firstn 3 (start it) = [0; 0; 0].
Proof.
  assert (E : map (fun n => n - 1) (mesh c) = [iX1_max c; N2TOT c; N3TOT c]) by (cbn; repeat f_equal; lia). rewrite E.
  assert (T : forall name w, In it (tensor_meta c name w) -> firstn 3 (count it) = [iX1_max c; N2TOT c; N3TOT c] /\ firstn 3 (start it) = [0; 0; 0]).
  { intros name w J. unfold tensor_meta in J. apply in_flat_map in J. destruct J as (mu & _ & J). apply in_map_iff in J. destruct J as (nu & <- & _). split; reflexivity. }
  assert (V : forall name, In it (vec_meta c name) -> firstn 3 (count it) = [iX1_max c; N2TOT c; N3TOT c] /\ firstn 3 (start it) = [0; 0; 0]).
  { intros name J. unfold vec_meta in J. apply in_map_iff in J. destruct J as (nu & <- & _). split; reflexivity. }
  unfold attributes, if_. intros I. repeat rewrite in_app_iff in I.
  destruct I as [I|[I|[I|[I|[I|[I|I]]]]]]; try (eapply T; exact I).
  - destruct I as [<-|[<-|[]]]; split; reflexivity.
  - apply in_map_iff in I. destruct I as (ip & <- & _). split; reflexivity.
  - destruct (full_dump c); [|destruct I]. repeat rewrite in_app_iff in I. destruct I as [I|[I|[I|[I|I]]]].
    + destruct I as [<-|[]]; split; reflexivity.
    + eapply V; exact I.
    + destruct (eosvars c); [|destruct I]. destruct I as [<-|[<-|[<-|[<-|[]]]]]; split; reflexivity.
    + destruct (electrons c); [|destruct I]. destruct (radiation c); [destruct I as [<-|[<-|[]]]|destruct I as [<-|[]]]; split; reflexivity.
    + destruct (radiation c); [|destruct I]. repeat rewrite in_app_iff in I. destruct I as [I|[I|I]].
      * destruct I as [<-|[]]; split; reflexivity.
      * eapply V; exact I.
      * eapply T; exact I.
Qed.

Lemma vec_file c it : In it (attributes c) -> dset it = "jcon" \/ dset it = "Jrad" -> file it = XmfFile.
Proof.
  assert (T : forall name w, name <> "jcon" -> name <> "Jrad" -> In it (tensor_meta c name w) -> dset it = "jcon" \/ dset it = "Jrad" -> file it = XmfFile).
  { intros name w A B J E. unfold tensor_meta in J. apply in_flat_map in J. destruct J as (mu & _ & J). apply in_map_iff in J. destruct J as (nu & <- & _).
    cbn in E. destruct E; contradiction. }
  assert (V : forall name, In it (vec_meta c name) -> file it = XmfFile) by (intros name J; apply (vec_wrong c name it J)).
  unfold attributes, if_. intros I E. repeat rewrite in_app_iff in I.
  destruct I as [I|[I|[I|[I|[I|[I|I]]]]]]; try (eapply T; [| |exact I|exact E]; discriminate).
  - destruct I as [<-|[<-|[]]]; destruct E; discriminate.
  - apply in_map_iff in I. destruct I as (ip & <- & _). destruct E; discriminate.
  - destruct (full_dump c); [|destruct I]. repeat rewrite in_app_iff in I. destruct I as [I|[I|[I|[I|I]]]].
    + destruct I as [<-|[]]; destruct E; discriminate.
    + eapply V; exact I.
    + destruct (eosvars c); [|destruct I]. destruct I as [<-|[<-|[<-|[<-|[]]]]]; destruct E; discriminate.
    + destruct (electrons c); [|destruct I]. destruct (radiation c); [destruct I as [<-|[<-|[]]]|destruct I as [<-|[]]]; destruct E; discriminate.
    + destruct (radiation c); [|destruct I]. repeat rewrite in_app_iff in I. destruct I as [I|[I|I]].
      * destruct I as [<-|[]]; destruct E; discriminate.
      * eapply V; exact I.
      * eapply T; [| |exact I|exact E]; discriminate.
Qed.

Lemma prim_there c ip : (ip < NVAR c)%nat -> exists it, In it (attributes c) /\ attr it = vnams c ip /\ file it = DumpFile /\ dset it = "P" /\ start it = [0; 0; 0; Z.of_nat ip].
Proof.
  intros H. exists (prim_meta c ip). split; [|repeat split].
  unfold attributes. rewrite !in_app_iff. do 5 right. left. apply in_map, in_seq. lia.
Qed.
Lemma tensor_there c name mu nu : 0 <= mu < 4 -> 0 <= nu < 4 -> In name ["Lambda_h2cart_con"; "Lambda_h2cart_cov"; "gcon"; "gcov"] ->
  exists it, In it (attributes c) /\ attr it = name /\ comp it = [mu; nu] /\ file it = GridFile /\ dset it = name /\ start it = [0; 0; 0; mu; nu].
Proof.
  intros M N I. exists (tensor_component c name GridFile mu nu). split; [|repeat split].
  assert (J : In (tensor_component c name GridFile mu nu) (tensor_meta c name GridFile)).
  { unfold tensor_meta. apply in_flat_map. exists mu. split; [cbn; lia|]. apply in_map. cbn. lia. }
  unfold attributes. rewrite !in_app_iff. destruct I as [<-|[<-|[<-|[<-|[]]]]]; tauto.
Qed.

(** the number of shells *)
Open Scope R_scope.
Lemma shells Rin Rout n1 r : 0 < Rin -> Rin < Rout -> (0 < n1)%Z -> Rin <= r <= Rout -> (0 <= bl_i_of_r Rin Rout n1 r <= n1)%Z.
Proof.
  intros A B C D. unfold bl_i_of_r. assert (N : 0 < IZR n1) by (apply (IZR_lt 0); exact C).
  assert (L : ln (Rout / Rin) = ln Rout - ln Rin) by (unfold Rdiv; rewrite ln_mult, ln_Rinv; [ring|lra|lra|apply Rinv_0_lt_compat; lra]).
  assert (L1 : ln Rin < ln Rout) by (apply ln_increasing; lra).
  assert (L2 : ln Rin <= ln r) by (destruct (Req_dec Rin r) as [->|]; [lra|left; apply ln_increasing; lra]).
  assert (L3 : ln r <= ln Rout) by (destruct (Req_dec r Rout) as [->|]; [lra|left; apply ln_increasing; lra]).
  rewrite L. set (x := (ln r - ln Rin) / ((ln Rout - ln Rin) / IZR n1)).
  assert (X : x = (ln r - ln Rin) / (ln Rout - ln Rin) * IZR n1) by (unfold x; field; lra).
  assert (F : 0 <= (ln r - ln Rin) / (ln Rout - ln Rin) <= 1).
  { split; [apply Rmult_le_pos; [lra|left; apply Rinv_0_lt_compat; lra]|].
    apply Rmult_le_reg_r with (ln Rout - ln Rin); [lra|]. unfold Rdiv. rewrite Rmult_assoc, Rinv_l by lra. lra. }
  assert (X0 : 0 <= x <= IZR n1) by (rewrite X; split; [apply Rmult_le_pos; lra|]; rewrite <- (Rmult_1_l (IZR n1)) at 2; apply Rmult_le_compat_r; lra).
  rewrite truncZ_pos by lra. destruct (base_Int_part x) as [P1 P2]. split.
  - apply Z.lt_succ_r. apply lt_IZR. rewrite succ_IZR. lra.
  - apply le_IZR. lra.
Qed.
Lemma shells_exact Rin Rout n1 k : 0 < Rin -> Rin < Rout -> (0 < n1)%Z -> (0 <= k)%Z ->
  bl_i_of_r Rin Rout n1 (Rin * exp (IZR k * (ln (Rout / Rin) / IZR n1))) = k.
Proof.
  intros A B C D. unfold bl_i_of_r. assert (N : 0 < IZR n1) by (apply (IZR_lt 0); exact C).
  assert (L : 0 < ln (Rout / Rin)).
  { rewrite <- ln_1. apply ln_increasing; [lra|]. apply Rmult_lt_reg_r with Rin; [lra|]. unfold Rdiv. rewrite Rmult_assoc, Rinv_l by lra. lra. }
  rewrite ln_mult by (try apply exp_pos; lra). rewrite ln_exp.
  match goal with |- truncZ ?x = _ => replace x with (IZR k) by (field; lra) end.
  apply truncZ_unique; [apply (IZR_le 0); exact D|lra].
Qed.
Lemma too_far c ip : (N1TOT c < iX1_max c)%Z -> (ip < NVAR c)%nat -> ~ right_ c (prim_meta c ip).
Proof.
  intros H _ [_ (_ & _ & G)]. specialize (G 0%nat _ _ _ eq_refl eq_refl eq_refl). lia.
Qed.
