From Coq Require Import Reals List Lra Lia.
From Verif Require Import RLib GeomModel GeomSpec SpaceProofs FailModel.
Import ListNotations.
Open Scope R_scope.

Lemma qsq_sym G U : symmetric G -> qsq_of G U = spatial G U U.
Proof.
  intros S. unfold qsq_of, spatial. rewrite (S 2%nat 1%nat), (S 3%nat 1%nat), (S 3%nat 2%nat) by lia. ring.
Qed.
Lemma ucon_none z : symmetric (gcov z) ->
  (ucon_calc (gcov z) (gcon z) (alpha z) (vel z) = None <-> spatial (gcov z) (vel z) (vel z) < - / 10 ^ 10).
Proof.
  intros S. unfold ucon_calc, mhd_gamma_calc. rewrite (qsq_sym _ _ S).
  set (q := spatial _ _ _). assert (T : 0 < / 10 ^ 10) by (apply Rinv_0_lt_compat; lra). set (e := / 10 ^ 10) in *. clearbody q e.
  destruct (Rltb_spec q 0) as [A|A].
  - destruct (Rltb_spec e (Rabs q)) as [B|B].
    + rewrite (Rabs_left q A) in B. split; [intros _; lra|reflexivity].
    + rewrite (Rabs_left q A) in B. split; [discriminate|intros; lra].
  - split; [discriminate|intros; lra].
Qed.
Lemma zloop_ok f zones : Forall (fun z => ucon_calc (gcov z) (gcon z) (alpha z) (vel z) <> None) zones -> zloop f zones = Ended.
Proof.
  induction 1 as [|z zones H _ IH]; [reflexivity|]. cbn [zloop]. destruct (ucon_calc _ _ _ _); [exact IH|congruence].
Qed.
Lemma zloop_bad f zones : Exists (fun z => ucon_calc (gcov z) (gcon z) (alpha z) (vel z) = None) zones -> zloop f zones = f.
Proof.
  induction 1 as [z zones H|z zones H IH]; cbn [zloop]; [rewrite H; reflexivity|]. destruct (ucon_calc _ _ _ _); [exact IH|reflexivity].
Qed.
Lemma fail_bad fuel zones : Exists (fun z => ucon_calc (gcov z) (gcon z) (alpha z) (vel z) = None) zones -> fail fuel zones = Deeper.
Proof. intros E. induction fuel as [|f IH]; [reflexivity|]. cbn [fail]. rewrite zloop_bad by exact E. exact IH. Qed.
Lemma sym_bad zones : Forall (fun z => symmetric (gcov z)) zones ->
  Exists (fun z => spatial (gcov z) (vel z) (vel z) < - / 10 ^ 10) zones ->
  Exists (fun z => ucon_calc (gcov z) (gcon z) (alpha z) (vel z) = None) zones.
Proof.
  intros S E. apply Exists_exists in E. destruct E as (z & I & L). apply Exists_exists. exists z. split; [exact I|].
  rewrite Forall_forall in S. apply ucon_none; [apply S, I|exact L].
Qed.
Lemma never_ends zones : Forall (fun z => symmetric (gcov z)) zones ->
  Exists (fun z => spatial (gcov z) (vel z) (vel z) < - / 10 ^ 10) zones -> forall fuel, fail fuel zones = Deeper.
Proof. intros S E fuel. apply fail_bad, sym_bad; assumption. Qed.
Lemma ends zones : Forall (fun z => symmetric (gcov z)) zones ->
  Forall (fun z => - / 10 ^ 10 <= spatial (gcov z) (vel z) (vel z)) zones -> forall fuel, fail (S fuel) zones = Ended.
Proof.
  intros S E fuel. cbn [fail]. apply zloop_ok. rewrite Forall_forall in *. intros z I N. apply ucon_none in N; [|apply S, I].
  specialize (E z I). cbn beta in E. lra.
Qed.
Lemma ends_spacetime zones : Forall (fun z => exists a b, spacetime (gcov z) a b) zones -> forall fuel, fail (S fuel) zones = Ended.
Proof.
  intros S. apply ends; rewrite Forall_forall in *; intros z I; destruct (S z I) as (a & b & ST).
  - apply ST.
  - assert (0 < / 10 ^ 10) by (apply Rinv_0_lt_compat; lra).
    pose proof (sp_nonneg (gcov z) a b ST (vel z)). lra.
Qed.
(** A zone with a metric that is not positive definite in space, next to a good one. *)
Definition flat : mat := eta.
Definition bent : mat := fun i j => if Nat.eqb i j then (if Nat.ltb i 2 then -1 else 1) else 0.
Definition z_good : zone := mkzone flat flat 1 (fun _ => 3).
Definition z_bad : zone := mkzone bent bent 1 (fun i => if Nat.eqb i 1 then 1 else 0).
Lemma z_bad_bad : spatial bent (vel z_bad) (vel z_bad) < - / 10 ^ 10.
Proof. unfold spatial, bent. cbn [z_bad vel Nat.eqb Nat.ltb Nat.leb]. assert (/ 10 ^ 10 < 1) by (rewrite <- Rinv_1; apply Rinv_lt_contravar; lra). lra. Qed.
Lemma syms : Forall (fun z => symmetric (gcov z)) [z_good; z_bad].
Proof.
  repeat constructor; intros i j _ _; cbn [gcov z_good z_bad]; unfold flat, eta, bent; rewrite (Nat.eqb_sym j i);
    destruct (Nat.eqb_spec i j) as [->|]; reflexivity.
Qed.
Lemma refuted : exists zones, (forall z, In z zones -> symmetric (gcov z)) /\
  (exists z, In z zones /\ ucon_calc (gcov z) (gcon z) (alpha z) (vel z) = None) /\ forall fuel, fail fuel zones = Deeper.
Proof.
  exists [z_good; z_bad]. pose proof syms as S. split; [apply Forall_forall, S|]. split.
  - exists z_bad. split; [right; left; reflexivity|]. apply ucon_none; [|exact z_bad_bad].
    rewrite Forall_forall in S. apply S. right. left. reflexivity.
  - apply never_ends; [exact S|]. right. left. exact z_bad_bad.
Qed.
Lemma flat_st : spacetime flat 1 (fun _ => 0).
Proof.
  repeat split; try (unfold flat, eta, spatial; cbn; lra).
  - intros i j _ _. unfold flat, eta. rewrite (Nat.eqb_sym j i). destruct (Nat.eqb_spec i j) as [->|]; reflexivity.
  - intros p H. unfold flat, eta, spatial. cbn [Nat.eqb]. pose proof (Rle_0_sqr (p 1%nat)). pose proof (Rle_0_sqr (p 2%nat)). pose proof (Rle_0_sqr (p 3%nat)).
    unfold Rsqr in *. destruct H as [H|[H|H]]; pose proof (Rsqr_pos_lt _ H); unfold Rsqr in *; lra.
  - intros i H. unfold flat, eta. destruct i as [|i]; [lia|]. cbn [Nat.eqb]. lra.
Qed.
