(** C130: estimate of the electron temperature. *)
From Coq Require Import Reals List ZArith Bool Lra Lia.
From Verif Require Import RLib EstModel EstSpec EstProofs.
Import ListNotations.
Open Scope R_scope.

(** Without radiation to take up, electrons that do not emit keep their temperature and
    electrons that emit cool. *)
Theorem C130_emission : forall z ps T, physical z ->
  (forall p, In p ps -> abs_inv z T (nu p) (theta p) = 0 /\ scat_inv z T (nu p) = 0) -> dEdt z ps T = 0 ->
  (emis z T = 0 -> T = Thetae_old z) /\ (0 < emis z T -> T < Thetae_old z).
Proof. intros z ps T P. exact (dark z P ps T). Qed.
Print Assumptions C130_emission.

(** Electrons that only absorb: every root of the residual is below the old temperature. *)
Theorem C130_absorbing : forall z ps T, physical z -> shining ps -> emis z T = 0 ->
  (forall f a, 0 < abs_inv z T f a) -> (forall f, scat_inv z T f = 0) -> dEdt z ps T = 0 -> T < Thetae_old z.
Proof. intros z ps T P. exact (absorbing z P ps T). Qed.
Print Assumptions C130_absorbing.

(** Electrons that only scatter, in the regime the code assumes, where the radiation gains
    by a factor above one: every root is above the old temperature. *)
Theorem C130_scattering : forall z ps T, physical z -> 0 < T -> shining ps -> emis z T = 0 ->
  (forall f a, abs_inv z T f a = 0) -> (forall f, 0 < scat_inv z T f) -> dEdt z ps T = 0 -> Thetae_old z < T.
Proof. intros z ps T P. exact (scattering z P ps T). Qed.
Print Assumptions C130_scattering.

Lemma part : 0 < 1 - exp (- (1)).
Proof. assert (exp (- (1)) < exp 0) by (apply exp_increasing; lra). rewrite exp_0 in *. lra. Qed.
Definition za : zonep := mkz 1 1 1 2 1 1 1 1 1 1 1 1 1 (fun _ => 0) (fun _ _ _ => 1) (fun _ _ => 0).
Definition pa : sph := mksph ((1 / 2) / (1 - exp (- (1)))) 1 1 0.
Definition zs : zonep := mkz 1 1 1 2 1 1 1 1 1 2 1 1 1 (fun _ => 0) (fun _ _ _ => 0) (fun _ _ => 1).
Definition ps_ : sph := mksph ((1 / 128) / (1 - exp (- (1)))) 1 1 0.
Lemma za_ok : physical za.
Proof. unfold physical, za. cbn. lra. Qed.
Lemma zs_ok : physical zs.
Proof. unfold physical, zs. cbn. lra. Qed.
Lemma shine_a : shining [pa].
Proof. split; [discriminate|]. intros p [<- | []]. cbn [pa w nu dlam]. pose proof part. split; [apply Rdiv_lt_0_compat; lra|lra]. Qed.
Lemma shine_s : shining [ps_].
Proof. split; [discriminate|]. intros p [<- | []]. cbn [ps_ w nu dlam]. pose proof part. split; [apply Rdiv_lt_0_compat; lra|lra]. Qed.
Lemma root_a : dEdt za [pa] (1 / 2) = 0.
Proof.
  unfold dEdt, total. cbn [fold_left]. rewrite (scat_none za) by reflexivity.
  unfold abs_term, u_of, vol. cbn [za pa w nu dlam theta ME CL HPL game L_unit U_unit T_unit kphys_to_num Ne Thetae_old Ucon0 cell dt emis abs_inv scat_inv].
  replace (- (1 * 1 * 1 / (1 * 1 * 1) * 1)) with (- (1)) by field. pose proof part. field. lra.
Qed.
Lemma root_s : dEdt zs [ps_] 4 = 0.
Proof.
  unfold dEdt, total. cbn [fold_left]. rewrite (abs_none zs zs_ok) by reflexivity.
  unfold scat_term, u_of, vol, amp. cbn [zs ps_ w nu dlam theta ME CL HPL game L_unit U_unit T_unit kphys_to_num Ne Thetae_old Ucon0 cell dt emis abs_inv scat_inv].
  replace (- (1 * 1 * 1 / (1 * 1 * 1) * 1)) with (- (1)) by field.
  replace (Rpower 4 2) with 16.
  2:{ replace 2 with (1 + 1) by lra. rewrite Rpower_plus, !Rpower_1 by lra. lra. }
  replace (Rpower 4 (3 / 2)) with 8.
  2:{ replace (3 / 2) with (1 + / 2) by field. rewrite Rpower_plus, Rpower_1, Rpower_sqrt by lra.
      replace (sqrt 4) with 2; [lra|]. replace 4 with (2 * 2) by lra. rewrite sqrt_square; lra. }
  pose proof part. field. lra.
Qed.
(** So the law of the comment, lines 118-119 (absorption heats, upscattering cools), is not
    the one solved. *)
Theorem C130_absorption_refuted : exists z ps T, physical z /\ shining ps /\ (forall t, emis z t = 0) /\ (forall t f a, 0 < abs_inv z t f a) /\
  (forall t f, scat_inv z t f = 0) /\ dEdt z ps T = 0 /\ T < Thetae_old z.
Proof.
  exists za, [pa], (1 / 2). split; [exact za_ok|]. split; [exact shine_a|]. split; [reflexivity|]. split; [intros; cbn; lra|]. split; [reflexivity|]. split; [exact root_a|cbn; lra].
Qed.
Print Assumptions C130_absorption_refuted.
Theorem C130_upscattering_refuted : exists z ps T, physical z /\ shining ps /\ (forall t, emis z t = 0) /\ (forall t f a, abs_inv z t f a = 0) /\
  (forall t f, 0 < scat_inv z t f) /\ 0 < T /\ dEdt z ps T = 0 /\ Thetae_old z < T.
Proof.
  exists zs, [ps_], 4. split; [exact zs_ok|]. split; [exact shine_s|]. split; [reflexivity|]. split; [reflexivity|]. split; [intros; cbn; lra|]. split; [lra|]. split; [exact root_s|cbn; lra].
Qed.
Print Assumptions C130_upscattering_refuted.

(** In size the terms are right: with the units as util.c:143-152 sets them, the
    radiation terms are the energies, in erg per cubic centimetre and second, that packets of
    w particles lose along their paths. *)
Theorem C130_size : forall z ps T M, physical z -> 0 < M -> 0 < T ->
  kphys_to_num z = ME z / M -> U_unit z = M / L_unit z ^ 3 * CL z ^ 2 ->
  dEdt z ps T = Ucon0 z * (Ne z * (T - Thetae_old z) * (ME z * CL z ^ 2)) / ((game z - 1) * (dt z * T_unit z)) + emis z T
    + per_volume z (erg z (fun p => abs_inv z T (nu p) (theta p)) ps) - (4 * T - 2 * (T * sqrt T) + 16 * T ^ 2) * per_volume z (erg z (fun p => scat_inv z T (nu p)) ps).
Proof. exact size. Qed.
Print Assumptions C130_size.

(** The estimate, if the root finder stays in the interval it is given, is within a factor of
    two of the old temperature; it is the old one if the residual has the same sign at both
    ends or the finder fails. *)
Theorem C130_range : forall z ps brent r, physical z ->
  (forall f lo hi x ok, brent f lo hi = Some (x, ok) -> lo <= x <= hi) -> estimate z brent ps = Some r ->
  Thetae_old z / 2 <= r <= 2 * Thetae_old z /\
  (0 < dEdt z ps (Thetae_old z / 2) * dEdt z ps (2 * Thetae_old z) -> r = Thetae_old z) /\
  ((forall f lo hi, exists x, brent f lo hi = Some (x, false)) -> r = Thetae_old z).
Proof.
  intros z ps brent r P B E. destruct P as (_ & _ & _ & _ & _ & _ & _ & _ & _ & T & _).
  unfold estimate in E. cbv zeta in E. replace (5 / 10 * Thetae_old z) with (Thetae_old z / 2) in E by field.
  destruct (Rltb_spec 0 (dEdt z ps (Thetae_old z / 2) * dEdt z ps (2 * Thetae_old z))) as [H|H].
  - injection E as <-. split; [lra|]. split; reflexivity.
  - destruct (brent (dEdt z ps) (Thetae_old z / 2) (2 * Thetae_old z)) as [[x ok]|] eqn:Q; [|discriminate].
    pose proof (B _ _ _ _ _ Q) as I. injection E as <-. split; [destruct ok; lra|]. split; [intros; lra|].
    intros F. destruct (F (dEdt z ps) (Thetae_old z / 2) (2 * Thetae_old z)) as (y & Y). rewrite Q in Y. injection Y as _ ->. reflexivity.
Qed.
Print Assumptions C130_range.

(** The lists of the zones: whatever earlier calls have counted, if every packet of the
    thread is in a zone of the process, the arrays are as long as needed, no element is left
    unset, and each zone has its packets, in order. *)
Theorem C130_lists : forall (A : Type) N1 N2 N3 NG (nz : zone -> nat) (ps : list (zone * A)), (0 <= NG)%Z ->
  (forall p, In p ps -> computed N1 N2 N3 NG (fst p)) ->
  exists r, lists N1 N2 N3 NG (reset N1 N2 N3 NG nz) ps = Done r /\ forall c, computed N1 N2 N3 NG c -> r c = map Some (of_zone c ps).
Proof.
  intros A N1 N2 N3 NG nz ps G H. apply lists_ok; [exact G| |exact H]. intros c C. unfold reset. rewrite (proj2 (active_ok N1 N2 N3 NG c) C). reflexivity.
Qed.
Print Assumptions C130_lists.

(** A packet in a ghost zone ends the run, *)
Theorem C130_ghost : forall (A : Type) N1 N2 N3 NG (nz : zone -> nat) (ps : list (zone * A)),
  (forall p, In p ps -> stored N1 N2 N3 NG (fst p)) -> (exists p, In p ps /\ ~ computed N1 N2 N3 NG (fst p)) ->
  lists N1 N2 N3 NG (reset N1 N2 N3 NG nz) ps = Exit.
Proof.
  intros A N1 N2 N3 NG nz ps H B. apply lists_exit; [|exact H|exact B]. intros c C. unfold reset. rewrite (proj2 (active_ok N1 N2 N3 NG c) C). reflexivity.
Qed.
Print Assumptions C130_ghost.

(** but one further out is counted outside the array before the test is reached. *)
Theorem C130_outside_refuted : exists N1 N2 N3 NG (ps : list (zone * R)), (0 < N1 /\ 0 < N2 /\ 0 < N3 /\ 0 < NG)%Z /\
  (exists p, In p ps /\ ~ computed N1 N2 N3 NG (fst p)) /\ lists N1 N2 N3 NG (fun _ => O) ps <> Exit.
Proof.
  exists 4%Z, 4%Z, 4%Z, 3%Z, [((10%Z, 4%Z, 4%Z), 1)]. split; [lia|]. split.
  - eexists. split; [left; reflexivity|]. unfold computed. cbn [fst]. lia.
  - discriminate.
Qed.
Print Assumptions C130_outside_refuted.

Example C130_nonvacuous : physical za /\ shining [pa] /\ dEdt za [pa] (1 / 2) = 0 /\ estimate za (fun _ _ _ => Some (1 / 2, true)) [pa] = Some (1 / 2) /\
  exists r, lists 4 4 4 3 (fun _ => O) [((3, 4, 5)%Z, 7); ((4, 4, 4)%Z, 8); ((3, 4, 5)%Z, 9)] = Done r /\ r (3, 4, 5)%Z = [Some 7; Some 9].
Proof.
  split; [exact za_ok|]. split; [exact shine_a|]. split; [exact root_a|]. split.
  - unfold estimate. cbv zeta. replace (5 / 10 * Thetae_old za) with (1 / 2) by (cbn; field). rewrite root_a. rewrite Rmult_0_l.
    destruct (Rltb_spec 0 0); [lra|reflexivity].
  - eexists. split; reflexivity.
Qed.
