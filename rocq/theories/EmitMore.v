(** More about emission: angles, weights, azimuth, tracking, packets killed, counters. *)
From Coq Require Import Reals Bool ZArith List Lra Lia.
From Verif Require Import RLib XLib IntLib GeomModel EmitModel EmitSpec EmitProofs EmitTune.
From Verif Require BinModel.
Import ListNotations.
Open Scope R_scope.

Lemma sign_lepton ty : get_lepton_sign ty = lepton_number ty.
Proof. unfold get_lepton_sign, lepton_number. destruct ty as [|[p|p|]|p]; reflexivity. Qed.
Lemma total_ext {A} (f g : A -> R) l : (forall a, f a = g a) -> total f l = total g l.
Proof. intros E. induction l as [|a l IH]; [reflexivity|]. cbn. rewrite E. f_equal. exact IH. Qed.
(** the angle *)
Lemma angle_step j r1 r2 th ds : 0 < j (PI / 2) -> 0 <= th <= PI -> cos th = 2 * r1 - 1 ->
  (r2 * j (PI / 2) <= j th -> angle_loop j (r1 :: r2 :: ds) = Got (cos th) ds) /\ (j th < r2 * j (PI / 2) -> angle_loop j (r1 :: r2 :: ds) = angle_loop j ds).
Proof.
  intros P T E. cbn [angle_loop]. rewrite <- E, acos_cos by exact T. unfold xdiv. destruct (Reqb_spec (j (PI / 2)) 0); [lra|]. cbn [xltb].
  assert (K : j th / j (PI / 2) * j (PI / 2) = j th) by (field; lra). split; intros H.
  - rewrite Rltb_false; [reflexivity|]. apply (Rmult_le_reg_r (j (PI / 2))); lra.
  - rewrite Rltb_true; [reflexivity|]. apply (Rmult_lt_reg_r (j (PI / 2))); lra.
Qed.
(** the weight: whatever is lost on the way through the zone, what is left has the same energy
    at every frequency *)
Lemma weight_ok ex alpha L dt C nu : 0 < C -> 0 < nu -> 0 <= L * dt -> 0 <= alpha nu ->
  let tau := alpha nu * L * dt / nu in let d := get_dtau ex alpha L dt nu in let w := get_wgt ex C nu d in
  0 <= d <= 100 /\ exp (- d) * w * nu = C /\ C / nu <= w <= C / nu * exp 100 /\ (ex = true -> tau <= 100 -> d = tau) /\ (ex = false -> w = C / nu).
Proof.
  intros HC HN HL HA tau d w.
  assert (T : 0 <= tau). { unfold tau. apply Rmult_le_pos; [|left; apply Rinv_0_lt_compat, HN]. rewrite Rmult_assoc. apply Rmult_le_pos; assumption. }
  assert (D : 0 <= d <= 100). { unfold d, get_dtau, MY_MIN. destruct ex; [fold tau; rcases; lra|lra]. }
  assert (E1 : 1 <= exp d). { destruct (Req_dec d 0) as [->|]; [rewrite exp_0; lra|]. pose proof (exp_ineq1 d H). lra. }
  assert (E2 : exp d <= exp 100). { destruct (Req_dec d 100) as [->|]; [lra|]. left. apply exp_increasing. lra. }
  assert (Q : 0 < C / nu) by (apply Rdiv_lt_0_compat; lra).
  assert (E3 : exp (- d) * exp d = 1) by (rewrite <- exp_plus, Rplus_opp_l; apply exp_0).
  split; [exact D|]. destruct ex.
  - assert (W : w = C / nu * exp d) by reflexivity. rewrite W. split; [|split; [|split]].
    + transitivity (exp (- d) * exp d * (C / nu * nu)); [ring|]. rewrite E3. field. lra.
    + split; [rewrite <- (Rmult_1_r (C / nu)) at 1|]; apply Rmult_le_compat_l; lra.
    + intros _ H. unfold d, get_dtau, MY_MIN. fold tau. rcases; lra.
    + discriminate.
  - assert (W : w = C / nu) by reflexivity. assert (D0 : d = 0) by reflexivity. rewrite W, D0. split; [|split; [|split]].
    + rewrite Ropp_0, exp_0. field. lra.
    + assert (1 <= exp 100) by lra. split; [lra|]. rewrite <- (Rmult_1_r (C / nu)) at 1. apply Rmult_le_compat_l; lra.
    + discriminate.
    + reflexivity.
Qed.
(** azimuth and tracking *)
Lemma packet_draws r z Econ Ecov E weight cth sth cphi sphi c ds p c' rest : one_packet r z Econ Ecov E weight cth sth cphi sphi c ds = Got (p, c') rest ->
  (axisym_mks r = true -> exists x, In x ds /\ X2 p 3%nat = 2 * PI * x) /\ (exists x, In x ds /\ (is_tracked p = true <-> x < track r)) /\ incl rest ds.
Proof.
  unfold one_packet. intros H. apply bind_got in H. destruct H as (q & ds1 & Hq & H).
  apply bind_got in H. destruct H as (x & ds2 & Hx & H). injection H as <- <- <-.
  apply draw_got in Hx. subst ds1. unfold make_packet in Hq. cbv zeta in Hq. apply bind_got in Hq.
  destruct Hq as (X & ds3 & HX & Hq). injection Hq as <- E3. subst ds3. cbn [set_tracked X2 is_tracked].
  assert (T : Rltb x (track r) = true <-> x < track r) by (destruct (Rltb_spec x (track r)); split; intros; try lra; congruence).
  destruct (axisym_mks r).
  - apply bind_got in HX. destruct HX as (y & ds4 & Hy & HX). apply draw_got in Hy. injection HX as <- ->. subst ds. split; [|split].
    + intros _. exists y. split; [left; reflexivity|reflexivity].
    + exists x. split; [right; left; reflexivity|exact T].
    + intros a Ha. right. right. exact Ha.
  - injection HX as _ ->. split; [discriminate|]. split; [exists x; split; [left; reflexivity|exact T]|]. intros a Ha. right. exact Ha.
Qed.
Lemma freq_incl s table ds : forall nu rest, freq_loop s table ds = Got nu rest -> incl rest ds.
Proof.
  revert ds. fix IH 1. intros [|r1 [|r2 ds]] nu rest; cbn [freq_loop]; try discriminate.
  destruct (linear_interp_log _ _ _ _) as [p|]; [|discriminate]. destruct (xltb p (Fin r2)); intros H.
  - intros a Ha. right. right. exact (IH ds nu rest H a Ha).
  - injection H as _ <-. intros a Ha. right. right. exact Ha.
Qed.
Lemma angle_incl j ds : forall c rest, angle_loop j ds = Got c rest -> incl rest ds.
Proof.
  revert ds. fix IH 1. intros [|r1 [|r2 ds]] c rest; cbn [angle_loop]; try discriminate.
  destruct (xltb _ _); intros H.
  - intros a Ha. right. right. exact (IH ds c rest H a Ha).
  - injection H as _ <-. intros a Ha. right. right. exact Ha.
Qed.
Lemma sample_draws r z Econ Ecov c ds p q c' rest : sample_photon r z Econ Ecov c ds = Got (p, q, c') rest -> forall x, x = p \/ x = q ->
  (axisym_mks r = true -> exists y, In y ds /\ X2 x 3%nat = 2 * PI * y) /\ exists y, In y ds /\ (is_tracked x = true <-> y < track r).
Proof.
  unfold sample_photon. intros H. apply bind_got in H. destruct H as (nu & ds1 & Hf & H). apply freq_incl in Hf.
  cbv zeta in H. apply bind_got in H. destruct H as (cth & ds2 & Ha & H). apply angle_incl in Ha.
  apply bind_got in H. destruct H as (y & ds3 & Hx & H). apply bind_got in H. destruct H as ([p1 c1] & ds4 & H1 & H).
  apply bind_got in H. destruct H as ([p2 c2] & ds5 & H2 & H). injection H as E1 E2 E3 E4. subst p1 p2 c2 ds5.
  apply draw_got in Hx. subst ds2.
  apply packet_draws in H1. destruct H1 as (A1 & B1 & I1). apply packet_draws in H2. destruct H2 as (A2 & B2 & _).
  assert (I3 : incl ds3 ds) by (intros a Ia; apply Hf, Ha; right; exact Ia). assert (I4 : incl ds4 ds) by (intros a Ia; apply I3, I1, Ia).
  intros x [-> | ->]; split.
  - intros S. destruct (A1 S) as (v & V1 & V2). exists v. auto.
  - destruct B1 as (v & V1 & V2). exists v. auto.
  - intros S. destruct (A2 S) as (v & V1 & V2). exists v. auto.
  - destruct B2 as (v & V1 & V2). exists v. auto.
Qed.
(** packets killed as they are made: the fluid still loses what they would carry *)
Lemma kill_pairs r z Econ Ecov n : forall head c ds, 
  match emit_pairs false r z Econ Ecov n head c ds with
  | Got (_, c') rest => forall h, emit_pairs true r z Econ Ecov n h c ds = Got (h, c') rest
  | More => forall h, emit_pairs true r z Econ Ecov n h c ds = More
  | Undef => forall h, emit_pairs true r z Econ Ecov n h c ds = Undef
  end.
Proof.
  induction n as [|n IH]; intros head c ds; cbn [emit_pairs]; [reflexivity|].
  destruct (sample_photon r z Econ Ecov c ds) as [[[p q] c1] ds1| |]; cbn [bind]; try reflexivity.
  specialize (IH (p :: q :: head) c1 ds1). destruct (emit_pairs false r z Econ Ecov n (p :: q :: head) c1 ds1) as [[ps c'] rest| |]; intros h; apply IH.
Qed.
Lemma killed r zs : forall e ds,
  match emit_sites false r zs e ds with
  | Got e' rest => forall h, emit_sites true r zs {| photons := h; cells := cells e; made := made e |} ds = Got {| photons := h; cells := cells e'; made := made e' |} rest
  | More => forall h, emit_sites true r zs {| photons := h; cells := cells e; made := made e |} ds = More
  | Undef => forall h, emit_sites true r zs {| photons := h; cells := cells e; made := made e |} ds = Undef
  end.
Proof.
  induction zs as [|[z dnz] zs IH]; intros e ds; cbn [emit_sites]; [reflexivity|].
  destruct (draw ds) as [x ds1| |]; cbn [bind]; try reflexivity. destruct (number_of_pairs dnz x) as [nz|]; [|reflexivity].
  destruct (Z.ltb 0 nz); [|apply IH]. destruct (make_tetrad _ _ _) as [[Econ Ecov]|]; [|reflexivity].
  pose proof (kill_pairs r z Econ Ecov (Z.to_nat nz) (photons e) (cells e (zone_of z)) ds1) as K. cbn [photons cells made].
  destruct (emit_pairs false r z Econ Ecov (Z.to_nat nz) (photons e) (cells e (zone_of z)) ds1) as [[ps c'] rest| |]; cbn [bind].
  - set (e1 := {| photons := ps; cells := fun y => if zone_eqb y (zone_of z) then c' else cells e y; made := (made e + 2 * nz)%Z |}).
    specialize (IH e1 rest). destruct (emit_sites false r zs e1 rest) as [e2 rest2| |]; intros h; rewrite K; cbn [bind]; apply IH.
  - intros h. rewrite K. reflexivity.
  - intros h. rewrite K. reflexivity.
Qed.
Lemma kill_all r zs e ds e' rest : emit_sites true r zs e ds = Got e' rest -> photons e' = photons e /\
  exists e2, emit_sites false r zs e ds = Got e2 rest /\ cells e2 = cells e' /\ made e2 = made e'.
Proof.
  intros H. pose proof (killed r zs e ds) as K. assert (S : {| photons := photons e; cells := cells e; made := made e |} = e) by (destruct e; reflexivity).
  destruct (emit_sites false r zs e ds) as [e2 rest2| |]; specialize (K (photons e)); rewrite S, H in K; try discriminate.
  injection K as -> ->. split; [reflexivity|]. exists e2. auto.
Qed.
(** counters: cleared exactly when their factor is adjusted *)
Lemma add_steps_nth cs : forall ss i c s, nth_error cs i = Some c -> nth_error ss i = Some s -> nth_error (add_steps cs ss) i = Some (add_step c s).
Proof.
  induction cs as [|c0 cs IH]; intros [|s0 ss] [|i] c s; cbn; try discriminate.
  - intros A B. injection A as ->. injection B as ->. reflexivity.
  - apply IH.
Qed.
Lemma counters_ok p t steps u cs : dt_tune_emiss p <> 0 -> dt_tune_scatt p <> 0 -> let s' := update_resolution p t steps (u, cs) in
  forall i c s, nth_error cs i = Some c -> nth_error steps i = Some s -> exists c', nth_error (snd s') i = Some c' /\
  (t_tune_emiss (fst s') = t_tune_emiss u -> made_tune c' = (made_tune c + made_tune s)%Z /\ abs_tune c' = (abs_tune c + abs_tune s)%Z) /\
  (t_tune_emiss (fst s') <> t_tune_emiss u -> made_tune c' = 0%Z /\ abs_tune c' = 0%Z) /\
  (t_tune_scatt (fst s') = t_tune_scatt u -> scatt_tune c' = (scatt_tune c + scatt_tune s)%Z) /\ (t_tune_scatt (fst s') <> t_tune_scatt u -> scatt_tune c' = 0%Z).
Proof.
  intros De Ds s' i c s A B. pose proof (add_steps_nth cs steps i c s A B) as N. subst s'. unfold update_resolution. cbv zeta.
  destruct (Rleb (t_tune_emiss u) t); destruct (_ || _); cbn [fst snd t_tune_emiss t_tune_scatt]; repeat erewrite map_nth_error by (try eassumption; erewrite map_nth_error by eassumption; reflexivity);
    try (eexists; split; [first [eassumption|reflexivity]|]; cbn [made_tune abs_tune scatt_tune add_step]; repeat split; intros; lra || reflexivity).
Qed.
Lemma when_scatt p t steps u cs : let u' := fst (update_resolution p t steps (u, cs)) in
  (t_tune_scatt u <= t -> t_tune_scatt u' = t_tune_scatt u + dt_tune_scatt p) /\
  (t < t_tune_scatt u -> mks p = false -> t_tune_scatt u' = t_tune_scatt u /\ tune_scatt u' = tune_scatt u).
Proof.
  cbv zeta. unfold update_resolution. cbv zeta.
  destruct (Rleb (t_tune_emiss u) t); cbn [t_tune_scatt tune_scatt]; destruct (Rleb_spec (t_tune_scatt u) t) as [A|A]; cbn [orb]; split; intros H; try lra; try (cbn [fst t_tune_scatt]; reflexivity);
    intros M; rewrite M, andb_false_r; cbn [fst t_tune_scatt tune_scatt]; auto.
Qed.
(** more absorbed than made *)
Lemma emiss_negative dt n L a b : 0 < dt * n -> 0 < L -> (a < b)%Z -> emiss_correction dt n L a b = Fin (4 / 3).
Proof.
  intros D HL AB. unfold emiss_correction. cbv zeta. assert (Q : IZR (a - b) < 0) by (apply (IZR_lt _ 0); lia).
  unfold xdiv. destruct (Reqb_spec L 0); [lra|]. destruct (Reqb_spec (IZR (a - b)) 0); [lra|]. cbn [xltb]. rewrite Rltb_true; [reflexivity|].
  unfold MY_MIN, SCATT_BIAS_SAFETY. rewrite Rltb_true by lra. assert (P : 0 < 1 / 2 * dt * n / L) by (apply Rdiv_lt_0_compat; lra).
  assert (/ IZR (a - b) < 0) by (apply Rinv_lt_0_compat; lra). unfold Rdiv at 1. nra.
Qed.
