(** Proofs about the tuning of packet numbers, and witnesses for emission. *)
From Coq Require Import Reals Bool ZArith List Lra Lia.
From Verif Require Import RLib XLib IntLib GeomModel GeomSpec GeomProofs FrameProofs EmitModel EmitSpec EmitProofs.
From Verif Require BinModel.
Import ListNotations.
Open Scope R_scope.

Lemma clamp lo hi c : lo <= hi -> xltb c (Fin lo) = false \/ xltb c (Fin lo) = true -> within lo hi (xmax (xmin c (Fin hi)) (Fin lo)).
Proof.
  intros LH _. unfold within, xmax, xmin, xltb. destruct c as [v| | |].
  - destruct (Rltb_spec v hi) as [A|A].
    + destruct (Rltb_spec lo v) as [B|B]; [exists v|exists lo]; split; try reflexivity; lra.
    + destruct (Rltb_spec lo hi) as [B|B]; [exists hi|exists lo]; split; try reflexivity; lra.
  - destruct (Rltb_spec lo hi) as [B|B]; [exists hi|exists lo]; split; try reflexivity; lra.
  - exists lo. split; [reflexivity|lra].
  - destruct (Rltb_spec lo hi) as [B|B]; [exists hi|exists lo]; split; try reflexivity; lra.
Qed.
Lemma clamp' lo hi c : lo <= hi -> within lo hi (xmax (xmin c (Fin hi)) (Fin lo)).
Proof. intros LH. apply clamp; [exact LH|]. destruct (xltb c (Fin lo)); auto. Qed.
Lemma emiss_within dt n L a b : within (1 / 2) (4 / 3) (emiss_correction dt n L a b).
Proof.
  unfold emiss_correction. cbv zeta. destruct (xltb _ _); [exists (4 / 3); split; [reflexivity|lra]|]. apply clamp'. lra.
Qed.
Lemma SMALL_lt : 0 < SMALL < 1.
Proof. unfold SMALL. split; [apply Rinv_0_lt_compat, pow_lt; lra|]. rewrite <- Rinv_1. apply Rinv_lt_contravar; [|apply Rlt_pow_R1; [lra|lia]]. rewrite Rmult_1_l. apply pow_lt. lra. Qed.
Lemma scatt_within dt n L a : within (1 / 4) (5 / 4) (scatt_correction dt n L a).
Proof.
  unfold scatt_correction. cbv zeta. destruct (Rltb _ _); [exists 1; split; [reflexivity|lra]|]. apply clamp'. lra.
Qed.
Lemma scatt_idle dt n L a : (a <= 0)%Z -> scatt_correction dt n L a = Fin 1.
Proof. intros H. unfold scatt_correction. cbv zeta. rewrite Rltb_true; [reflexivity|]. apply IZR_le in H. pose proof SMALL_lt. lra. Qed.
Lemma emiss_idle dt n L a : 0 <= dt * n -> 0 < L -> emiss_correction dt n L a a = Fin (4 / 3).
Proof.
  intros H HL. unfold emiss_correction. cbv zeta. rewrite xdiv_fin by lra. rewrite Z.sub_diag.
  unfold xdiv. destruct (Reqb_spec 0 0) as [_|N]; [|lra]. unfold inf_by.
  assert (MM : MY_MIN SCATT_BIAS_SAFETY 1 = 1 / 2) by (unfold MY_MIN, SCATT_BIAS_SAFETY; rewrite Rltb_true; lra).
  assert (P : 0 <= MY_MIN SCATT_BIAS_SAFETY 1 * dt * n / L).
  { rewrite MM. apply Rmult_le_pos; [lra|]. left. apply Rinv_0_lt_compat, HL. }
  destruct (Rltb_spec 0 (MY_MIN SCATT_BIAS_SAFETY 1 * dt * n / L)) as [A|A].
  - cbn [xltb]. unfold xmin, xmax, xltb. rewrite Rltb_true; [reflexivity|lra].
  - rewrite Rltb_false by lra. cbn [xltb]. unfold xmin, xmax, xltb. rewrite Rltb_true; [reflexivity|lra].
Qed.
(** inside the limits the correction is ideal over real *)
Lemma emiss_target dt n L a b : 0 < L -> (b < a)%Z -> let ideal := dt * n / (2 * L) in
  1 / 2 <= ideal / IZR (a - b) <= 4 / 3 -> emiss_correction dt n L a b = Fin (ideal / IZR (a - b)).
Proof.
  intros HL HR. cbv zeta. intros HI. assert (RP : 0 < IZR (a - b)) by (apply IZR_lt; lia).
  unfold emiss_correction. cbv zeta. rewrite xdiv_fin by lra. rewrite xdiv_fin by lra.
  assert (MM : MY_MIN SCATT_BIAS_SAFETY 1 = 1 / 2) by (unfold MY_MIN, SCATT_BIAS_SAFETY; rewrite Rltb_true; lra).
  replace (MY_MIN SCATT_BIAS_SAFETY 1 * dt * n / L / IZR (a - b)) with (dt * n / (2 * L) / IZR (a - b)) by (rewrite MM; field; lra).
  set (v := dt * n / (2 * L) / IZR (a - b)) in *. unfold xmin, xmax, xltb. rewrite (Rltb_false v 0) by lra.
  destruct (Rltb_spec v (4 / 3)) as [A|A].
  - destruct (Rltb_spec (1 / 2) v) as [B|B]; [reflexivity|f_equal; lra].
  - rewrite Rltb_true by lra. f_equal. lra.
Qed.
Lemma scatt_target dt n L a : 0 < L -> (0 < a)%Z -> let ideal := dt * n / L in
  1 / 4 <= ideal / IZR a <= 5 / 4 -> scatt_correction dt n L a = Fin (ideal / IZR a).
Proof.
  intros HL HR. cbv zeta. intros HI. assert (RP : 1 <= IZR a) by (apply IZR_le; lia). pose proof SMALL_lt as SM.
  unfold scatt_correction, scatt_ratio. cbv zeta. rewrite (Rltb_false (IZR a) SMALL) by lra. rewrite xdiv_fin by lra. rewrite xdiv_fin by lra.
  set (v := dt * n / L / IZR a) in *. unfold xmin, xmax, xltb.
  destruct (Rltb_spec v (5 / 4)) as [A|A].
  - destruct (Rltb_spec (1 / 4) v) as [B|B]; [reflexivity|f_equal; lra].
  - rewrite Rltb_true by lra. f_equal. lra.
Qed.
Lemma reduced_few cs : Forall (fun c => (0 <= c)%Z) cs -> (fold_right Z.add 0 cs < Z.of_nat (length cs))%Z -> reduced cs = 0%Z.
Proof.
  intros P L. unfold reduced. apply Z.quot_small. split; [|exact L]. clear L. induction P; cbn [fold_right]; lia.
Qed.

(** ** Histories *)
Definition scaled_by (lo hi : R) (n : nat) (a : R) (x : X) : Prop := exists f, x = Fin (a * f) /\ lo ^ n <= f <= hi ^ n.
Lemma scaled_step lo hi n a x c : 0 < lo -> scaled_by lo hi n a x -> within lo hi c -> scaled_by lo hi (S n) a (x * c)%X.
Proof.
  intros LP (f & -> & F) (g & -> & H). exists (f * g). split; [cbn [xmul]; f_equal; ring|]. cbn [pow].
  pose proof (pow_lt lo n LP). split.
  - rewrite Rmult_comm. apply Rmult_le_compat; lra.
  - rewrite Rmult_comm. apply Rmult_le_compat; lra.
Qed.
Lemma update_one p t steps u cs a b n m :
  scaled_by (1 / 2) (4 / 3) n a (tune_emiss u) -> scaled_by (1 / 4) (5 / 4) m b (tune_scatt u) ->
  let u' := fst (update_resolution p t steps (u, cs)) in
  exists dn dm : nat, (dn <= 1)%nat /\ (dm <= 1)%nat /\
  scaled_by (1 / 2) (4 / 3) (n + dn) a (tune_emiss u') /\ scaled_by (1 / 4) (5 / 4) (m + dm) b (tune_scatt u') /\
  t_tune_emiss u' = t_tune_emiss u + INR dn * dt_tune_emiss p /\ t_tune_scatt u' = t_tune_scatt u + INR dm * dt_tune_scatt p /\
  (dn = 1%nat <-> t_tune_emiss u <= t).
Proof.
  intros HE HS. unfold update_resolution. cbv zeta.
  destruct (Rleb_spec (t_tune_emiss u) t) as [A|A]; cbn [t_tune_emiss t_tune_scatt tune_emiss tune_scatt]; destruct (_ || _); cbn [fst t_tune_emiss t_tune_scatt tune_emiss tune_scatt].
  - exists 1%nat, 1%nat. rewrite !Nat.add_1_r. cbn [INR]. split; [lia|]. split; [lia|]. split; [apply scaled_step; [lra|exact HE|apply emiss_within]|].
    split; [apply scaled_step; [lra|exact HS|apply scatt_within]|]. split; [ring|]. split; [ring|tauto].
  - exists 1%nat, 0%nat. rewrite Nat.add_1_r, Nat.add_0_r. cbn [INR]. split; [lia|]. split; [lia|]. split; [apply scaled_step; [lra|exact HE|apply emiss_within]|].
    split; [exact HS|]. split; [ring|]. split; [ring|tauto].
  - exists 0%nat, 1%nat. rewrite Nat.add_1_r, Nat.add_0_r. cbn [INR]. split; [lia|]. split; [lia|]. split; [exact HE|].
    split; [apply scaled_step; [lra|exact HS|apply scatt_within]|]. split; [ring|]. split; [ring|]. split; [discriminate|lra].
  - exists 0%nat, 0%nat. rewrite !Nat.add_0_r. cbn [INR]. split; [lia|]. split; [lia|]. split; [exact HE|]. split; [exact HS|].
    split; [ring|]. split; [ring|]. split; [discriminate|lra].
Qed.
Lemma history_bounds p h : forall u cs a b n m,
  scaled_by (1 / 2) (4 / 3) n a (tune_emiss u) -> scaled_by (1 / 4) (5 / 4) m b (tune_scatt u) ->
  let u' := fst (update_history p h (u, cs)) in
  exists dn dm : nat, (dn <= length h)%nat /\ (dm <= length h)%nat /\
  scaled_by (1 / 2) (4 / 3) (n + dn) a (tune_emiss u') /\ scaled_by (1 / 4) (5 / 4) (m + dm) b (tune_scatt u') /\
  t_tune_emiss u' = t_tune_emiss u + INR dn * dt_tune_emiss p /\ t_tune_scatt u' = t_tune_scatt u + INR dm * dt_tune_scatt p.
Proof.
  induction h as [|[t steps] h IH]; intros u cs a b n m HE HS; cbn [update_history].
  - exists 0%nat, 0%nat. rewrite !Nat.add_0_r. cbn [length fst INR]. repeat (split; [first [lia|assumption|ring]|]). ring.
  - destruct (update_one p t steps u cs a b n m HE HS) as (dn & dm & A1 & A2 & A3 & A4 & A5 & A6 & _).
    destruct (update_resolution p t steps (u, cs)) as [u1 cs1] eqn:E. cbn [fst] in *.
    destruct (IH u1 cs1 a b _ _ A3 A4) as (dn' & dm' & B1 & B2 & B3 & B4 & B5 & B6). cbn [length].
    exists (dn + dn')%nat, (dm + dm')%nat. rewrite !Nat.add_assoc, !plus_INR. split; [lia|]. split; [lia|]. split; [exact B3|]. split; [exact B4|].
    split; [rewrite B5, A5; ring|rewrite B6, A6; ring].
Qed.
(** a process that keeps scattering too much *)
Definition drift_settings : tune_settings := {| dt_tune_emiss := 1; dt_tune_scatt := 1; nph_per_proc := 1; Lbox := 1; mks := true |}.
Definition busy : counters := {| made_tune := 0; abs_tune := 0; scatt_tune := 5 |}.
Definition calm : counters := {| made_tune := 0; abs_tune := 0; scatt_tune := 0 |}.
Definition start_tuning : tuning := {| tune_emiss := Fin 1; tune_scatt := Fin 1; t_tune_emiss := 1; t_tune_scatt := 1 |}.
Lemma drift_one a b : 0 < b -> exists a', update_resolution drift_settings 0 [busy] ({| tune_emiss := Fin 1; tune_scatt := a; t_tune_emiss := 1; t_tune_scatt := b |}, [calm]) =
  ({| tune_emiss := Fin 1; tune_scatt := a'; t_tune_emiss := 1; t_tune_scatt := b + 1 |}, [calm]).
Proof.
  intros Hb. unfold update_resolution. cbv zeta. cbn [t_tune_emiss add_steps]. rewrite (Rleb_false 1 0) by lra.
  cbn [t_tune_scatt tune_emiss tune_scatt t_tune_emiss mks drift_settings dt_tune_scatt nph_per_proc Lbox]. rewrite (Rleb_false b 0) by lra.
  assert (RD : reduced (map scatt_tune [add_step calm busy]) = 5%Z) by reflexivity. rewrite RD.
  assert (SR : xltb (scatt_ratio 1 1 1 5) (Fin (1 / 4)) = true).
  { unfold scatt_ratio. rewrite xdiv_fin by lra. rewrite xdiv_fin by lra. unfold xltb. apply Rltb_true. lra. }
  rewrite SR. cbn [orb andb]. eexists. reflexivity.
Qed.
Lemma drift k : forall a b, 0 < b -> exists a', update_history drift_settings (repeat (0, [busy]) k) ({| tune_emiss := Fin 1; tune_scatt := a; t_tune_emiss := 1; t_tune_scatt := b |}, [calm]) =
  ({| tune_emiss := Fin 1; tune_scatt := a'; t_tune_emiss := 1; t_tune_scatt := b + INR k |}, [calm]).
Proof.
  induction k as [|k IH]; intros a b Hb.
  - cbn [repeat update_history INR]. rewrite Rplus_0_r. eauto.
  - cbn [repeat update_history]. destruct (drift_one a b Hb) as (a1 & ->). assert (Hb1 : 0 < b + 1) by lra.
    destruct (IH a1 (b + 1) Hb1) as (a2 & ->). exists a2. rewrite S_INR. do 2 f_equal. ring.
Qed.

(** ** A zone with a shift *)
Section Shift.
Variable b : R.
(** flat space seen from coordinates moving with velocity -b along axis 1 *)
Definition moving : mat := fun i j => match i, j with
  | 0%nat, 0%nat => -1 + b * b | 0%nat, 1%nat | 1%nat, 0%nat => b
  | 1%nat, 1%nat | 2%nat, 2%nat | 3%nat, 3%nat => 1 | _, _ => 0 end.
Definition shift : vec := fun i => match i with 1%nat => b | _ => 0 end.
Definition still : vec := fun i => match i with 0%nat => 1 | 1%nat => - b | _ => 0 end.
Definition none : vec := fun _ => 0.
Lemma moving_st : spacetime moving 1 shift.
Proof.
  split; [|split; [lra|split; [|split]]].
  - unfold symmetric. apply two_cases; reflexivity.
  - intros p Hp. unfold spatial, moving. assert (Sq : forall v, v <> 0 -> 0 < v * v) by (intros v Hv; destruct (Rtotal_order v 0) as [|[|]]; [nra|contradiction|nra]).
    pose proof (Rle_0_sqr (p 1%nat)) as A. pose proof (Rle_0_sqr (p 2%nat)) as B. pose proof (Rle_0_sqr (p 3%nat)) as C. unfold Rsqr in *.
    destruct Hp as [H|[H|H]]; apply Sq in H; nra.
  - unfold spatial, moving, shift. ring.
  - intros [|[|[|[|i]]]] Hi; try lia; unfold moving, shift; ring.
Qed.
Lemma still_unit : inner moving still still = -1.
Proof. unfold inner, sigma4, moving, still. ring. Qed.
Lemma moving_tetrad : exists Econ Ecov, make_tetrad moving still none = Some (Econ, Ecov) /\ same4 (Econ 1%nat) (unit_vec 1).
Proof.
  assert (SV : start_vectors moving still none = (still, unit_vec 1, unit_vec 2, unit_vec 3)).
  { unfold start_vectors. rewrite (Rltb_false (/ 10 ^ 30)); [reflexivity|]. unfold dot2, sum4, none. rewrite !Rmult_0_l, !Rplus_0_l. left. apply Rinv_0_lt_compat, pow_lt. lra. }
  destruct (tetrad_defined moving 1 shift moving_st still none) as ([Econ Ecov] & MT).
  { rewrite still_unit. lra. }
  { rewrite SV. intros x y v w0 H. pose proof (H 0%nat ltac:(lia)) as H0. pose proof (H 1%nat ltac:(lia)) as H1. pose proof (H 2%nat ltac:(lia)) as H2. pose proof (H 3%nat ltac:(lia)) as H3.
    unfold still, unit_vec in H0, H1, H2, H3. cbn [Nat.eqb] in *. assert (x = 0) by lra. subst x. lra. }
  exists Econ, Ecov. split; [exact MT|]. unfold make_tetrad in MT. rewrite SV in MT. unfold gram_schmidt in MT.
  destruct (normalize moving still) as [f0|] eqn:N0; [|discriminate].
  destruct (project_out moving (unit_vec 1) f0) as [a1|] eqn:P1; [|discriminate].
  destruct (normalize moving a1) as [f1|] eqn:N1; [|discriminate].
  destruct (project_out moving (unit_vec 2) f0) as [a2|] eqn:P2; [|discriminate].
  destruct (project_out moving a2 f1) as [b2|] eqn:P2'; [|discriminate].
  destruct (normalize moving b2) as [f2|] eqn:N2; [|discriminate].
  destruct (project_out moving (unit_vec 3) f0) as [a3|] eqn:P3; [|discriminate].
  destruct (project_out moving a3 f1) as [b3|] eqn:P3'; [|discriminate].
  destruct (project_out moving b3 f2) as [c3|] eqn:P3''; [|discriminate].
  destruct (normalize moving c3) as [f3|] eqn:N3; [|discriminate].
  injection MT as <- _. destruct (normalize_some _ _ _ N0) as (n & Hn & L & Q).
  rewrite still_unit in Q. replace (Rabs (-1)) with 1 in Q by (rewrite Rabs_left; lra). assert (n = 1) by nra. subst n.
  assert (A1 : forall mu, (mu < 4)%nat -> a1 mu = unit_vec 1 mu).
  { unfold project_out in P1. destruct (Reqb _ 0); [discriminate|]. injection P1 as <-. intros mu Hmu.
    assert (DZ : dot2 moving (unit_vec 1) f0 = 0). { unfold dot2, sum4, unit_vec, moving. rewrite !L. unfold still. cbn [Nat.eqb]. field. }
    rewrite DZ. unfold Rdiv. ring. }
  destruct (normalize_some _ _ _ N1) as (n & Hn1 & L1 & Q1).
  assert (I1 : inner moving a1 a1 = 1). { unfold inner, sigma4. rewrite !A1 by lia. unfold unit_vec, moving. cbn [Nat.eqb]. ring. }
  rewrite I1, Rabs_R1 in Q1. assert (n = 1) by nra. subst n. intros mu Hmu. rewrite L1, A1 by exact Hmu. field.
Qed.
(** one emission with every draw zero *)
Definition flat_run : run := {| grid := {| BinModel.start := fun _ => 0; BinModel.dx := fun _ => 1; BinModel.gs := fun _ => 0%Z |};
  tglob := 0; targ := 0; dt := 1; nstep := 0; spec := {| numin := 1; numax := 2; bins := 1 |};
  kphys_to_num := 1; MP := 1; M_unit := 1; DTd := 1; track := 0; axisym_mks := false; neutrinos := true; kdotk_tol := 1 |}.
Definition moving_site : site := {| zi := 3; zj := 3; zk := 3; stype := 0; Gcov := moving; Ucon := still; Bcon := none;
  ucon0 := 1; gdet := 1; dndlnu := [Fin 1; Fin 1]; jnu := fun _ _ => 1; wgt := fun nu => 1 / nu |}.
Definition empty_cell : cell := {| radG := fun _ => 0; radG_ye := 0; radG_ye_em := 0; Jrad0 := 0; Nem := 0; Nem_phys := fun _ => 0 |}.
Definition zeros (n : nat) : list R := repeat 0 n.
Lemma zeros_unit n : unit_draws (zeros n).
Proof. apply Forall_forall. intros x Hx. apply repeat_spec in Hx. subst x. lra. Qed.
Lemma freq_zero ds : freq_loop (spec flat_run) [Fin 1; Fin 1] (0 :: 0 :: ds) = Got 1 ds.
Proof.
  assert (P1 : 0 < numin (spec flat_run)) by (cbn [flat_run spec numin]; lra). assert (P2 : numin (spec flat_run) < numax (spec flat_run)) by (cbn [flat_run spec numin numax]; lra).
  assert (P3 : (0 < bins (spec flat_run))%nat) by (cbn [flat_run spec bins]; lia).
  destruct (freq_accept (spec flat_run) P1 P2 P3 ltac:(cbn [flat_run spec bins]; lia) [1; 1] 0 0 ds eq_refl ltac:(lra)) as (k & x & y & p & Hk & Nx & Ny & Bt & A & _).
  cbn [flat_run spec bins] in Hk. assert (k = 0%nat) by lia. subst k. cbn [nth_error] in Nx, Ny. assert (I : forall u v : R, Some u = Some v -> u = v) by congruence. apply I in Nx. apply I in Ny. subst x y.
  unfold between in Bt. rewrite Rmin_left, Rmax_left in Bt by lra. cbn [map] in A. rewrite A by lra. f_equal.
  unfold lnu_min. cbn [flat_run spec numin]. rewrite ln_1. rewrite <- exp_0. f_equal. ring.
Qed.
Lemma sample_zero Econ Ecov c : make_tetrad moving still none = Some (Econ, Ecov) -> same4 (Econ 1%nat) (unit_vec 1) ->
  let E := 1 * HPL / (ME * CL * CL) in
  exists p q c', sample_photon flat_run moving_site Econ Ecov c (zeros 7) = Got (p, q, c') [] /\
  Kcon p 1%nat = E * (- b - 1) /\ Kcon p 0%nat = E /\ Kcov p 0%nat = E * (-1 - b) /\ Kcov q 0%nat = E * (-1 + b) /\
  w p = (if Rltb 0 (E * (-1 - b)) then 0 else 1 / 2) /\ w q = (if Rltb 0 (E * (-1 + b)) then 0 else 1 / 2) /\ Kcon q 0%nat = E /\ Kcon q 1%nat = E * (- b + 1).
Proof.
  intros MT E1. cbv zeta. set (E := 1 * HPL / (ME * CL * CL)).
  pose proof (tetrad_time moving still none Econ Ecov still_unit MT) as T0. pose proof (tetrad_cov moving still none Econ Ecov MT) as EC.
  assert (C0 : Ecov 0%nat 0%nat = 1). { rewrite EC. unfold eta, lower, sum4. cbn [Nat.eqb]. rewrite !T0 by lia. unfold moving, still. ring. }
  assert (C1 : Ecov 1%nat 0%nat = b). { rewrite EC. unfold eta, lower, sum4. cbn [Nat.eqb]. rewrite !E1 by lia. unfold moving, unit_vec. cbn [Nat.eqb]. ring. }
  assert (SQ : sqrt (1 - -1 * -1) = 0) by (replace (1 - -1 * -1) with 0 by ring; apply sqrt_0).
  assert (CT : 2 * 0 - 1 = -1) by ring.
  unfold sample_photon, zeros. cbn [repeat dndlnu moving_site spec]. change {| numin := 1; numax := 2; bins := 1 |} with (spec flat_run). rewrite freq_zero. cbn [bind angle_loop jnu moving_site].
  assert (XL : xltb (Fin 1 / Fin 1)%X (Fin 0) = false) by (rewrite xdiv_fin by lra; unfold xltb; apply Rltb_false; lra).
  rewrite XL. cbn [bind draw one_packet]. rewrite CT, SQ.
  unfold one_packet at 1. unfold make_packet at 1. cbn [axisym_mks flat_run bind draw]. unfold one_packet. unfold make_packet. cbn [axisym_mks flat_run bind draw].
  eexists. eexists. eexists. split; [reflexivity|]. fold E. unfold set_tracked. cbn [Kcon Kcov w].
  assert (Z1 : tetrad_to_coord Ecov (fun a => match a with 0%nat => - E | 1%nat => E * -1 | 2%nat => E * cos (2 * PI * 0) * 0 | _ => E * sin (2 * PI * 0) * 0 end) 0%nat = E * (-1 - b)).
  { unfold tetrad_to_coord, sum4. rewrite C0, C1. ring. }
  assert (Z2 : tetrad_to_coord Ecov (fun a => match a with 0%nat => - E | 1%nat => E * - -1 | 2%nat => E * - cos (2 * PI * 0) * 0 | _ => E * - sin (2 * PI * 0) * 0 end) 0%nat = E * (-1 + b)).
  { unfold tetrad_to_coord, sum4. rewrite C0, C1. ring. }
  assert (WG : wgt moving_site 1 = 1) by (cbn [wgt moving_site]; field).
  split; [unfold tetrad_to_coord, sum4; rewrite !T0, !E1 by lia; unfold still, unit_vec; cbn [Nat.eqb]; ring|].
  split; [unfold tetrad_to_coord, sum4; rewrite !T0, !E1 by lia; unfold still, unit_vec; cbn [Nat.eqb]; ring|].
  split; [exact Z1|]. split; [exact Z2|]. split; [rewrite Z1, WG, Rmult_1_r; reflexivity|]. split; [rewrite Z2, WG, Rmult_1_r; reflexivity|].
  split; unfold tetrad_to_coord, sum4; rewrite !T0, !E1 by lia; unfold still, unit_vec; cbn [Nat.eqb]; ring.
Qed.
End Shift.
Lemma energy_pos : 0 < 1 * HPL / (ME * CL * CL).
Proof.
  pose proof HPL_pos. assert (0 < ME) by (unfold ME; apply Rdiv_lt_0_compat; [lra|apply pow_lt; lra]). assert (0 < CL) by (unfold CL; lra).
  apply Rdiv_lt_0_compat; [lra|]. apply Rmult_lt_0_compat; [apply Rmult_lt_0_compat|]; assumption.
Qed.
Lemma ergosphere : exists Econ Ecov p q c', make_tetrad (moving 2) (still 2) none = Some (Econ, Ecov) /\
  sample_photon flat_run (moving_site 2) Econ Ecov empty_cell (zeros 7) = Got (p, q, c') [] /\
  w p = 1 / 2 /\ w q = 0 /\ ~ no_net (still 2) (Kcon p) (Kcon q) (w p) (w q).
Proof.
  destruct (moving_tetrad 2) as (Econ & Ecov & MT & E1). destruct (sample_zero 2 Econ Ecov empty_cell MT E1) as (p & q & c' & S & K1 & K0 & _ & _ & W1 & W2 & _).
  pose proof energy_pos as EP. set (E := 1 * HPL / (ME * CL * CL)) in *. rewrite Rltb_false in W1 by nra. rewrite Rltb_true in W2 by nra.
  exists Econ, Ecov, p, q, c'. split; [exact MT|]. split; [exact S|]. split; [exact W1|]. split; [exact W2|].
  intros (e & N). pose proof (N 0%nat ltac:(lia)) as N0. pose proof (N 1%nat ltac:(lia)) as N1. rewrite W1, W2, K0 in N0. rewrite W1, W2, K1 in N1. unfold still in N0, N1. nra.
Qed.

(** ** Statements collected for the properties *)
Lemma pair_all r z alpha beta Econ Ecov c ds p q c' rest :
  spacetime (Gcov z) alpha beta -> inner (Gcov z) (Ucon z) (Ucon z) = -1 -> make_tetrad (Gcov z) (Ucon z) (Bcon z) = Some (Econ, Ecov) ->
  unit_draws ds -> 0 < numin (spec r) < numax (spec r) -> sample_photon r z Econ Ecov c ds = Got (p, q, c') rest ->
  exists nu, numin (spec r) <= nu < numax (spec r) /\ let E := nu * HPL / (ME * CL * CL) in
  cancel (Ucon z) (Kcon p) (Kcon q) E /\
  (forall x, x = p \/ x = q -> inner (Gcov z) (Kcon x) (Kcon x) = 0 /\ - inner (Gcov z) (Kcon x) (Ucon z) = E /\
     (forall mu, (mu < 4)%nat -> Kcov x mu = sigma4 (fun k => Gcov z mu k * Kcon x k)) /\
     w x = (if Rltb 0 (Kcov x 0%nat) then 0 else wgt z nu / 2) /\ type x = stype z) /\
  (Gcov z 0%nat 0%nat < 0 -> 0 < Ucon z 0%nat -> w p = wgt z nu / 2 /\ w q = wgt z nu / 2 /\ no_net (Ucon z) (Kcon p) (Kcon q) (w p) (w q)).
Proof.
  intros ST NU MT U R S. apply sample_facts in S. destruct S as (nu & n1 & n2 & n3 & Fp & Fq & _ & H). destruct (H U) as (N & _ & Rg). specialize (Rg R).
  exists nu. split; [exact Rg|]. cbv zeta in *. set (E := nu * HPL / (ME * CL * CL)) in *.
  assert (EP : 0 <= E).
  { left. unfold E. pose proof energy_pos as P. replace (nu * HPL / (ME * CL * CL)) with (nu * (1 * HPL / (ME * CL * CL))) by (unfold Rdiv; ring). apply Rmult_lt_0_compat; lra. }
  assert (N' : - n1 * - n1 + - n2 * - n2 + - n3 * - n3 = 1) by lra.
  pose proof (facts_cancel _ _ _ _ _ NU MT _ _ _ _ _ _ _ _ _ Fp Fq) as C. split; [exact C|]. split.
  - assert (G : forall a1 a2 a3 x, packet_facts r z Econ Ecov E (wgt z nu) a1 a2 a3 x -> a1 * a1 + a2 * a2 + a3 * a3 = 1 -> inner (Gcov z) (Kcon x) (Kcon x) = 0 /\ - inner (Gcov z) (Kcon x) (Ucon z) = E /\
     (forall mu, (mu < 4)%nat -> Kcov x mu = sigma4 (fun k => Gcov z mu k * Kcon x k)) /\
     w x = (if Rltb 0 (Kcov x 0%nat) then 0 else wgt z nu / 2) /\ type x = stype z).
    { intros a1 a2 a3 x F Na. split; [eapply facts_null; eassumption|]. split; [eapply facts_energy; eassumption|]. split; [eapply facts_lower; eassumption|].
      split; [|apply (pf_type _ _ _ _ _ _ _ _ _ _ F)]. rewrite (pf_w _ _ _ _ _ _ _ _ _ _ F). destruct (Rltb _ _); [reflexivity|field]. }
    intros x [-> | ->]; [exact (G _ _ _ _ Fp N)|exact (G _ _ _ _ Fq N')].
  - intros G0 U0. pose proof (facts_future _ _ _ _ _ _ _ ST NU MT _ _ _ _ _ _ _ _ Fp N EP G0 U0) as W1. pose proof (facts_future _ _ _ _ _ _ _ ST NU MT _ _ _ _ _ _ _ _ Fq N' EP G0 U0) as W2.
    split; [rewrite W1; field|]. split; [rewrite W2; field|]. exists (wgt z nu * E). intros mu Hmu. rewrite W1, W2. rewrite <- Rmult_plus_distr_l. rewrite (C mu Hmu). field.
Qed.
Lemma birth r z Econ Ecov c ds p q c' rest : sample_photon r z Econ Ecov c ds = Got (p, q, c') rest ->
  forall x, x = p \/ x = q -> X2 x 0%nat = tglob r /\ t0 x = targ r + dt r / 2 /\
  forall mu, (1 <= mu < 4)%nat -> axisym_mks r = false \/ mu <> 3%nat -> X2 x mu = BinModel.coord (grid r) BinModel.CENT (zone_index z) mu.
Proof.
  intros S x Hx. apply sample_facts in S. destruct S as (nu & n1 & n2 & n3 & Fp & Fq & _).
  destruct Hx as [-> | ->]; [destruct Fp as [? ? ? ? ? A B C ?]|destruct Fq as [? ? ? ? ? A B C ?]]; auto.
Qed.
Lemma sampling s Jv wg : 0 < numin s < numax s -> (0 < bins s)%nat -> (Z.of_nat (bins s) < 2147483648)%Z ->
  (forall n, (n <= bins s)%nat -> 0 <= Jv (nusamp s n)) -> (forall n, (n <= bins s)%nat -> 0 < wg (nusamp s n)) ->
  (exists n, (n <= bins s)%nat /\ 0 < Jv (nusamp s n)) ->
  let h n := Jv (nusamp s n) / (wg (nusamp s n) * HPL + TINY) in
  exists m, (exists n, (n <= bins s)%nat /\ m = h n) /\ (forall n, (n <= bins s)%nat -> 0 <= h n <= m) /\ 0 < m /\
  forall r1 r2 ds, 0 <= r1 < 1 -> exists k p, (k < bins s)%nat /\ between (h k / m) (h (S k) / m) p /\ 0 <= p <= 1 /\
  (r2 <= p -> freq_loop s (get_dndlnu s Jv wg) (r1 :: r2 :: ds) = Got (exp (r1 * (lnu_max s - lnu_min s) + lnu_min s)) ds) /\
  (p < r2 -> freq_loop s (get_dndlnu s Jv wg) (r1 :: r2 :: ds) = freq_loop s (get_dndlnu s Jv wg) ds).
Proof.
  intros (Lo & Hi) B0 B1 HJ HW HX. cbv zeta. destruct (table_spec s B0 Jv wg HJ HW HX) as (l & m & -> & Im & Mp & Ll & Rg & Nth).
  exists m. split.
  { apply In_nth_error in Im. destruct Im as (n & Hn). assert (L : (n < length l)%nat) by (apply nth_error_Some; congruence). exists n. split; [lia|]. rewrite Nth in Hn by lia. congruence. }
  assert (HB : forall n, (n <= bins s)%nat -> 0 <= Jv (nusamp s n) / (wg (nusamp s n) * HPL + TINY) <= m).
  { intros n Hn. apply Rg. eapply nth_error_In. apply Nth, Hn. }
  split; [exact HB|]. split; [exact Mp|]. intros r1 r2 ds Hr.
  assert (L' : length (map (fun x => x / m) l) = S (bins s)) by (rewrite map_length; exact Ll).
  destruct (freq_accept s Lo Hi B0 B1 (map (fun x => x / m) l) r1 r2 ds L' Hr) as (k & a & b & p & Hk & Na & Nb & Bt & A & B).
  rewrite map_map in A, B. rewrite nth_error_map, Nth in Na by lia. rewrite nth_error_map, Nth in Nb by lia. cbn [option_map] in Na, Nb.
  assert (I : forall u v : R, Some u = Some v -> v = u) by congruence. apply I in Na. apply I in Nb. subst a b.
  exists k, p. split; [exact Hk|]. split; [exact Bt|]. split; [|split; assumption].
  pose proof (HB k ltac:(lia)) as P1. pose proof (HB (S k) ltac:(lia)) as P2.
  assert (Q : forall v, 0 <= v <= m -> 0 <= v / m <= 1). { intros v Hv. split; [apply Rmult_le_pos; [lra|left; apply Rinv_0_lt_compat, Mp]|]. apply (Rmult_le_reg_r m); [exact Mp|]. unfold Rdiv. rewrite Rmult_assoc, Rinv_l by lra. lra. }
  apply Q in P1. apply Q in P2. unfold between, Rmin, Rmax in Bt. destruct (Rle_dec _ _); lra.
Qed.
Lemma dark_table s wg : get_dndlnu s (fun _ => 0) wg = repeat NaN (S (bins s)).
Proof.
  unfold get_dndlnu, raw_dndlnu. assert (RM : forall l : list nat, map (fun n => 0 / (wg (nusamp s n) * HPL + TINY)) l = repeat 0 (length l)).
  { intros l. induction l as [|a l IH]; [reflexivity|]. cbn [map length repeat]. rewrite IH. f_equal. unfold Rdiv. ring. }
  rewrite RM, seq_length. assert (MX : running_max (repeat 0 (S (bins s))) = 0).
  { unfold running_max. cbn [repeat fold_left]. rewrite Rltb_true by (pose proof (pow_lt 10 100 ltac:(lra)); lra). induction (bins s) as [|n IH]; [reflexivity|]. cbn [repeat fold_left]. rewrite Rltb_false by lra. exact IH. }
  rewrite MX. generalize (S (bins s)). intros n. induction n as [|n IH]; [reflexivity|]. cbn [repeat map]. rewrite IH. f_equal.
  unfold xdiv. destruct (Reqb_spec 0 0) as [_|N]; [|lra]. unfold inf_by. rewrite !Rltb_false by lra. reflexivity.
Qed.
Lemma dark s wg r1 r2 ds : 0 < numin s < numax s -> (0 < bins s)%nat -> (Z.of_nat (bins s) < 2147483648)%Z -> 0 <= r1 < 1 ->
  freq_loop s (get_dndlnu s (fun _ => 0) wg) (r1 :: r2 :: ds) = Got (exp (r1 * (lnu_max s - lnu_min s) + lnu_min s)) ds.
Proof.
  intros (Lo & Hi) B0 B1 Hr. rewrite dark_table. destruct (split_draw s B0 r1 Hr) as (k & f & Hk & Hf & E).
  destruct (interp_cell s Lo Hi B0 B1 (repeat NaN (S (bins s))) (exp (r1 * (lnu_max s - lnu_min s) + lnu_min s)) k f) as (a & b & Na & Nb & I); auto.
  - apply repeat_length.
  - rewrite ln_exp. exact E.
  - apply nth_error_In, repeat_spec in Na. subst a. cbn [freq_loop]. rewrite I. reflexivity.
Qed.
