From Coq Require Import Reals ZArith List Bool Lra Lia.
From Verif Require Import RLib XLib EmitModel TunModel.
Import ListNotations.
Open Scope R_scope.

Lemma max_ge_r a b : b <= MY_MAX a b.
Proof. unfold MY_MAX. destruct (Rltb_spec b a); lra. Qed.
Lemma not_yet p t steps u cs : mks p = false -> t < t_tune_emiss u -> t < t_tune_scatt u -> exists cs', update_resolution p t steps (u, cs) = (u, cs').
Proof.
  intros M A B. unfold update_resolution. cbv zeta. destruct (Rleb_spec (t_tune_emiss u) t); [lra|].
  destruct (Rleb_spec (t_tune_scatt u) t); [lra|]. rewrite M, andb_false_r. cbn [orb]. eexists. reflexivity.
Qed.
Lemma not_yet_all p h : mks p = false -> forall u cs, (forall t s, In (t, s) h -> t < t_tune_emiss u /\ t < t_tune_scatt u) ->
  fst (update_history p h (u, cs)) = u.
Proof.
  intros M. induction h as [|[t s] h IH]; intros u cs H; [reflexivity|]. cbn [update_history].
  destruct (H t s (or_introl eq_refl)) as [A B]. destruct (not_yet p t s u cs M A B) as (cs' & ->). apply IH. intros t' s' G. apply (H t' s'). right. exact G.
Qed.

Lemma first_given q t0 dt : electrons q && (from_problem q && Rltb (fel0 q) (1 / 10)) = false ->
  (0 < t0 -> first_time q t0 dt = t0) /\ (t0 <= 0 -> first_time q t0 dt = 2 * dt).
Proof. intros E. unfold first_time. rewrite E. destruct (Rleb_spec t0 0); split; intros; lra. Qed.

Lemma never q procs h : is_mks q = false -> electrons q && (from_problem q && Rltb (fel0 q) (1 / 10)) = false ->
  par_t0_emiss q <= 0 -> par_t0_scatt q <= 0 -> (forall t s, In (t, s) h -> t < 2 * tf q) ->
  tune_emiss (fst (update_history (settings q) h (init_resolution q procs))) = Fin (par_tune_emiss q) /\
  tune_scatt (fst (update_history (settings q) h (init_resolution q procs))) = Fin (par_tune_scatt q).
Proof.
  intros M E A B H. unfold init_resolution. rewrite not_yet_all.
  - cbn [fst tune_emiss tune_scatt]. rewrite M. split; reflexivity.
  - exact M.
  - intros t s G. cbn [t_tune_emiss t_tune_scatt]. specialize (H t s G).
    rewrite (proj2 (first_given q _ _ E) A), (proj2 (first_given q _ _ E) B). cbn [settings dt_tune_emiss dt_tune_scatt]. rewrite M.
    pose proof (max_ge_r (longest q) (tf q)). split; lra.
Qed.

Lemma corr_exact dt n L k : 0 < L -> (0 < k)%Z -> (dt * n) / (2 * L) = IZR k ->
  emiss_correction dt n L k 0 = Fin 1 /\ emiss_correction dt n L (2 * k) 0 = Fin (1 / 2).
Proof.
  intros HL HK E. assert (K : 0 < IZR k) by (apply (IZR_lt 0); exact HK).
  assert (S : MY_MIN SCATT_BIAS_SAFETY 1 = 1 / 2) by (unfold MY_MIN, SCATT_BIAS_SAFETY; destruct (Rltb_spec (1 / 2) 1); lra).
  assert (I : 1 / 2 * dt * n / L = IZR k) by (rewrite <- E; field; lra).
  unfold emiss_correction. cbv zeta. rewrite S, !Z.sub_0_r, mult_IZR. rewrite (xdiv_fin _ L) by lra. rewrite I.
  rewrite (xdiv_fin (IZR k) (IZR k)) by lra. rewrite (xdiv_fin (IZR k) (2 * IZR k)) by lra.
  replace (IZR k / IZR k) with 1 by (field; lra). replace (IZR k / (2 * IZR k)) with (1 / 2) by (field; lra).
  unfold xmin, xmax. cbn [xltb].
  rewrite (Rltb_false 1 0) by lra. rewrite (Rltb_true 1 (4 / 3)) by lra. cbn [xltb]. rewrite (Rltb_true (1 / 2) 1) by lra.
  rewrite (Rltb_false (1 / 2) 0) by lra. rewrite (Rltb_true (1 / 2) (4 / 3)) by lra. cbn [xltb]. rewrite (Rltb_false (1 / 2) (1 / 2)) by lra. split; reflexivity.
Qed.

(** the first adjustment, when it is due at two intervals and packets are made at the rate wanted *)
Lemma first_half p u k : 0 < dt_tune_emiss p -> 0 < Lbox p -> (0 < k)%Z -> (dt_tune_emiss p * nph_per_proc p) / (2 * Lbox p) = IZR k ->
  t_tune_emiss u = 2 * dt_tune_emiss p ->
  let mk := {| made_tune := k; abs_tune := 0; scatt_tune := 0 |} in
  let z := {| made_tune := 0; abs_tune := 0; scatt_tune := 0 |} in
  tune_emiss (fst (update_history p [(dt_tune_emiss p, [mk]); (2 * dt_tune_emiss p, [mk])] (u, [z]))) = (tune_emiss u * Fin (1 / 2))%X /\
  tune_emiss (fst (update_history p [(dt_tune_emiss p, [mk]); (2 * dt_tune_emiss p, [mk]); (3 * dt_tune_emiss p, [mk])] (u, [z])))
  = (tune_emiss u * Fin (1 / 2) * Fin 1)%X.
Proof.
  intros HD HL HK E T mk z.
  destruct (corr_exact _ _ _ k HL HK E) as [C1 C2].
  assert (R1 : forall x, reduced [x] = x) by (intros x; unfold reduced; cbn [fold_right length]; rewrite Z.add_0_r; change (Z.of_nat 1) with 1%Z; apply Z.quot_1_r).
  assert (S1 : exists v s, update_resolution p (dt_tune_emiss p) [mk] (u, [z]) = (v, [{| made_tune := k; abs_tune := 0; scatt_tune := s |}])
               /\ tune_emiss v = tune_emiss u /\ t_tune_emiss v = t_tune_emiss u).
  { unfold update_resolution. cbv zeta. rewrite T. destruct (Rleb_spec (2 * dt_tune_emiss p) (dt_tune_emiss p)); [lra|].
    cbn [add_steps map]. destruct (_ || _); cbn [map]; do 2 eexists; (split; [reflexivity|split; [reflexivity|cbn [t_tune_emiss]; first [exact T|symmetry; exact T|reflexivity]]]). }
  destruct S1 as (v & s & S1 & V1 & V2).
  assert (S2 : exists w s', update_resolution p (2 * dt_tune_emiss p) [mk] (v, [{| made_tune := k; abs_tune := 0; scatt_tune := s |}])
               = (w, [{| made_tune := 0; abs_tune := 0; scatt_tune := s' |}])
               /\ tune_emiss w = (tune_emiss u * Fin (1 / 2))%X /\ t_tune_emiss w = 3 * dt_tune_emiss p).
  { unfold update_resolution. cbv zeta. rewrite V2, T. destruct (Rleb_spec (2 * dt_tune_emiss p) (2 * dt_tune_emiss p)); [|lra].
    cbn [add_steps map]. unfold add_step. cbn [made_tune abs_tune scatt_tune mk]. rewrite !R1.
    replace (k + k)%Z with (2 * k)%Z by lia. replace (0 + 0)%Z with 0%Z by reflexivity. rewrite C2, V1.
    destruct (_ || _); cbn [map made_tune abs_tune scatt_tune fst]; do 2 eexists; (split; [reflexivity|]); cbn [tune_emiss t_tune_emiss]; (split; [reflexivity|ring]). }
  destruct S2 as (w & s' & S2 & W1 & W2).
  cbn [update_history]. rewrite S1, S2. split; [exact W1|].
  unfold update_resolution. cbv zeta. rewrite W2. destruct (Rleb_spec (3 * dt_tune_emiss p) (3 * dt_tune_emiss p)); [|lra].
  cbn [add_steps map]. unfold add_step. cbn [made_tune abs_tune scatt_tune mk]. rewrite !R1.
  change (0 + k)%Z with k. change (0 + 0)%Z with 0%Z. rewrite C1, W1.
  destruct (_ || _); cbn [fst tune_emiss]; reflexivity.
Qed.

Lemma reread_same u c cs : Forall (fun d => d = c) cs -> reread (u, cs) = (u, cs).
Proof.
  intros H. unfold reread. cbn [fst snd]. f_equal. destruct H as [|x l H F]; [reflexivity|]. cbn [hd map]. f_equal. subst x.
  induction F; [reflexivity|]. cbn [map]. f_equal; [symmetry; assumption|exact IHF].
Qed.

Lemma scatt_start q procs : is_mks q = true -> 0 < Rout_rad q -> 0 < L_unit q -> 0 < Ne_unit q -> 0 < types q * scatt_types q ->
  exists x, tune_scatt (fst (init_resolution q procs)) = Fin x /\
  let depth := x * Rout_rad q * L_unit q * Ne_unit q in
  (nu q = false -> 10643933968 * depth = 10 ^ 30) /\ (nu q = true -> 17611737037 * (types q * scatt_types q) * depth = 10 ^ 53).
Proof.
  intros M R0 L0 N0 T0. unfold init_resolution. cbn [fst tune_scatt]. rewrite M. unfold cross_section.
  set (R_ := Rout_rad q) in *. set (L_ := L_unit q) in *. set (N_ := Ne_unit q) in *. set (T_ := types q * scatt_types q) in *.
  assert (RL : 0 < R_ * L_) by (apply Rmult_lt_0_compat; assumption).
  assert (C : 0 < (if nu q then T_ * NUSIGMA0 else 16 * 10 ^ 2 * THOMSON)).
  { assert (0 < NUSIGMA0) by (unfold NUSIGMA0; lra). assert (0 < THOMSON) by (unfold THOMSON; lra).
    destruct (nu q); [apply Rmult_lt_0_compat; assumption|lra]. }
  assert (D : 0 < R_ * L_ * (if nu q then T_ * NUSIGMA0 else 16 * 10 ^ 2 * THOMSON) * N_) by (repeat apply Rmult_lt_0_compat; assumption).
  rewrite xdiv_fin by lra. eexists. split; [reflexivity|]. split; intros E; rewrite E in *.
  - unfold THOMSON. field. lra.
  - unfold NUSIGMA0. field. lra.
Qed.
