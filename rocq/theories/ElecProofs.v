From Coq Require Import Reals Lra Bool.
From Verif Require Import RLib XLib ElecModel ElecSpec.
Open Scope R_scope.

Lemma rp x y : 0 < Rpower x y.
Proof. apply exp_pos. Qed.
Lemma rp_opp x y : Rpower x y * Rpower x (- y) = 1.
Proof. rewrite <- Rpower_plus. replace (y + - y) with 0 by ring. unfold Rpower. rewrite Rmult_0_l. apply exp_0. Qed.
Lemma rp_sub x a b : Rpower x (a - b) * Rpower x b = Rpower x a.
Proof. rewrite <- Rpower_plus. f_equal. ring. Qed.
Lemma div_pos a b : 0 < a -> 0 < b -> 0 < a / b.
Proof. intros. apply Rdiv_lt_0_compat; assumption. Qed.

Section L.
Variables gam game gamp tptemin tptemax : R.
Hypotheses (G : 1 < gam) (GE : 1 < game).
Let c := (gam - 1) / (game - 1).
Lemma c_pos : 0 < c. Proof using G GE. apply div_pos; lra. Qed.

(** the ratio in terms of the entropies *)
Lemma ratio_is rho u K k : 0 < k -> u = energy gam rho K -> tp_te gam game rho u k = K * Rpower rho (gam - game) / k - c.
Proof using G GE.
  intros k0 ->. unfold tp_te, press, energy, c. rewrite <- (rp_sub rho gam game).
  pose proof (rp rho game). set (a := Rpower rho (gam - game)). set (b := Rpower rho game) in *. clearbody a b. field. repeat split; lra.
Qed.
Lemma limit_pos K rho t : 0 < K -> 0 <= t -> 0 < kel_limit gam game K rho t.
Proof using G GE. intros. unfold kel_limit. pose proof c_pos. unfold c in *. apply div_pos; [apply Rmult_lt_0_compat; [assumption|apply rp]|lra]. Qed.
Lemma ratio_limit rho u K t : 0 < K -> 0 <= t -> u = energy gam rho K -> tp_te gam game rho u (kel_limit gam game K rho t) = t.
Proof using G GE.
  intros K0 T E. rewrite (ratio_is rho u K) by (try assumption; apply limit_pos; assumption). pose proof c_pos. unfold kel_limit. fold c.
  pose proof (rp rho (gam - game)). set (a := Rpower rho (gam - game)) in *. clearbody a. clearbody c. field. repeat split; lra.
Qed.
Lemma ratio_anti rho u K k k' : 0 < K -> u = energy gam rho K -> 0 < k <= k' -> tp_te gam game rho u k' <= tp_te gam game rho u k.
Proof using G GE.
  intros K0 E I. rewrite !(ratio_is rho u K) by (try assumption; lra).
  assert (/ k' <= / k) by (apply Rinv_le_contravar; lra).
  assert (0 < K * Rpower rho (gam - game)) by (apply Rmult_lt_0_compat; [assumption|apply rp]).
  unfold Rdiv. apply Rplus_le_compat_r. apply Rmult_le_compat_l; lra.
Qed.
Lemma ratio_anti_inv rho u K k k' : 0 < K -> u = energy gam rho K -> 0 < k -> 0 < k' -> tp_te gam game rho u k' <= tp_te gam game rho u k -> k <= k'.
Proof using G GE.
  intros K0 E k0 k1 H. destruct (Rle_or_lt k k') as [|L]; [assumption|exfalso].
  rewrite !(ratio_is rho u K) in H by assumption.
  assert (/ k < / k') by (apply Rinv_lt_contravar; [apply Rmult_lt_0_compat; assumption|assumption]).
  assert (P : 0 < K * Rpower rho (gam - game)) by (apply Rmult_lt_0_compat; [assumption|apply rp]).
  unfold Rdiv in H. pose proof (Rmult_lt_compat_l _ _ _ P H0). lra.
Qed.
Lemma energy_K rho u : 0 < u -> forall K, u = energy gam rho K -> 0 < K.
Proof using G.
  intros U K E. unfold energy in E. assert (K * Rpower rho gam = (gam - 1) * u) by (rewrite E; field; lra).
  pose proof (rp rho gam). assert (0 < (gam - 1) * u) by (apply Rmult_lt_0_compat; lra).
  destruct (Rle_or_lt K 0) as [N|]; [|assumption]. pose proof (Rmult_le_compat_r (Rpower rho gam) K 0 ltac:(lra) N). lra.
Qed.
Lemma limits_order K rho : 0 < K -> 0 <= tptemin <= tptemax -> kel_limit gam game K rho tptemax <= kel_limit gam game K rho tptemin.
Proof using G GE.
  intros K0 T. unfold kel_limit. pose proof c_pos. unfold c in *. unfold Rdiv at 1 3. apply Rmult_le_compat_l.
  - apply Rlt_le, Rmult_lt_0_compat; [assumption|apply rp].
  - apply Rinv_le_contravar; lra.
Qed.

Section Fix.
Variables rho u K : R.
Hypotheses (U : 0 < u) (E : u = energy gam rho K) (T : 0 <= tptemin <= tptemax).
Let lo := kel_limit gam game K rho tptemax.
Let hi := kel_limit gam game K rho tptemin.
Let fx := fixup_electrons_1zone gam game tptemin tptemax K rho.
Lemma fix_fin x : exists k, fx x = Fin k /\ lo <= k <= hi.
Proof using G GE U E T.
  pose proof (energy_K rho u U K E) as K0. pose proof (limits_order K rho K0 T) as O. fold lo hi in O.
  unfold fx, fixup_electrons_1zone. fold lo hi. cbv zeta.
  destruct x as [k| | |]; cbn [xmax xmin xltb]; unfold xmax, xmin; cbn [xltb]; rcases; cbn [xltb]; rcases; eexists; (split; [reflexivity|]); lra.
Qed.
Lemma fix_bounds x : exists k, fx x = Fin k /\ 0 < k /\ tptemin <= tp_te gam game rho u k <= tptemax.
Proof using G GE U E T.
  destruct (fix_fin x) as [k [F B]]. exists k. pose proof (energy_K rho u U K E) as K0.
  assert (L : 0 < lo) by (apply limit_pos; [assumption|lra]). split; [assumption|]. split; [lra|].
  pose proof (ratio_limit rho u K tptemin K0 ltac:(lra) E) as A1. pose proof (ratio_limit rho u K tptemax K0 ltac:(lra) E) as A2. fold hi in A1. fold lo in A2.
  pose proof (ratio_anti rho u K k hi K0 E ltac:(lra)). pose proof (ratio_anti rho u K lo k K0 E ltac:(lra)). lra.
Qed.
Lemma fix_keeps k : 0 < k -> tptemin <= tp_te gam game rho u k <= tptemax -> fx (Fin k) = Fin k.
Proof using G GE U E T.
  intros k0 [A B]. pose proof (energy_K rho u U K E) as K0.
  assert (L : 0 < lo) by (apply limit_pos; [assumption|lra]). assert (H : 0 < hi) by (apply limit_pos; [assumption|lra]).
  assert (B1 : lo <= k). { apply (ratio_anti_inv rho u K); try assumption. unfold lo. rewrite ratio_limit by (try assumption; lra). assumption. }
  assert (B2 : k <= hi). { apply (ratio_anti_inv rho u K); try assumption. unfold hi. rewrite ratio_limit by (try assumption; lra). assumption. }
  unfold fx, fixup_electrons_1zone. fold lo hi. cbv zeta. unfold xmax, xmin. cbn [xltb]. rcases; cbn [xltb]; rcases; f_equal; lra.
Qed.
Lemma fix_nan : exists k, fx NaN = Fin k /\ tp_te gam game rho u k = tptemax.
Proof using G GE U E T.
  pose proof (energy_K rho u U K E) as K0. pose proof (limits_order K rho K0 T) as O. fold lo hi in O.
  exists lo. split; [|apply ratio_limit; try assumption; lra].
  unfold fx, fixup_electrons_1zone. fold lo hi. cbv zeta. unfold xmax, xmin. cbn [xltb]. rcases; cbn [xltb]; rcases; f_equal; lra.
Qed.
End Fix.

(** ** entropies written by the other routines *)
Lemma K_of rho v : v = energy gam rho ((gam - 1) * v * Rpower rho (- gam)).
Proof using G.
  unfold energy. transitivity (v * (Rpower rho gam * Rpower rho (- gam))); [rewrite rp_opp; ring|].
  pose proof (rp rho gam). set (a := Rpower rho gam). set (b := Rpower rho (- gam)). clearbody a b. field. lra.
Qed.
Lemma K_of_div rho v : v = energy gam rho ((gam - 1) * v / Rpower rho gam).
Proof using G. unfold energy. pose proof (rp rho gam). set (a := Rpower rho gam) in *. clearbody a. field. lra. Qed.
Lemma ceiling rho v : let (u', K') := entropy_ceiling gam rho v in u' = energy gam rho K' /\ K' <= 3 /\ u' <= v.
Proof using G.
  unfold entropy_ceiling, KTOTMAX. cbv zeta. pose proof (rp rho gam) as P. destruct (Rltb_spec 3 ((gam - 1) * (v * Rpower rho (- gam)))) as [L|L].
  - split; [reflexivity|]. split; [lra|].
    assert (Q : 3 * Rpower rho gam < (gam - 1) * v).
    { pose proof (Rmult_lt_compat_r _ _ _ P L) as M. replace ((gam - 1) * (v * Rpower rho (- gam)) * Rpower rho gam) with ((gam - 1) * v * (Rpower rho gam * Rpower rho (- gam))) in M by ring.
      rewrite rp_opp in M. lra. }
    apply (Rmult_le_reg_r (gam - 1)); [lra|]. replace (3 * Rpower rho gam / (gam - 1) * (gam - 1)) with (3 * Rpower rho gam) by (field; lra). lra.
  - split; [|split; [lra|lra]]. rewrite <- Rmult_assoc. apply K_of.
Qed.
End L.

Section H.
Variables gam game : R.
Hypotheses (G : 1 < gam) (GE : 1 < game).
Lemma init_split fel0 rho u : let (K, k) := init_electrons gam game fel0 rho u in energy gam rho K = u /\ energy game rho k = fel0 * u.
Proof using G GE.
  unfold init_electrons. cbv zeta. split; [symmetry; apply (K_of gam G)|symmetry; apply (K_of game GE)].
Qed.
Lemma heat_gain fel rho_s rho_f u k K : 
  let (k', K') := heat_electrons_zone gam game fel rho_s rho_f u k K in
  energy gam rho_f K' = u /\
  energy game rho_f k' - energy game rho_f k = fel * (u - energy gam rho_f K) * (Rpower rho_s (gam - game) / Rpower rho_f (gam - game)).
Proof using G GE.
  unfold heat_electrons_zone. cbv zeta. split; [symmetry; apply (K_of_div gam G)|].
  unfold energy. rewrite <- (rp_sub rho_f gam game). pose proof (rp rho_f game). pose proof (rp rho_f (gam - game)).
  set (a := Rpower rho_f game) in *. set (b := Rpower rho_f (gam - game)) in *. set (d := Rpower rho_s (gam - game)). clearbody a b d. field. repeat split; lra.
Qed.
Lemma heat_exact fel rho u k K : let k' := fst (heat_electrons_zone gam game fel rho rho u k K) in
  energy game rho k' - energy game rho k = fel * (u - energy gam rho K).
Proof using G GE.
  pose proof (heat_gain fel rho rho u k K) as H. cbv zeta. destruct (heat_electrons_zone _ _ _ _ _ _ _ _) as [k' K']. cbn [fst].
  destruct H as [_ ->]. pose proof (rp rho (gam - game)). set (b := Rpower rho (gam - game)) in *. clearbody b. field. lra.
Qed.
(** the same heat given to gas of another density *)
Lemma heat_density : exists fel rho_s rho_f u k K, 0 < fel < 1 /\ 0 < rho_s /\ 0 < rho_f /\ 0 < k /\ 0 < K /\ 
  energy 2 rho_f K < u /\ u - energy 2 rho_f K < energy (3/2) rho_f (fst (heat_electrons_zone 2 (3/2) fel rho_s rho_f u k K)) - energy (3/2) rho_f k.
Proof.
  exists (9 / 10), 4, 1, 3, 1, 1. assert (R1 : forall y, Rpower 1 y = 1) by (intros; unfold Rpower; rewrite ln_1, Rmult_0_r; apply exp_0).
  assert (R4 : Rpower 4 (2 - 3 / 2) = 2). { replace (2 - 3 / 2) with (/ 2) by lra. rewrite Rpower_sqrt by lra. replace 4 with (2 * 2) by ring. apply sqrt_square. lra. }
  unfold heat_electrons_zone, energy. cbn [fst]. rewrite !R1, R4. repeat split; lra.
Qed.
Lemma rad_gain Dt ucon radG gdet rho u k ucon0 : 0 < rho -> 0 < ucon0 -> gdet <> 0 ->
  let (k', K') := apply_rad_force_e gam game Dt ucon radG gdet rho rho u k ucon0 in
  energy gam rho K' = u /\
  energy game rho k' - energy game rho k =
    - (ucon 0%nat * radG 0%nat + ucon 1%nat * radG 1%nat + ucon 2%nat * radG 2%nat + ucon 3%nat * radG 3%nat) / gdet * Dt / ucon0.
Proof using G GE.
  intros P U D. unfold apply_rad_force_e. cbv zeta. split; [symmetry; apply (K_of gam G)|].
  unfold energy. assert (Q : Rpower rho (1 - game) * Rpower rho game = rho) by (rewrite rp_sub; apply Rpower_1; assumption).
  set (C := 0 + _ + _ + _ + _).
  transitivity ((Dt * (C / gdet) / (rho * ucon0)) * (Rpower rho (1 - game) * Rpower rho game)).
  - set (a := Rpower rho game). set (b := Rpower rho (1 - game)). clearbody a b C. field. repeat split; lra.
  - rewrite Q. unfold C. field. repeat split; lra.
Qed.
End H.

(** ** The heating fraction *)
Lemma fel_range gam game fel0 mpme rho u k bsq : 0 < mpme -> 0 < rho -> 0 <= bsq ->
  0 < get_fel gam game true fel0 mpme rho u k bsq < 1.
Proof.
  intros M P B. unfold get_fel. cbv zeta. cbn [negb].
  set (Tel := if Rleb _ 0 then ESMALL else (game - 1) * _ / rho).
  set (Tpr := if Rleb ((gam - 1) * u / rho) 0 then ESMALL else _).
  assert (S0 : 0 < ESMALL) by (unfold ESMALL; apply Rinv_0_lt_compat, pow_lt; lra).
  assert (E0 : 0 < Tel) by (unfold Tel; rcases; lra). assert (P0 : 0 < Tpr) by (unfold Tpr; rcases; lra).
  assert (T0 : 0 < Rabs (Tpr / Tel)) by (apply Rabs_pos_lt; pose proof (div_pos _ _ P0 E0); lra).
  set (Tr := Rabs _) in *. set (beta := if Reqb bsq 0 then _ else _). set (m := 2 - _).
  set (c2 := if Rleb Tr 1 then _ else _). set (c3 := if Rleb Tr 1 then _ else _).
  assert (C2 : 0 < c2) by (unfold c2; rcases; apply div_pos; lra).
  pose proof (rp beta m). pose proof (rp (mpme * Tr) (1 / 2)). pose proof (exp_pos (- 1 / beta)).
  assert (0 < c2 ^ 2) by (apply pow_lt; assumption). pose proof (pow2_ge_0 c3).
  set (q := _ * _). assert (Q : 0 < q). { unfold q. apply Rmult_lt_0_compat; [|assumption]. apply Rmult_lt_0_compat; [|assumption]. apply div_pos; [|lra]. apply Rmult_lt_0_compat; lra. }
  clearbody q. split; [apply div_pos; lra|]. apply (Rmult_lt_reg_r (1 + q)); [lra|]. replace (1 / (1 + q) * (1 + q)) with 1 by (field; lra). lra.
Qed.

(** ** Coulomb exchange *)
Section C.
Variables game gamp MP ME KBOL CL THOMSON Ne_unit U_unit T_unit COULOMB_LOG : R.
Variable gsl_Kn : nat -> R -> R.
Hypotheses (GE : 1 < game) (GP : 1 < gamp) (MP0 : 0 < MP) (ME0 : 0 < ME) (KB0 : 0 < KBOL) (CL0 : 0 < CL) (TH0 : 0 < THOMSON)
  (NE0 : 0 < Ne_unit) (UU0 : 0 < U_unit) (TU0 : 0 < T_unit) (LC0 : 0 < COULOMB_LOG) (KN0 : forall n x, 0 < x -> 0 < gsl_Kn n x).
Let TE := Te game MP ME KBOL CL.
Let TI := Ti game gamp KBOL Ne_unit U_unit.
Let QC := Qc game gamp MP ME KBOL CL THOMSON Ne_unit U_unit T_unit COULOMB_LOG gsl_Kn.
Let step := coulomb game gamp MP ME KBOL CL THOMSON Ne_unit U_unit T_unit COULOMB_LOG gsl_Kn.
Lemma kn_pos n x : 0 < x -> 0 < Kn gsl_Kn n x.
Proof using KN0. intros X. unfold Kn. rcases; [|apply KN0; assumption]. apply Rmult_lt_0_compat; [apply exp_pos|]. apply sqrt_lt_R0, div_pos; [apply PI_RGT_0|lra]. Qed.
Lemma qc_factor rho u k : 0 < rho -> 0 < TE rho k -> 0 < TI rho u k -> exists a, 0 < a /\ QC rho u k = a * (TI rho u k - TE rho k).
Proof using GE GP MP0 ME0 KB0 CL0 TH0 NE0 UU0 TU0 LC0 KN0.
  intros P HE HI. unfold QC, Qc. cbv zeta. fold TE TI.
  assert (te0 : 0 < thetae game MP ME rho k).
  { replace (thetae game MP ME rho k) with (TE rho k * KBOL / (ME * CL * CL)) by (unfold TE, Te; field; lra).
    apply div_pos; [apply Rmult_lt_0_compat; assumption|]. repeat apply Rmult_lt_0_compat; assumption. }
  set (te := thetae game MP ME rho k) in *. set (T := TI rho u k) in *. set (T' := TE rho k) in *. clearbody te T T'.
  assert (ti0 : 0 < KBOL * T / (MP * CL * CL)) by (apply div_pos; repeat apply Rmult_lt_0_compat; assumption).
  set (ti := KBOL * T / (MP * CL * CL)) in *. clearbody ti.
  assert (tm0 : 0 < 1 / (1 / te + 1 / ti)) by (pose proof (div_pos 1 te ltac:(lra) te0); pose proof (div_pos 1 ti ltac:(lra) ti0); apply div_pos; lra).
  set (tm := 1 / (1 / te + 1 / ti)) in *. clearbody tm.
  pose proof (div_pos 1 te ltac:(lra) te0) as ie. pose proof (div_pos 1 ti ltac:(lra) ti0) as ii. pose proof (div_pos 1 tm ltac:(lra) tm0) as im.
  assert (PP : 0 < PI * te * ti / 2). { apply div_pos; [|lra]. apply Rmult_lt_0_compat; [apply Rmult_lt_0_compat; [apply PI_RGT_0|assumption]|assumption]. }
  match goal with |- context [let '(_, _) := ?x in _] => set (pr := x) end.
  assert (W : 0 < fst pr /\ 0 < snd pr).
  { unfold pr. destruct (Rltb te (/ 100)), (Rltb ti (/ 100)); cbn [andb fst snd];
      repeat match goal with |- _ /\ _ => split end;
      repeat first [assumption | apply sqrt_lt_R0 | apply div_pos | apply Rmult_lt_0_compat | apply exp_pos | apply kn_pos | assumption]. }
  clearbody pr. destruct pr as [t1 t2]. cbn [fst snd] in W. destruct W as [W1 W2].
  assert (F : 0 < (2 * (te + ti) ^ 2 + 1) / (te + ti)). { apply div_pos; [pose proof (pow2_ge_0 (te + ti)); lra|lra]. }
  set (f := (2 * (te + ti) ^ 2 + 1) / (te + ti)) in *. clearbody f.
  assert (W3 : 0 < t1 * f + t2 * 2) by (pose proof (Rmult_lt_0_compat _ _ W1 F); lra).
  exists (3 / 2 * ME / MP * (rho * Ne_unit) * (rho * Ne_unit) * COULOMB_LOG * CL * KBOL * THOMSON * (t1 * f + t2 * 2) * (T_unit / U_unit)).
  split; [|ring]. assert (0 < 3 / 2 * ME / MP) by (apply div_pos; lra). assert (0 < T_unit / U_unit) by (apply div_pos; assumption).
  assert (0 < rho * Ne_unit) by (apply Rmult_lt_0_compat; assumption).
  set (z := 3 / 2 * ME / MP) in *. set (y := T_unit / U_unit) in *. set (x := rho * Ne_unit) in *. clearbody x y z. repeat first [assumption | apply Rmult_lt_0_compat].
Qed.
Lemma coul_gain Dt ucon0 rho_s u_s k_s rho_f k_f : 0 < TE rho_s k_s -> 0 < TI rho_s u_s k_s ->
  energy game rho_f (step Dt ucon0 rho_s u_s k_s rho_f k_f) - energy game rho_f k_f = QC rho_s u_s k_s * Dt / ucon0.
Proof using GE.
  intros A B. unfold step, coulomb. fold TE TI. rewrite !Rltb_true by assumption. cbn [andb]. cbv zeta. fold QC.
  unfold energy. set (q := QC rho_s u_s k_s). set (e := k_f * Rpower rho_f game / (game - 1)).
  transitivity ((e + q * Dt / ucon0) * (Rpower rho_f game * Rpower rho_f (- game)) - e); [|rewrite rp_opp; ring].
  set (a := Rpower rho_f game). set (b := Rpower rho_f (- game)). clearbody a b e q. set (x := q * Dt / ucon0). clearbody x. field. lra.
Qed.
Lemma energy_mono rho k k' : k < k' <-> energy game rho k < energy game rho k'.
Proof using GE.
  unfold energy. pose proof (rp rho game) as P. assert (Q : 0 < Rpower rho game / (game - 1)) by (apply div_pos; lra).
  unfold Rdiv in *. rewrite !Rmult_assoc. split; intros; [apply Rmult_lt_compat_r; assumption|eapply Rmult_lt_reg_r; eassumption].
Qed.
Lemma coul_sign Dt ucon0 rho_s u_s k_s rho_f k_f : 0 < Dt -> 0 < ucon0 -> 0 < rho_s -> 0 < TE rho_s k_s -> 0 < TI rho_s u_s k_s ->
  (TE rho_s k_s < TI rho_s u_s k_s <-> k_f < step Dt ucon0 rho_s u_s k_s rho_f k_f) /\
  (TI rho_s u_s k_s < TE rho_s k_s <-> step Dt ucon0 rho_s u_s k_s rho_f k_f < k_f).
Proof using GE GP MP0 ME0 KB0 CL0 TH0 NE0 UU0 TU0 LC0 KN0.
  intros D U P A B. set (k' := step Dt ucon0 rho_s u_s k_s rho_f k_f). rewrite (energy_mono rho_f k_f k'), (energy_mono rho_f k' k_f). pose proof (coul_gain Dt ucon0 rho_s u_s k_s rho_f k_f A B) as Q.
  destruct (qc_factor rho_s u_s k_s P A B) as [a [a0 F]]. rewrite F in Q.
  fold k' in Q. set (e' := energy game rho_f k') in *. set (e := energy game rho_f k_f) in *. clearbody e e'.
  assert (I : 0 < a * (Dt / ucon0)) by (apply Rmult_lt_0_compat; [assumption|apply div_pos; assumption]).
  replace (a * (TI rho_s u_s k_s - TE rho_s k_s) * Dt / ucon0) with (a * (Dt / ucon0) * (TI rho_s u_s k_s - TE rho_s k_s)) in Q by (field; lra).
  set (w := a * (Dt / ucon0)) in *. set (d := TI rho_s u_s k_s - TE rho_s k_s) in *. 
  assert (V : (0 < d <-> 0 < w * d) /\ (d < 0 <-> w * d < 0)).
  { destruct (Rtotal_order d 0) as [N|[Z|N]].
    - assert (w * d < 0) by (pose proof (Rmult_lt_compat_l _ _ _ I N); lra). split; split; lra.
    - rewrite Z, Rmult_0_r. split; split; lra.
    - assert (0 < w * d) by (apply Rmult_lt_0_compat; assumption). split; split; lra. }
  destruct V as [V1 V2]. subst d. split; split; intros; lra.
Qed.
Lemma coul_skip Dt ucon0 rho_s u_s k_s rho_f k_f : TE rho_s k_s <= 0 \/ TI rho_s u_s k_s <= 0 -> step Dt ucon0 rho_s u_s k_s rho_f k_f = k_f.
Proof. intros H. unfold step, coulomb. fold TE TI. destruct (Rltb_spec 0 (TE rho_s k_s)), (Rltb_spec 0 (TI rho_s u_s k_s)); cbn [andb]; try reflexivity. lra. Qed.
(** ion temperature is the kinetic one *)
Lemma ti_kinetic rho u k : TI rho u k = kinetic (press gamp (u - energy game rho k) * U_unit) (rho * Ne_unit) KBOL.
Proof. unfold TI, Ti, kinetic, press, energy. cbv zeta. unfold Rdiv. ring. Qed.
End C.
(** the electron one is smaller by MP / (MP + ME): the density counts the electron mass *)
Lemma te_kinetic game MP ME KBOL CL RHO_unit rho k : 1 < game -> 0 < MP -> 0 < ME -> 0 < KBOL -> 0 < RHO_unit -> 0 < rho ->
  Te game MP ME KBOL CL rho k = kinetic (press game (energy game rho k) * (RHO_unit * CL * CL)) (rho * (RHO_unit / (MP + ME))) KBOL * (MP / (MP + ME)).
Proof.
  intros GE MP0 ME0 KB0 R0 P. unfold Te, thetae, kinetic, press, energy.
  assert (Q : Rpower rho game = Rpower rho (game - 1) * rho). { rewrite <- (Rpower_1 rho) at 3 by assumption. rewrite <- Rpower_plus. f_equal. ring. }
  rewrite Q. set (a := Rpower rho (game - 1)). clearbody a. field. repeat split; lra.
Qed.
(** so that at equal temperatures heat still flows to the electrons *)
Lemma coul_drift game gamp MP ME KBOL CL THOMSON RHO_unit T_unit LOG gsl_Kn Dt ucon0 rho u k rho_f k_f :
  1 < game -> 1 < gamp -> 0 < MP -> 0 < ME -> 0 < KBOL -> 0 < CL -> 0 < THOMSON -> 0 < RHO_unit -> 0 < T_unit -> 0 < LOG ->
  (forall n x, 0 < x -> 0 < gsl_Kn n x) -> 0 < Dt -> 0 < ucon0 -> 0 < rho -> 0 < k ->
  tp_te gamp game rho u k = 1 ->
  k_f < coulomb game gamp MP ME KBOL CL THOMSON (RHO_unit / (MP + ME)) (RHO_unit * CL * CL) T_unit LOG gsl_Kn Dt ucon0 rho u k rho_f k_f.
Proof.
  intros GE GP MP0 ME0 KB0 CL0 TH0 R0 TU0 LC0 KN0 D U P K0 E.
  assert (NE0 : 0 < RHO_unit / (MP + ME)) by (apply div_pos; lra).
  assert (UU0 : 0 < RHO_unit * CL * CL) by (repeat apply Rmult_lt_0_compat; assumption).
  assert (A : 0 < press game (energy game rho k)).
  { unfold press, energy. replace ((game - 1) * (k * Rpower rho game / (game - 1))) with (k * Rpower rho game) by (field; lra). apply Rmult_lt_0_compat; [assumption|apply rp]. }
  assert (B : press gamp (u - energy game rho k) = press game (energy game rho k)).
  { unfold tp_te in E. set (a := press gamp _) in *. set (b := press game _) in *. clearbody a b. assert (a = a / b * b) by (field; lra). rewrite E in H. lra. }
  assert (KN : 0 < kinetic (press game (energy game rho k) * (RHO_unit * CL * CL)) (rho * (RHO_unit / (MP + ME))) KBOL).
  { unfold kinetic. apply div_pos; repeat first [assumption | apply Rmult_lt_0_compat]. }
  pose proof (te_kinetic game MP ME KBOL CL RHO_unit rho k GE MP0 ME0 KB0 R0 P) as HE.
  pose proof (ti_kinetic game gamp KBOL (RHO_unit / (MP + ME)) (RHO_unit * CL * CL) rho u k) as HI. rewrite B in HI.
  set (T := kinetic _ _ _) in *. clearbody T.
  assert (F : 0 < MP / (MP + ME) < 1). { split; [apply div_pos; lra|]. apply (Rmult_lt_reg_r (MP + ME)); [lra|]. replace (MP / (MP + ME) * (MP + ME)) with MP by (field; lra). lra. }
  set (f := MP / (MP + ME)) in *. clearbody f.
  assert (0 < T * f) by (apply Rmult_lt_0_compat; lra). assert (T * f < T) by (pose proof (Rmult_lt_compat_l T f 1 KN ltac:(lra)); lra).
  pose proof (coul_sign game gamp MP ME KBOL CL THOMSON (RHO_unit / (MP + ME)) (RHO_unit * CL * CL) T_unit LOG gsl_Kn
    GE GP MP0 ME0 KB0 CL0 TH0 NE0 UU0 TU0 LC0 KN0 Dt ucon0 rho u k rho_f k_f D U P ltac:(lra) ltac:(lra)) as [[S _] _].
  apply S. lra.
Qed.

(** ** the limits judged with the ion index that the exchange uses *)
Lemma fix_gamp : exists gam game gamp lo hi rho u K k, 1 < gam /\ 1 < game /\ 1 < gamp /\ 0 <= lo <= hi /\ 0 < rho /\ 0 < u /\ u = energy gam rho K /\
  fixup_electrons_1zone gam game lo hi K rho NaN = Fin k /\ hi < tp_te gamp game rho u k.
Proof.
  assert (R1 : forall y, Rpower 1 y = 1) by (intros; unfold Rpower; rewrite ln_1, Rmult_0_r; apply exp_0).
  exists (13 / 9), (4 / 3), (5 / 3), (1 / 1000), 1000, 1, (9 / 4), 1. exists (1 / (1000 + 4 / 3)).
  repeat split; try lra.
  - unfold energy. rewrite R1. lra.
  - unfold fixup_electrons_1zone, kel_limit. cbv zeta. rewrite R1. unfold xmax, xmin. cbn [xltb].
    replace ((13 / 9 - 1) / (4 / 3 - 1)) with (4 / 3) by lra.
    rewrite (Rltb_false (1 * 1 / (1000 + 4 / 3)) (1 * 1 / (1000 + 4 / 3))) by lra. cbn [xltb].
    rewrite Rltb_true by lra. f_equal. lra.
  - unfold tp_te, press, energy. rewrite R1. lra.
Qed.
Lemma ceiling_example : let (u', K') := entropy_ceiling 2 1 4 in u' = 3 /\ K' = 3.
Proof.
  assert (R1 : forall y, Rpower 1 y = 1) by (intros; unfold Rpower; rewrite ln_1, Rmult_0_r; apply exp_0).
  unfold entropy_ceiling, KTOTMAX. cbv zeta. rewrite !R1. rewrite Rltb_true by lra. lra.
Qed.
Lemma coul_drift_at : exists game gamp rho u k, 1 < game /\ 1 < gamp /\ 0 < rho /\ 0 < k /\ tp_te gamp game rho u k = 1 /\
  forall MP ME KBOL CL THOMSON RHO_unit T_unit LOG gsl_Kn Dt ucon0 rho_f k_f,
  0 < MP -> 0 < ME -> 0 < KBOL -> 0 < CL -> 0 < THOMSON -> 0 < RHO_unit -> 0 < T_unit -> 0 < LOG -> (forall n x, 0 < x -> 0 < gsl_Kn n x) ->
  0 < Dt -> 0 < ucon0 ->
  k_f < coulomb game gamp MP ME KBOL CL THOMSON (RHO_unit / (MP + ME)) (RHO_unit * CL * CL) T_unit LOG gsl_Kn Dt ucon0 rho u k rho_f k_f.
Proof.
  assert (R : tp_te (5 / 3) (4 / 3) 1 (9 / 2) 1 = 1) by (unfold tp_te, press, energy, Rpower; rewrite ln_1, Rmult_0_r, exp_0; lra).
  exists (4 / 3), (5 / 3), 1, (9 / 2), 1. repeat (split; [first [exact R|lra]|]). intros. apply coul_drift; first [assumption|lra|exact R].
Qed.
