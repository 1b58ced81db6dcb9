(** Units, optical depths and numbers of superphotons: proofs. *)
From Coq Require Import Reals Bool ZArith Lia Lra.
From Coquelicot Require Import Coquelicot.
From Verif Require Import RLib XLib IntLib GeomModel GeomSpec GeomProofs SpaceProofs ZoneModel ZoneSpec ZoneProofs DepthModel.
From Verif Require EmitModel.
Open Scope R_scope.

(** *** optical depths *)
Section Depth.
Variables (HPL ME CL L : R).
Hypothesis PH : 0 < HPL.
Hypothesis PM : 0 < ME.
Hypothesis PC : 0 < CL.
Variables (G : mat) (alpha : R) (beta : vec).
Hypothesis ST : spacetime G alpha beta.
Variables (K u : vec).
Hypothesis NK : inner G K K = 0.
Hypothesis K0 : 0 < K 0%nat.
Hypothesis NU : inner G u u = -1.
Hypothesis U0 : 0 < u 0%nat.
Let nu := get_fluid_nu ME CL HPL (lower K G) u.
Lemma nu_val : nu = - inner G K u * (ME * CL * CL) / HPL.
Proof using PH ST.
  unfold nu, get_fluid_nu. rewrite (inner_sym G K u (st_sym G alpha beta ST)), inner_lower. unfold sum4, sigma4. field. lra.
Qed.
Lemma nu_pos : 0 < nu.
Proof using PH PM PC ST NK K0 NU U0.
  rewrite nu_val. pose proof (null_future G alpha beta ST K u NK K0 NU U0). apply Rdiv_lt_0_compat; [|exact PH]. apply Rmult_lt_0_compat; [lra|]. apply Rmult_lt_0_compat; [apply Rmult_lt_0_compat; lra|lra].
Qed.
Lemma path dt : 0 <= dt -> let d := fun mu => K mu * (dt / K 0%nat) in
  d 0%nat = dt /\ sqrt (inner G (rest_part G u d) (rest_part G u d)) = - inner G K u * (dt / K 0%nat).
Proof using ST NK K0 NU U0.
  intros T d. split; [unfold d; field; lra|]. pose proof (null_future G alpha beta ST K u NK K0 NU U0) as F.
  assert (ND : inner G d d = 0). { transitivity ((dt / K 0%nat) * (dt / K 0%nat) * inner G K K); [unfold d, inner, sigma4; ring|]. rewrite NK. ring. }
  assert (ID : inner G d u = (dt / K 0%nat) * inner G K u) by (unfold d, inner, sigma4; ring).
  rewrite (rest_norm G alpha beta ST u d NU ND). change (inner G d u * inner G d u) with (Rsqr (inner G d u)). rewrite sqrt_Rsqr_abs, ID. rewrite Rabs_left1; [ring|].
  assert (0 <= dt / K 0%nat) by (apply Rmult_le_pos; [exact T|left; apply Rinv_0_lt_compat, K0]).
  rewrite <- (Rmult_0_r (dt / K 0%nat)). apply Rmult_le_compat_l; lra.
Qed.
Lemma depth_abs a dt : 0 <= dt -> let d := fun mu => K mu * (dt / K 0%nat) in
  d 0%nat = dt /\ dtau_abs HPL ME CL L a dt K (lower K G) u = (a nu / nu) * (L * sqrt (inner G (rest_part G u d) (rest_part G u d))).
Proof using PH PM PC ST NK K0 NU U0.
  intros T d. destruct (path dt T) as [D0 D]. fold d in D0, D. split; [exact D0|]. rewrite D. unfold dtau_abs. cbv zeta. fold nu. pose proof nu_pos as NP.
  assert (E : - inner G K u = nu * (HPL / (ME * CL * CL))) by (rewrite nu_val; field; lra). rewrite E. unfold dlam. field. repeat split; lra.
Qed.
Lemma depth_scatt ne s dt : 0 <= dt -> let d := fun mu => K mu * (dt / K 0%nat) in
  dtau_scatt HPL ME CL L ne s dt K (lower K G) u = ne * s (- inner G K u) * (L * sqrt (inner G (rest_part G u d) (rest_part G u d))).
Proof using PH PM PC ST NK K0 NU U0.
  intros T d. destruct (path dt T) as [D0 D]. fold d in D0, D. rewrite D. unfold dtau_scatt, alpha_inv_scatt. cbv zeta. fold nu. pose proof nu_pos as NP.
  assert (E : HPL * nu / (ME * CL * CL) = - inner G K u) by (rewrite nu_val; field; lra). rewrite E. rewrite nu_val. unfold dlam. field. repeat split; lra.
Qed.
End Depth.
(** *** numbers *)
Section Dnz.
Variables (HPL V g dt T n lo hi : R) (J w : R -> R).
Hypothesis PH : 0 < HPL.
Hypothesis Pn : 0 < n.
Hypothesis Plo : 0 < lo.
Hypothesis Phi : lo < hi.
Hypothesis CJ : forall nu, lo <= nu <= hi -> continuous J nu.
Hypothesis Pw : forall nu, lo <= nu <= hi -> SMALL <= w nu.
Lemma exp_range x : ln lo <= x <= ln hi -> lo <= exp x <= hi.
Proof using Plo Phi.
  intros [A B]. rewrite <- (exp_ln lo) by exact Plo. rewrite <- (exp_ln hi) by lra. split.
  - destruct A as [A| ->]; [left; apply exp_increasing, A|right; reflexivity].
  - destruct B as [B|B]; [left; apply exp_increasing, B|right; now rewrite B].
Qed.
Lemma f_val x : ln lo <= x <= ln hi -> w (exp x) * (HPL * exp x) * (f J w x / HPL) = exp x * J (exp x).
Proof using PH Pw Plo Phi.
  intros H. pose proof (Pw _ (exp_range x H)) as W. assert (0 < SMALL) by (unfold SMALL; apply Rinv_0_lt_compat, pow_lt; lra). pose proof (exp_pos x). unfold f. rewrite Rltb_false by exact W. field. lra.
Qed.
Lemma ln_le : ln lo < ln hi. Proof using Plo Phi. apply ln_increasing; lra. Qed.
Lemma int_J : is_RInt (fun x => exp x * J (exp x)) (ln lo) (ln hi) (RInt J lo hi).
Proof using CJ Plo Phi.
  pose proof ln_le as LL. rewrite <- (exp_ln lo) at 2 by exact Plo. rewrite <- (exp_ln hi) at 2 by lra. apply (is_RInt_comp J exp exp).
  - intros x. rewrite Rmin_left, Rmax_right by lra. intros H. apply CJ, exp_range, H.
  - intros x _. split; [apply is_derive_exp|apply continuous_exp].
Qed.
(** expected energy: pairs are made at ln nu = x with density f x / HPL V g dt T / n in each of n threads and carry w h nu *)
Lemma energy : let density x := f J w x / HPL * V * g * (dt * T) / n in
  is_RInt (fun x => n * (density x * (w (exp x) * (HPL * exp x)))) (ln lo) (ln hi) (V * g * (dt * T) * RInt J lo hi).
Proof using CJ PH Pn Pw Plo Phi.
  cbv zeta. apply (is_RInt_ext (fun x => (V * g * (dt * T)) * (exp x * J (exp x)))).
  - intros x. pose proof ln_le. rewrite Rmin_left, Rmax_right by lra. intros H0. match goal with |- ?a = ?b => change (@eq R a b) end. rewrite <- (f_val x) by lra. field. lra.
  - apply (is_RInt_scal (V := R_NormedModule)). apply int_J.
Qed.
Lemma density_total : ex_RInt (f J w) (ln lo) (ln hi) -> let density x := f J w x / HPL * V * g * (dt * T) / n in is_RInt density (ln lo) (ln hi) (dnz HPL V g dt T n (ln lo) (ln hi) J w).
Proof using PH Pn.
  intros E. cbv zeta. unfold dnz. pose proof (RInt_correct _ _ _ E) as I. apply (is_RInt_ext (fun x => (/ HPL * V * g * (dt * T) / n) * f J w x)).
  - intros x _. match goal with |- ?a = ?b => change (@eq R a b) end. field. lra.
  - replace (RInt (f J w) (ln lo) (ln hi) / HPL * V * g * (dt * T) / n) with ((/ HPL * V * g * (dt * T) / n) * RInt (f J w) (ln lo) (ln hi)) by (field; lra).
    apply (is_RInt_scal (V := R_NormedModule)), I.
Qed.
End Dnz.
(** rounding at random keeps the mean *)
Lemma rounding d : 0 <= d < 2147483647 -> is_RInt (fun x => match EmitModel.number_of_pairs d x with Some n => IZR n | None => 0 end) 0 1 d.
Proof.
  intros H. assert (exists f : Z, IZR f <= d < IZR f + 1 /\ forall x, EmitModel.number_of_pairs d x = Some (if Rltb x (d - IZR f) then (f + 1)%Z else f)) as (f & F & E).
  { destruct (Int_part_bounds d) as [A B]. exists (Int_part d). assert (Z0 : (0 <= Int_part d)%Z). { apply Z.lt_succ_r. apply lt_IZR. rewrite succ_IZR. lra. }
    assert (Z1 : (Int_part d < 2147483647)%Z) by (apply lt_IZR; lra). split; [lra|]. intros x. unfold EmitModel.number_of_pairs. rewrite (to_int_unique d (Int_part d) ltac:(lia) ltac:(lra)). reflexivity. }
  set (c := d - IZR f) in *. assert (C : 0 <= c < 1) by (unfold c; lra). assert (EV : (c * (IZR f + 1)) + ((1 - c) * IZR f) = d) by (unfold c; ring).
  refine (eq_ind _ (fun v => is_RInt _ 0 1 v) _ _ EV).
  apply (is_RInt_Chasles (V := R_NormedModule)) with (b := c).
  - apply (is_RInt_ext (fun _ => IZR f + 1)).
    + intros x. rewrite Rmin_left, Rmax_right by lra. intros X. rewrite EV, E, Rltb_true by (fold c; lra). rewrite plus_IZR. reflexivity.
    + evar_last; [apply (is_RInt_const (V := R_NormedModule))|]. unfold scal. cbn. unfold mult. cbn. ring.
  - apply (is_RInt_ext (fun _ => IZR f)).
    + intros x. rewrite Rmin_left, Rmax_right by lra. intros X. rewrite EV, E, Rltb_false by (fold c; lra). reflexivity.
    + evar_last; [apply (is_RInt_const (V := R_NormedModule))|]. unfold scal. cbn. unfold mult. cbn. ring.
Qed.
(** *** which zones *)
Lemma fresh o start stop rho0 dx1 x1 P Prad : 0 <= dx1 -> emits o start stop rho0 x1 Prad = true -> (table o = true -> gamma_fallback o = false) ->
  (ATM P < ATM_THRESH -> ATM Prad < ATM_THRESH) -> computed o stop dx1 x1 P = true.
Proof.
  intros D E GF S. unfold emits in E. destruct (Rltb_spec x1 start); [discriminate|]. destruct (Rltb_spec stop x1); [discriminate|]. cbn [orb] in E. unfold computed, polytrope_fallback in *.
  destruct (table o) eqn:TO; [|cbn [andb]; apply Rleb_true; lra]. rewrite (GF eq_refl) in E. cbn [andb negb] in *. destruct (Rltb (RHO Prad) rho0 || Rltb (UU Prad) SMALL); [discriminate|].
  destruct (mks o); cbn [andb] in *; [|apply Rleb_true; lra]. destruct (Rltb_spec (ATM Prad) ATM_THRESH); [discriminate|]. rewrite Rltb_false; [apply Rleb_true; lra|].
  destruct (Rle_lt_dec ATM_THRESH (ATM P)) as [|L]; [assumption|apply S in L; lra].
Qed.
