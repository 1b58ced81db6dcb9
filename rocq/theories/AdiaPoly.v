(** Proofs about polytropes and the energy shift. *)
From Coq Require Import Reals Bool ZArith List Lia Lra.
From Verif Require Import RLib XLib IntLib TabModel TabSpec TabProofs InvModel AdiaModel AdiaSpec AdiaProofs AdiaMore.
Import ListNotations.
Open Scope R_scope.

Section Nodes.
Variables (rho tmp yes : axis) (dr dt dy : R).
Hypothesis E1 : even rho dr.
Hypothesis E2 : even tmp dt.
Hypothesis E3 : even yes dy.
Hypothesis T1 : TOL < dr.
Hypothesis T2 : TOL < dt.
Hypothesis T3 : TOL < dy.
Lemma same_node (a : axis) d i x i' x' : even a d -> rd a i = Some x -> rd a i' = Some x' -> x' <= x < x' + d -> i = i'.
Proof.
  intros E R R' B. pose proof (rd_in _ _ _ R). pose proof (rd_in _ _ _ R'). rewrite (node_at a d E) in R by (unfold ax_n; lia). rewrite (node_at a d E) in R' by (unfold ax_n; lia).
  injection R as <-. injection R' as <-. destruct E as (_ & _ & D & _).
  assert (~ (i' + 1 <= i)%Z). { intros C. apply IZR_le in C. rewrite plus_IZR in C. assert ((IZR i' + 1) * d <= IZR i * d) by (apply Rmult_le_compat_r; lra). lra. }
  assert (~ (i + 1 <= i')%Z). { intros C. apply IZR_le in C. rewrite plus_IZR in C. assert ((IZR i + 1) * d <= IZR i' * d) by (apply Rmult_le_compat_r; lra). lra. }
  lia.
Qed.
Lemma below_end (a : axis) d i x : even a d -> rd a i = Some x -> (i + 1 < ax_n a)%Z -> ax_min a <= x < ax_max a.
Proof.
  intros E R B. pose proof (rd_in _ _ _ R) as I. rewrite (node_at a d E) in R by (unfold ax_n; lia). injection R as <-. rewrite (ax_max_spec a d E). destruct E as (_ & _ & D & _).
  assert (0 <= IZR i) by (apply (IZR_le 0); lia). assert (IZR i < IZR (ax_n a - 1)) by (apply IZR_lt; lia).
  assert (0 <= IZR i * d) by (apply Rmult_le_pos; lra). assert (IZR i * d < IZR (ax_n a - 1) * d) by (apply Rmult_lt_compat_r; lra). lra.
Qed.
Variables (i j k : Z) (x t y : R).
Hypothesis X : rd rho i = Some x.
Hypothesis Y : rd tmp j = Some t.
Hypothesis Z : rd yes k = Some y.
Hypothesis BX : (i + 1 < ax_n rho)%Z.
Hypothesis BY : (j + 1 < ax_n tmp)%Z.
Hypothesis BZ : (k + 1 < ax_n yes)%Z.
Lemma node_value tab : length tab = (length rho * length tmp * length yes)%nat ->
  EOS_SC_interp rho tmp yes x t y tab = rd tab (EOS_ELEM rho tmp i j k).
Proof.
  intros SZ. pose proof (below_end rho dr i x E1 X BX) as XB. pose proof (below_end tmp dt j t E2 Y BY) as TB. pose proof (below_end yes dy k y E3 Z BZ) as YB.
  destruct (interp_value rho tmp yes dr dt dy E1 E2 E3 T1 T2 T3 tab x t y SZ ltac:(lra)) as (i' & j' & k' & ri & tj & yk & t0 & t1 & t2 & t3 & t4 & t5 & t6 & t7 & _ & _ & _ & R1 & R2 & R3 & _ & _ & _ & C1 & C2 & C3 & Q0 & _ & _ & _ & _ & _ & _ & _ & V).
  cbv zeta in V. rewrite V.
  assert (i = i') by (apply (same_node rho dr i x i' ri); auto). assert (j = j') by (apply (same_node tmp dt j t j' tj); auto). assert (k = k') by (apply (same_node yes dy k y k' yk); auto). subst i' j' k'.
  rewrite Q0. rewrite X in R1. injection R1 as <-. rewrite Y in R2. injection R2 as <-. rewrite Z in R3. injection R3 as <-. f_equal.
  unfold Rminus. rewrite !Rplus_opp_r. unfold Rdiv. rewrite !Rmult_0_l. ring.
Qed.
Lemma catch_node : catch_lrho rho x = x /\ catch_in tmp t = t /\ catch_in yes y = y.
Proof.
  pose proof (below_end rho dr i x E1 X BX) as XB. pose proof (below_end tmp dt j t E2 Y BY) as TB. pose proof (below_end yes dy k y E3 Z BZ) as YB.
  unfold catch_lrho, InvModel.catch_in. split; [|split].
  - destruct (Rltb_spec x (ax_min rho)); [lra|]. destruct (Rltb_spec (ax_max rho) x); [lra|reflexivity].
  - destruct (Rltb_spec t (ax_min tmp)); [lra|]. destruct (Rleb_spec (ax_max tmp) t); [lra|reflexivity].
  - destruct (Rltb_spec y (ax_min yes)); [lra|]. destruct (Rleb_spec (ax_max yes) y); [lra|reflexivity].
Qed.
End Nodes.

Lemma pow10_pos v : 0 < pow10 v.
Proof. apply exp_pos. Qed.
(** K times rho to the Gamma, in code units *)
Lemma poly_units lK G RU UU r : 0 < RU -> 0 < UU -> 0 < r ->
  pow10 lK / (UU / Rpower RU G) * Rpower (r / RU) G * UU = pow10 lK * Rpower r G.
Proof.
  intros A B C. assert (P : 0 < Rpower RU G) by apply exp_pos.
  assert (E : Rpower (r / RU) G * Rpower RU G = Rpower r G).
  { rewrite Rpower_mult_distr by (try lra; apply Rdiv_lt_0_compat; lra). f_equal. field. lra. }
  rewrite <- E. field. split; lra.
Qed.

Lemma pow10_add a b : pow10 (a + b) = pow10 a * pow10 b.
Proof. unfold pow10. rewrite <- exp_plus. f_equal. ring. Qed.
Lemma Rpower_pow10 x g : Rpower (pow10 x) g = pow10 (g * x).
Proof. unfold Rpower, pow10. rewrite ln_exp. f_equal. ring. Qed.

Section Poly.
Variables (rho tmp yes : axis) (dr dt dy : R).
Hypothesis E1 : even rho dr.
Hypothesis E2 : even tmp dt.
Hypothesis E3 : even yes dy.
Hypothesis T1 : TOL < dr.
Hypothesis T2 : TOL < dt.
Hypothesis T3 : TOL < dy.
Variables (lP gam : list R) (RU UU : R).
Hypothesis SP : length lP = (length rho * length tmp * length yes)%nat.
Hypothesis SG : length gam = (length rho * length tmp * length yes)%nat.
Hypothesis RP : 0 < RU.
Hypothesis UP : 0 < UU.
Lemma K_length : length (tab_poly_K rho lP gam) = (length rho * length tmp * length yes)%nat.
Proof. unfold tab_poly_K. rewrite map_length, seq_length. exact SP. Qed.
Lemma K_at i j k : (0 <= i < ax_n rho)%Z -> (0 <= j < ax_n tmp)%Z -> (0 <= k < ax_n yes)%Z ->
  exists x p g, rd rho i = Some x /\ rd lP (EOS_ELEM rho tmp i j k) = Some p /\ rd gam (EOS_ELEM rho tmp i j k) = Some g /\
    rd (tab_poly_K rho lP gam) (EOS_ELEM rho tmp i j k) = Some (pow10 (p - g * x)).
Proof.
  intros I J K. pose proof (size3 rho tmp yes lP SP) as Z1. pose proof (size3 rho tmp yes gam SG) as Z2.
  assert (B : (0 <= EOS_ELEM rho tmp i j k < ax_n rho * ax_n tmp * ax_n yes)%Z) by (unfold EOS_ELEM; apply elem_in; auto).
  destruct (rd_some rho i I) as (x & X). destruct (rd_some lP (EOS_ELEM rho tmp i j k)) as (p & P); [rewrite Z1; exact B|]. destruct (rd_some gam (EOS_ELEM rho tmp i j k)) as (g & G); [rewrite Z2; exact B|].
  exists x, p, g. split; [exact X|]. split; [exact P|]. split; [exact G|].
  unfold rd. destruct (Z.ltb_spec (EOS_ELEM rho tmp i j k) 0); [lia|]. unfold tab_poly_K.
  rewrite nth_error_map. set (e := Z.to_nat (EOS_ELEM rho tmp i j k)) in *.
  assert (EL : (e < length lP)%nat) by (unfold e; lia).
  rewrite (nth_error_nth' _ 0%nat) by (rewrite seq_length; exact EL). rewrite seq_nth by exact EL. cbn [option_map Nat.add]. f_equal. unfold poly_K_entry.
  assert (EM : (e mod length rho)%nat = Z.to_nat i).
  { apply Nat2Z.inj. rewrite Nat2Z.inj_mod. unfold e. rewrite !Z2Nat.id by lia. fold (ax_n rho). unfold EOS_ELEM. symmetry. apply (Z.mod_unique _ _ (k * ax_n tmp + j)); lia. }
  rewrite EM, (rd_nth rho i x X). unfold e. rewrite (rd_nth lP _ p P), (rd_nth gam _ g G). reflexivity.
Qed.
(** at a node: K rho^Gamma is the pressure of the table *)
Lemma poly_node i j k x t y : rd rho i = Some x -> rd tmp j = Some t -> rd yes k = Some y -> (i + 1 < ax_n rho)%Z -> (j + 1 < ax_n tmp)%Z -> (k + 1 < ax_n yes)%Z ->
  exists K g p, EOS_SC_get_polytrope rho tmp yes lP gam RU UU x t y = Some (K, g) /\ rd gam (EOS_ELEM rho tmp i j k) = Some g /\ rd lP (EOS_ELEM rho tmp i j k) = Some p /\
    K * Rpower (pow10 x / RU) g * UU = pow10 p.
Proof.
  intros X Y Z BX BY BZ. pose proof (rd_in _ _ _ X). pose proof (rd_in _ _ _ Y). pose proof (rd_in _ _ _ Z).
  destruct (K_at i j k) as (x' & p & g & X' & P & G & KK); [unfold ax_n; lia|unfold ax_n; lia|unfold ax_n; lia|]. rewrite X in X'. injection X' as <-.
  unfold EOS_SC_get_polytrope. destruct (catch_node rho tmp yes dr dt dy E1 E2 E3 i j k x t y X Y Z BX BY BZ) as (-> & -> & ->).
  rewrite (node_value rho tmp yes dr dt dy E1 E2 E3 T1 T2 T3 i j k x t y X Y Z BX BY BZ _ K_length), KK.
  rewrite (node_value rho tmp yes dr dt dy E1 E2 E3 T1 T2 T3 i j k x t y X Y Z BX BY BZ _ SG), G.
  eexists. exists g, p. split; [reflexivity|]. split; [reflexivity|]. split; [exact P|].
  rewrite poly_units by (auto; apply pow10_pos). rewrite Rpower_pow10, <- pow10_add. f_equal. ring.
Qed.
(** a polytropic gas, everywhere *)
Lemma poly_gas lK g lrho lT ye : tabulates (fun x _ _ => lK + g * x) rho tmp yes lP -> tabulates (fun _ _ _ => g) rho tmp yes gam -> lrho <> ax_max rho ->
  exists K, EOS_SC_get_polytrope rho tmp yes lP gam RU UU lrho lT ye = Some (K, g) /\ forall r, 0 < r -> K * Rpower r g * UU = pow10 lK * Rpower (r * RU) g.
Proof.
  intros FP FG N. unfold EOS_SC_get_polytrope.
  assert (NC : catch_lrho rho lrho <> ax_max rho).
  { pose proof (ax_lt rho dr E1). pose proof TOL_pos. unfold catch_lrho. destruct (Rltb_spec lrho (ax_min rho)); [lra|]. destruct (Rltb_spec (ax_max rho) lrho); [lra|exact N]. }
  assert (FK : tabulates (fun _ _ _ => pow10 lK) rho tmp yes (tab_poly_K rho lP gam)).
  { split; [apply K_length|]. intros i j k x y z X Y Z. destruct (K_at i j k (rd_in _ _ _ X) (rd_in _ _ _ Y) (rd_in _ _ _ Z)) as (x' & p & g' & X' & P & G & KK).
    rewrite X in X'. injection X' as <-. destruct FP as (_ & FP). destruct FG as (_ & FG). unfold EOS_ELEM, ax_n in *. rewrite (FP i j k x y z X Y Z) in P. rewrite (FG i j k x y z X Y Z) in G.
    injection P as <-. injection G as <-. rewrite KK. f_equal. f_equal. ring. }
  rewrite (interp_exact rho tmp yes dr dt dy E1 E2 E3 T1 T2 T3 (fun _ _ _ => pow10 lK) _ _ _ _ FK) by (auto; exists (pow10 lK), 0, 0, 0, 0, 0, 0, 0; intros; ring).
  rewrite (interp_exact rho tmp yes dr dt dy E1 E2 E3 T1 T2 T3 (fun _ _ _ => g) _ _ _ _ FG) by (auto; exists g, 0, 0, 0, 0, 0, 0, 0; intros; ring).
  eexists. split; [reflexivity|]. intros r RR. rewrite <- (poly_units lK g RU UU (r * RU)) by (auto; apply Rmult_lt_0_compat; auto). f_equal. f_equal. f_equal. field. lra.
Qed.
End Poly.

(** with OFFSET_U every entry of the table has positive energy per volume *)
Lemma shift_positive rho le es : forall e p x, nth_error le e = Some p -> nth_error rho (e mod length rho) = Some x -> 0 < pow10 x * le2e es p + u_shift rho le es.
Proof.
  intros e p x P X. unfold u_shift. set (l := map (u_entry rho le es) (seq 0 (length le))).
  assert (EL : (e < length le)%nat) by (apply nth_error_Some; congruence).
  assert (V : u_entry rho le es e = pow10 x * le2e es p).
  { unfold u_entry. rewrite (nth_error_nth _ _ 0 X), (nth_error_nth _ _ 0 P). reflexivity. }
  assert (I : In (pow10 x * le2e es p) l). { rewrite <- V. apply in_map, in_seq. lia. }
  assert (N : l <> []) by (intros H; rewrite H in I; destruct I). destruct (minmax_of l N) as (_ & _ & F). pose proof (proj1 (Forall_forall _ _) F _ I) as B. cbv beta in B.
  unfold tab_u_min. fold l. pose proof SMALL_pos. assert (0 < / 10 ^ 10) by (apply Rinv_0_lt_compat, pow_lt; lra). destruct (Rleb_spec (find_min l) 0) as [Q|Q].
  - assert (0 <= / 10 ^ 10 * (- find_min l)) by (apply Rmult_le_pos; lra). lra.
  - lra.
Qed.
