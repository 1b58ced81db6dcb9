(** Synchrotron radiation: the tables and the integrand of the angle average. *)
From Coq Require Import Reals Bool ZArith List Lia Lra.
From Coquelicot Require Import Coquelicot.
From Verif Require Import RLib XLib IntLib EmisModel EmisSpec EmisBrem EmisSynch.
Open Scope R_scope.

(** ** Lookups *)
Section Lookup.
Variable n : Z.
Hypothesis PN : (0 < n)%Z.
Variables lo hi : R.
Hypotheses (L0 : 0 < lo) (LH : lo < hi).
Let d := ln (hi / lo) / IZR n.
Lemma n_pos : 0 < IZR n.
Proof using PN. apply (IZR_lt 0). exact PN. Qed.
Lemma ln_ratio x : 0 < x -> ln (x / lo) = ln x - ln lo.
Proof using L0. intros X. unfold Rdiv. rewrite ln_mult by (try assumption; apply Rinv_0_lt_compat; assumption). rewrite ln_Rinv by assumption. ring. Qed.
Lemma d_pos : 0 < d.
Proof using PN L0 LH. unfold d. apply Rdiv_lt_0_compat; [|apply n_pos]. rewrite ln_ratio by lra. pose proof (ln_increasing lo hi L0 LH). lra. Qed.
Lemma d_hi : ln hi - ln lo = IZR n * d.
Proof using PN L0 LH. unfold d. rewrite ln_ratio by lra. pose proof n_pos. field. lra. Qed.
Lemma interp_in (table : list R) x : Z.of_nat (length table) = (n + 1)%Z -> lo <= x < hi ->
  exists i a b w, rd table i = Some a /\ rd table (i + 1) = Some b /\ (0 <= i < n)%Z /\ 0 <= w < 1 /\
  ln x = ln lo + (IZR i + w) * d /\ interp table lo d x = Some (exp ((1 - w) * a + w * b)).
Proof using PN L0 LH.
  intros LEN X. pose proof d_pos as D. pose proof d_hi as DH. unfold interp. cbv zeta. set (q := (ln x - ln lo) / d).
  assert (Q : ln x = ln lo + q * d) by (unfold q; field; lra).
  assert (Q0 : 0 <= q) by (apply Rmult_le_pos; [|left; apply Rinv_0_lt_compat, D]; destruct (proj1 X) as [H|H]; [pose proof (ln_increasing lo x L0 H); lra|subst x; lra]).
  assert (QN : q < IZR n) by (apply (Rmult_lt_reg_r d); [exact D|]; rewrite <- DH; pose proof (ln_increasing x hi ltac:(lra) ltac:(lra)); lra).
  rewrite truncZ_pos by exact Q0. pose proof (Int_part_bounds q) as IB. set (i := Int_part q) in *.
  assert (I0 : (0 <= i < n)%Z). { split; [|apply lt_IZR; lra]. enough (-1 < i)%Z by lia. apply lt_IZR. lra. }
  destruct (rd_some table i ltac:(lia)) as (a & A). destruct (rd_some table (i + 1) ltac:(lia)) as (b & B).
  exists i, a, b, (q - IZR i). rewrite A, B. repeat split; try lia; lra.
Qed.
Lemma interp_node (table : list R) i a : Z.of_nat (length table) = (n + 1)%Z -> (0 <= i < n)%Z -> rd table i = Some a ->
  interp table lo d (exp (IZR i * d + ln lo)) = Some (exp a).
Proof using PN L0 LH.
  intros LEN I0 A. pose proof d_pos as D. unfold interp. cbv zeta. rewrite ln_exp. replace ((IZR i * d + ln lo - ln lo) / d) with (IZR i) by (field; lra).
  assert (P : 0 <= IZR i) by (apply (IZR_le 0); lia). rewrite (truncZ_unique (IZR i) i) by lra. destruct (rd_some table (i + 1) ltac:(lia)) as (b & B). rewrite A, B. do 2 f_equal. ring.
Qed.
Lemma interp_end (table : list R) : Z.of_nat (length table) = (n + 1)%Z -> interp table lo d hi = None.
Proof using PN L0 LH.
  intros LEN. pose proof d_pos as D. unfold interp. cbv zeta. rewrite d_hi. replace (IZR n * d / d) with (IZR n) by (field; lra). pose proof n_pos.
  rewrite (truncZ_unique (IZR n) n) by lra. rewrite (rd_none table (n + 1)) by lia. destruct (rd table n); reflexivity.
Qed.
End Lookup.
Lemma convex a b w : 0 <= w < 1 -> Rmin (exp a) (exp b) <= exp ((1 - w) * a + w * b) <= Rmax (exp a) (exp b).
Proof.
  intros W. assert (M : forall p q, p <= q -> exp p <= exp q) by (intros p q [H| ->]; [left; apply exp_increasing, H|right; reflexivity]).
  assert (wd : forall e, 0 <= e -> 0 <= w * e) by (intros; apply Rmult_le_pos; lra). assert (wd1 : forall e, 0 <= e -> 0 <= (1 - w) * e) by (intros; apply Rmult_le_pos; lra).
  destruct (Rle_dec a b) as [H|H].
  - pose proof (wd (b - a) ltac:(lra)). pose proof (wd1 (b - a) ltac:(lra)). rewrite Rmin_left, Rmax_right by (apply M, H). split; apply M; lra.
  - pose proof (wd (a - b) ltac:(lra)). pose proof (wd1 (a - b) ltac:(lra)). rewrite Rmin_right, Rmax_left by (apply M; lra). split; apply M; lra.
Qed.
Lemma K2_in n K2 th : (0 < n)%Z -> Z.of_nat (length K2) = (n + 1)%Z -> THETAE_MIN <= th -> th <> TMAX ->
  exists k, K2_eval_synch n K2 th = Some k /\ 0 < k /\
  (TMAX < th -> k = 2 * th ^ 2) /\
  (th < TMAX -> exists i a b, (0 <= i < n)%Z /\ rd K2 i = Some a /\ rd K2 (i + 1) = Some b /\ Rmin (exp a) (exp b) <= k <= Rmax (exp a) (exp b)).
Proof.
  intros N LEN H1 H2. unfold K2_eval_synch. rewrite Rltb_false by exact H1. unfold THETAE_MIN in H1. destruct (Rltb_spec TMAX th) as [H|H].
  - eexists. split; [reflexivity|]. split; [repeat first [lra | apply Rmult_lt_0_compat]|]. split; [intros _; ring|lra].
  - assert (th < TMAX) by lra. unfold linear_interp_K2_synch, dl_T.
    destruct (interp_in n N TMIN TMAX ltac:(unfold TMIN, THETAE_MIN; lra) ltac:(unfold TMIN, THETAE_MIN, TMAX; lra) K2 th LEN ltac:(unfold TMIN, THETAE_MIN; lra)) as (i & a & b & w & A & B & I & W & _ & E).
    rewrite E. eexists. split; [reflexivity|]. split; [apply exp_pos|]. split; [lra|]. intros _. exists i, a, b. pose proof (convex a b w W). auto.
Qed.
Lemma K2_node n K2 i a : (0 < n)%Z -> Z.of_nat (length K2) = (n + 1)%Z -> (0 <= i < n)%Z -> rd K2 i = Some a ->
  K2_eval_synch n K2 (exp (IZR i * dl_T n + ln TMIN)) = Some (exp a).
Proof.
  intros N LEN I A. unfold K2_eval_synch. assert (T1 : 0 < TMIN) by (unfold TMIN, THETAE_MIN; lra). assert (T2 : TMIN < TMAX) by (unfold TMIN, THETAE_MIN, TMAX; lra).
  pose proof (d_pos n N TMIN TMAX T1 T2) as D. pose proof (d_hi n N TMIN TMAX T1 T2) as DH. fold (dl_T n) in D, DH.
  assert (P : 0 <= IZR i) by (apply (IZR_le 0); lia). assert (P2 : IZR i <= IZR n) by (apply IZR_le; lia). assert (0 <= IZR i * dl_T n) by (apply Rmult_le_pos; lra). assert (IZR i * dl_T n <= IZR n * dl_T n) by (apply Rmult_le_compat_r; lra).
  assert (M : forall p q, p <= q -> exp p <= exp q) by (intros p q [H9| ->]; [left; apply exp_increasing, H9|right; reflexivity]).
  rewrite !Rltb_false.
  - exact (interp_node n N TMIN TMAX T1 T2 K2 i a LEN I A).
  - rewrite <- (exp_ln TMAX) by lra. apply M. lra.
  - change THETAE_MIN with TMIN. rewrite <- (exp_ln TMIN) at 1 by lra. apply M. lra.
Qed.
Lemma K2_end n K2 : (0 < n)%Z -> Z.of_nat (length K2) = (n + 1)%Z -> K2_eval_synch n K2 TMAX = None.
Proof.
  intros N LEN. unfold K2_eval_synch. rewrite !Rltb_false by (unfold THETAE_MIN, TMAX; lra). unfold linear_interp_K2_synch, dl_T. apply interp_end; try assumption; unfold TMIN, THETAE_MIN, TMAX; lra.
Qed.
Lemma F_in n F K : (0 < n)%Z -> Z.of_nat (length F) = (n + 1)%Z -> K <> KMAX ->
  exists f, linear_interp_F_synch n F K = Some f /\ (K < KMIN \/ KMAX < K -> f = 0) /\
  (KMIN <= K < KMAX -> exists i a b, (0 <= i < n)%Z /\ rd F i = Some a /\ rd F (i + 1) = Some b /\ Rmin (exp a) (exp b) <= f <= Rmax (exp a) (exp b)).
Proof.
  intros N LEN H2. unfold linear_interp_F_synch. destruct (Rltb_spec K KMIN) as [H|H]; [|destruct (Rltb_spec KMAX K) as [H'|H']]; cbn [orb].
  - exists 0. repeat split; lra.
  - exists 0. repeat split; lra.
  - unfold dlK. destruct (interp_in n N KMIN KMAX ltac:(unfold KMIN; lra) ltac:(unfold KMIN, KMAX; lra) F K LEN ltac:(lra)) as (i & a & b & w & A & B & I & W & _ & E).
    rewrite E. eexists. split; [reflexivity|]. split; [lra|]. intros _. exists i, a, b. pose proof (convex a b w W). auto.
Qed.
Lemma F_end n F : (0 < n)%Z -> Z.of_nat (length F) = (n + 1)%Z -> linear_interp_F_synch n F KMAX = None.
Proof.
  intros N LEN. unfold linear_interp_F_synch. rewrite !Rltb_false by (unfold KMIN, KMAX; lra). cbn [orb]. unfold dlK. apply interp_end; try assumption; unfold KMIN, KMAX; lra.
Qed.

(** ** The angle average *)
Lemma shape6 c x : 0 < x -> (sqrt x + c * cpow x (1 / 6)) ^ 2 * exp (- cpow x (1 / 3)) = let y := Rpower x (1 / 3) in y * (y + c) ^ 2 * exp (- y).
Proof.
  intros X. cbv zeta. unfold cpow. rewrite !Rltb_true by exact X. rewrite <- (shape c x X). f_equal.
  replace (Rpower x (1 / 6)) with (sqrt (Rpower x (1 / 3))); [ring|]. rewrite <- Rpower_sqrt by apply exp_pos. rewrite Rpower_mult. f_equal. field.
Qed.
(** the shape never exceeds 144 exp (- y / 4) *)
Lemma quarter y : 0 <= y -> y * exp (- (y / 4)) <= 4 /\ (y + 2) * exp (- (y / 4)) <= 6.
Proof.
  intros Y. assert (E : 1 + y / 4 <= exp (y / 4)) by (destruct Y as [Y|<-]; [left; apply exp_ineq1; lra|replace (0 / 4) with 0 by field; rewrite exp_0; lra]).
  pose proof (exp_pos (- (y / 4))) as P. assert (M : exp (y / 4) * exp (- (y / 4)) = 1) by (rewrite <- exp_plus, Rplus_opp_r; apply exp_0).
  split; [apply (Rle_trans _ (4 * exp (y / 4) * exp (- (y / 4))))|apply (Rle_trans _ (6 * exp (y / 4) * exp (- (y / 4))))]; try (apply Rmult_le_compat_r; lra); lra.
Qed.
Lemma shape_bound y : 0 <= y -> 0 <= y * (y + CST) ^ 2 * exp (- y) <= 144 * exp (- (y / 4)).
Proof.
  intros Y. pose proof CST_pos as C. assert (C2 : CST <= 2) by (unfold CST; lra). pose proof (exp_pos (- y)). destruct (quarter y Y) as (A & B). pose proof (exp_pos (- (y / 4))) as P. set (e := exp (- (y / 4))) in *.
  assert (E : exp (- y) = e * e * e * e) by (unfold e; rewrite <- !exp_plus; f_equal; field). pose proof (pow2_ge_0 (y + CST)) as S.
  split; [apply Rmult_le_pos; [apply Rmult_le_pos; assumption|lra]|]. rewrite E. replace (y * (y + CST) ^ 2 * (e * e * e * e)) with ((y * e) * (((y + CST) * e) * ((y + CST) * e)) * e) by ring. apply Rmult_le_compat_r; [lra|].
  assert (B2 : 0 <= (y + CST) * e <= 6) by (split; [apply Rmult_le_pos; lra|apply (Rle_trans _ ((y + 2) * e)); [apply Rmult_le_compat_r; lra|exact B]]).
  replace 144 with (4 * (6 * 6)) by ring. apply Rmult_le_compat; try lra; [apply Rmult_le_pos; lra|apply Rmult_le_pos; lra|apply Rmult_le_compat; lra].
Qed.
Lemma exp146 : exp (- (584 / 4)) <= / 2 ^ 146.
Proof.
  replace (584 / 4) with 146 by field. rewrite exp_Ropp. apply Rinv_le_contravar; [apply pow_lt; lra|].
  apply (Rle_trans _ (exp 1 ^ 146)); [apply pow_incr; split; [lra|]; pose proof (exp_ineq1 1 ltac:(lra)); lra|].
  rewrite <- Rpower_pow by apply exp_pos. unfold Rpower. rewrite ln_exp, Rmult_1_r. right. f_equal. rewrite INR_IZR_INZ. reflexivity.
Qed.
Lemma shape_far x : 2 * 10 ^ 8 < x -> let y := Rpower x (1 / 3) in y * (y + CST) ^ 2 * exp (- y) <= / 10 ^ 40.
Proof.
  intros X y. assert (Y : 584 <= y). { apply cube_le; [lra|left; apply cbrt_pos|]. unfold y. rewrite cbrt_cube by lra. lra. }
  destruct (shape_bound y ltac:(lra)) as (_ & B). apply (Rle_trans _ _ _ B). assert (exp (- (y / 4)) <= exp (- (584 / 4))) by (destruct Y as [Y|<-]; [left; apply exp_increasing; lra|right; reflexivity]).
  pose proof exp146. assert (144 * / 2 ^ 146 <= / 10 ^ 40) by lra. lra.
Qed.
Section Sphere.
Variables EE CL ME : R.
Hypotheses (PE : 0 < EE) (PC : 0 < CL) (PM : 0 < ME).
Lemma sphere k2 nu Ne th B theta : 0 < th -> 0 < B -> 0 < nu -> 0 < k2 -> 0 <= Ne -> 0 < theta < PI ->
  let K := KFAC EE CL ME * nu / (B * th * th) in
  let unit := Jnu_synch_of EE CL ME k2 1 Ne th B in
  Rabs (sin theta * jnu_synch_of EE CL ME k2 nu Ne th B theta - Jnu_synch_of EE CL ME k2 (jnu_integrand_synch K theta) Ne th B) <= / 10 ^ 40 * unit.
Proof using PE PC PM.
  intros T B0 N K0 NE A. cbv zeta. pose proof PI_RGT_0 as P. pose proof (nus_pos EE CL ME PE PC PM th B theta T B0 A) as S. assert (SN : 0 < sin theta) by (apply sin_gt_0; lra). destruct (SIN_bound theta) as (_ & SN1).
  set (s := nu_s EE CL ME th B theta) in *. set (K := KFAC EE CL ME * nu / (B * th * th)).
  assert (KX : K / sin theta = nu / s) by (unfold K, KFAC, s, nu_s; cbv zeta; field; repeat split; lra).
  assert (X : 0 < nu / s) by (apply Rdiv_lt_0_compat; assumption).
  set (u := Jnu_synch_of EE CL ME k2 1 Ne th B).
  assert (LIN : forall F, Jnu_synch_of EE CL ME k2 F Ne th B = u * F) by (intros F; unfold u, Jnu_synch_of; cbv zeta; ring).
  assert (U0 : 0 <= u).
  { unfold u, Jnu_synch_of. cbv zeta. rewrite Rmult_1_r. pose proof (sqrt_pos 2). assert (0 < EE * B / (2 * PI * ME * CL)) by (apply Rdiv_lt_0_compat; repeat first [assumption | lra | apply Rmult_lt_0_compat]).
    apply Rmult_le_pos; [repeat first [assumption | lra | apply Rmult_le_pos]|left; apply Rinv_0_lt_compat; repeat first [assumption | lra | apply Rmult_lt_0_compat]]. }
  assert (PR : pre EE CL k2 Ne s = u * sin theta) by (unfold pre, u, Jnu_synch_of, s, nu_s; cbv zeta; field; repeat split; lra).
  set (g := let y := Rpower (nu / s) (1 / 3) in y * (y + CST) ^ 2 * exp (- y)).
  destruct (shape_bound (Rpower (nu / s) (1 / 3)) ltac:(left; apply cbrt_pos)) as (G0 & G1). fold g in G0, G1.
  assert (G2 : g <= 144) by (apply (Rle_trans _ _ _ G1); pose proof (exp_le1 (Rpower (nu / s) (1 / 3) / 4) ltac:(pose proof (cbrt_pos (nu / s)); lra)); lra).
  assert (GF : 2 * 10 ^ 8 < nu / s -> g <= / 10 ^ 40) by (intros H; exact (shape_far (nu / s) H)).
  assert (LEFT : sin theta * jnu_synch_of EE CL ME k2 nu Ne th B theta = u * (sin theta * sin theta * (if Rltb (10 ^ 12 * s) nu then 0 else g))).
  { destruct (Rltb_spec (10 ^ 12 * s) nu) as [H|H].
    - rewrite jnu_above by exact H. ring.
    - rewrite (jnu_below EE CL ME PE PC PM) by (try assumption; fold s; lra). fold s. rewrite PR. unfold spec, g. cbv zeta. ring. }
  assert (RIGHT : jnu_integrand_synch K theta = if Rltb (sin theta) (/ 10 ^ 150) || Rltb (2 * 10 ^ 8) (nu / s) then 0 else sin theta * sin theta * g).
  { unfold jnu_integrand_synch. cbv zeta. rewrite KX. destruct (_ || _)%bool; [reflexivity|]. rewrite Rmult_assoc, (shape6 CST (nu / s) X). reflexivity. }
  rewrite LEFT, LIN, RIGHT. rewrite <- Rmult_minus_distr_l, Rabs_mult, (Rabs_pos_eq u) by exact U0. rewrite (Rmult_comm _ u). apply Rmult_le_compat_l; [exact U0|].
  assert (SS : 0 < sin theta * sin theta <= 1). { split; [apply Rmult_lt_0_compat; assumption|]. rewrite <- (Rmult_1_r 1). apply Rmult_le_compat; lra. }
  clearbody g u. pose proof (ten 40) as T40. clear LIN PR LEFT RIGHT.
  assert (SG : 0 <= sin theta * sin theta * g) by (apply Rmult_le_pos; lra).
  destruct (Rltb_spec (10 ^ 12 * s) nu) as [H|H].
  - assert (Rltb (2 * 10 ^ 8) (nu / s) = true) as -> by (apply Rltb_true; apply (Rmult_lt_reg_r s); [exact S|]; replace (nu / s * s) with nu by (field; lra); lra).
    rewrite orb_true_r. replace (sin theta * sin theta * 0 - 0) with 0 by ring. rewrite Rabs_R0. lra.
  - destruct (Rltb_spec (sin theta) (/ 10 ^ 150)) as [H1|H1]; cbn [orb].
    + rewrite Rminus_0_r, Rabs_pos_eq by exact SG. apply (Rle_trans _ (/ 10 ^ 150 * / 10 ^ 150 * 144)).
      * apply Rmult_le_compat; try lra. apply Rmult_le_compat; lra.
      * lra.
    + destruct (Rltb_spec (2 * 10 ^ 8) (nu / s)) as [H2|H2].
      * rewrite Rminus_0_r, Rabs_pos_eq by exact SG. rewrite <- (Rmult_1_l (/ 10 ^ 40)). pose proof (GF H2). apply Rmult_le_compat; lra.
      * unfold Rminus. rewrite Rplus_opp_r, Rabs_R0. lra.
Qed.
End Sphere.
