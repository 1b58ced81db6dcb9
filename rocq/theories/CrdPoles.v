(** The angle runs from pole to pole; the metric in code coordinates; inverse Jacobians. *)
From Coq Require Import Reals Bool List Lia Lra.
From Coquelicot Require Import Coquelicot.
From Verif Require Import RLib FluxModel GeomModel GeomSpec GeomProofs SpaceProofs FloorProofs GeomProps CrdModel CrdSpec CrdProofs.
Open Scope R_scope.

Lemma even_neg n y : Nat.Even n -> (- y) ^ n = y ^ n.
Proof. intros (k & ->). rewrite !pow_mult. f_equal. ring. Qed.
Lemma even_pos n y : Nat.Even n -> 0 <= y ^ n.
Proof. intros (k & ->). rewrite pow_mult. apply pow_le, pow2_ge_0. Qed.

Section Poles.
Variables (hslope poly_xt : R) (poly_alpha : nat) (mks_smooth startx1 : R) (derefine : bool).
Hypothesis XT : 0 < poly_xt.
Hypothesis EV : Nat.Even poly_alpha.
Notation thG := (thG_of_X hslope).
Notation thJ := (thJ_of_X poly_xt poly_alpha).
Notation th := (th_of_X hslope poly_xt poly_alpha mks_smooth startx1 derefine).
Notation d2 := (dthdX2 hslope poly_xt poly_alpha mks_smooth startx1 derefine).
Notation pn := (poly_norm poly_xt poly_alpha).

Lemma pn_eq : pn * (1 + (1 / poly_xt) ^ poly_alpha / (INR poly_alpha + 1)) = PI / 2.
Proof.
  pose proof (den poly_xt poly_alpha XT) as D. pose proof (n1 poly_alpha) as N. pose proof (xtn poly_xt poly_alpha XT) as P.
  unfold poly_norm. replace (1 / poly_xt) with (/ poly_xt) by (field; lra). rewrite pow_inv. 
  set (q := poly_xt ^ poly_alpha) in *. set (m := INR poly_alpha + 1) in *. clearbody q m.
  assert (m * q + 1 <> 0) by (pose proof (Rmult_lt_0_compat _ _ N P); lra). field. repeat split; lra.
Qed.
Lemma thJ_sym X Y : Y 2%nat = 1 - X 2%nat -> thJ Y = PI - thJ X.
Proof.
  intros E. unfold thJ_of_X, y_of_X. rewrite E. set (y := 2 * X 2%nat - 1). replace (2 * (1 - X 2%nat) - 1) with (- y) by (unfold y; ring).
  replace (- y / poly_xt) with (- (y / poly_xt)) by (field; lra). rewrite even_neg by auto. field. pose proof (n1 poly_alpha). lra.
Qed.
Lemma thG_sym X Y : Y 2%nat = 1 - X 2%nat -> thG Y = PI - thG X.
Proof.
  intros E. unfold thG_of_X. rewrite E.
  assert (S : sin (2 * PI * (1 - X 2%nat)) = - sin (2 * PI * X 2%nat)).
  { rewrite <- sin_neg, <- (sin_period (- (2 * PI * X 2%nat)) 1). f_equal. cbn [INR]. ring. }
  rewrite S. ring.
Qed.
Lemma th_sym X Y : Y 1%nat = X 1%nat -> Y 2%nat = 1 - X 2%nat -> th Y = PI - th X.
Proof. intros E1 E. unfold th_of_X. rewrite E1, (thG_sym X Y E), (thJ_sym X Y E). destruct derefine; ring. Qed.
Lemma th_south X : X 2%nat = 1 -> th X = PI.
Proof.
  intros E. unfold th_of_X. assert (A : thG X = PI) by (unfold thG_of_X; rewrite E, !Rmult_1_r, sin_2PI; ring).
  assert (B : thJ X = PI).
  { unfold thJ_of_X, y_of_X. rewrite E. replace (2 * 1 - 1) with 1 by ring. pose proof pn_eq. lra. }
  rewrite A, B. destruct derefine; ring.
Qed.
Lemma th_north X : X 2%nat = 0 -> th X = 0.
Proof.
  intros E. pose (Y := put X 2 1). assert (S : th Y = PI - th X) by (apply th_sym; [reflexivity|unfold Y, put; cbn [Nat.eqb]; lra]).
  rewrite (th_south Y) in S by reflexivity. lra.
Qed.

Hypothesis HS : 0 < hslope < 2.
Hypothesis MS : 0 <= mks_smooth.
Lemma dG_pos X : 0 < dthGdX2 hslope X.
Proof.
  unfold dthGdX2. pose proof PI_RGT_0 as P. pose proof (COS_bound (2 * PI * X 2%nat)) as (L & U). set (c := cos _) in *. clearbody c.
  assert (-1 < (1 - hslope) * c) by (destruct (Rle_dec hslope 1); nra). nra.
Qed.
Lemma dJ_pos X : 0 < dthJdX2 poly_xt poly_alpha X.
Proof. unfold dthJdX2. pose proof (pn_pos poly_xt poly_alpha XT). pose proof (even_pos poly_alpha (y_of_X X / poly_xt) EV). nra. Qed.
Lemma d2_pos X : (derefine = true -> startx1 <= X 1%nat) -> 0 < d2 X.
Proof.
  intros S. unfold dthdX2. pose proof (dG_pos X). pose proof (dJ_pos X). destruct derefine; auto.
  assert (W : 0 < exp (mks_smooth * (startx1 - X 1%nat)) <= 1).
  { split; [apply exp_pos|]. rewrite <- exp_0. destruct (Req_dec (mks_smooth * (startx1 - X 1%nat)) 0) as [->|N]; [lra|].
    left. apply exp_increasing. specialize (S eq_refl). nra. }
  nra.
Qed.
Lemma th_inc X Y : (derefine = true -> startx1 <= X 1%nat) -> Y 1%nat = X 1%nat -> X 2%nat < Y 2%nat -> th X < th Y.
Proof.
  intros S E L.
  assert (I : forall x y, x < y -> th (put X 2 x) < th (put X 2 y)).
  { intros x y XY. destruct (MVT_gen (fun x => th (put X 2 x)) x y (fun x => d2 (put X 2 x))) as (c & C & M).
    - intros c _. apply th_2. exact XT.
    - intros c _. apply derivable_continuous_pt. exists (d2 (put X 2 c)). apply is_derive_Reals, th_2. exact XT.
    - assert (0 < d2 (put X 2 c)) by (apply d2_pos; exact S). nra. }
  specialize (I _ _ L).
  assert (A : th (put X 2 (X 2%nat)) = th X) by reflexivity.
  assert (B : th (put X 2 (Y 2%nat)) = th Y) by (unfold th_of_X, thJ_of_X, thG_of_X, y_of_X, put; cbn [Nat.eqb]; rewrite E; reflexivity).
  rewrite A, B in I. exact I.
Qed.
Lemma th_range X : (derefine = true -> startx1 <= X 1%nat) -> (0 < X 2%nat < 1 <-> 0 < th X < PI).
Proof.
  intros S. pose (N := put X 2 0). pose (T := put X 2 1).
  assert (EN : th N = 0) by (apply th_north; reflexivity). assert (ET : th T = PI) by (apply th_south; reflexivity).
  split.
  - intros (A & B). rewrite <- EN, <- ET. split; apply th_inc; auto.
  - intros (A & B). rewrite <- EN in A. rewrite <- ET in B. split.
    + destruct (Rlt_dec 0 (X 2%nat)) as [|Q]; auto. destruct (Req_dec (X 2%nat) 0) as [Z|Z]; [rewrite (th_north X Z), EN in A; lra|].
      assert (th X < th N) by (apply th_inc; auto; change (N 2%nat) with 0; lra). lra.
    + destruct (Rlt_dec (X 2%nat) 1) as [|Q]; auto. destruct (Req_dec (X 2%nat) 1) as [Z|Z]; [rewrite (th_south X Z), ET in B; lra|].
      assert (th T < th X) by (apply th_inc; auto; change (T 2%nat) with 1; lra). lra.
Qed.

(** the metric the code computes *)
Notation gc := (set_gcov hslope poly_xt poly_alpha mks_smooth startx1 derefine).
Notation blth := (bl_th hslope poly_xt poly_alpha mks_smooth startx1 derefine).
Lemma fix_in t : 0 <= t <= PI -> 0 < sing_fix t < PI \/ PI < sing_fix t < PI + 1.
Proof.
  intros T. pose proof PI2_3_2 as P2. assert (P : 3 < PI) by lra. assert (S : 0 < SINGSMALL < 1).
  { unfold SINGSMALL. split; [apply Rinv_0_lt_compat; lra|]. apply Rmult_lt_reg_l with (10 ^ 20); [lra|]. rewrite Rinv_r by lra. lra. }
  unfold sing_fix. set (s := SINGSMALL) in *. clearbody s.
  rcases;
  repeat match goal with H : Rabs _ < _ |- _ => apply Rabs_def2 in H end;
  repeat match goal with H : ~ Rabs ?u < _ |- _ => unfold Rabs in H; destruct (Rcase_abs u) end; try (exfalso; lra); try (left; lra); right; lra.
Qed.
Lemma code_metric a X : 0 <= X 2%nat <= 1 -> (derefine = true -> startx1 <= X 1%nat) ->
  exists al beta, spacetime (gc a X) al beta.
Proof.
  intros R S. assert (T : 0 <= th X <= PI).
  { destruct (Req_dec (X 2%nat) 0) as [Z|Z]; [rewrite (th_north X Z); pose proof PI_RGT_0; lra|].
    destruct (Req_dec (X 2%nat) 1) as [Z'|Z']; [rewrite (th_south X Z'); pose proof PI_RGT_0; lra|].
    pose proof (proj1 (th_range X S)). lra. }
  pose proof (fix_in _ T) as B. change (sing_fix (th X)) with (blth X) in B.
  assert (SN : sin (blth X) <> 0) by (destruct B as [B|B]; [pose proof (sin_gt_0 _ (proj1 B) (proj2 B))|pose proof PI2_3_2; pose proof (sin_lt_0 _ (proj1 B) ltac:(lra))]; lra).
  assert (RP : 0 < r_of_X X) by apply exp_pos.
  pose proof (C71_kerr_schild a (r_of_X X) (blth X) RP SN) as K. cbv zeta in K.
  set (x := 2 * r_of_X X / (r_of_X X * r_of_X X + a * a * cos (blth X) * cos (blth X))) in *.
  pose proof (d2_pos X S) as D. set (D2 := d2 X) in *. assert (DR : 0 < drdX1 X) by apply exp_pos. set (DR1 := drdX1 X) in *.
  set (D1 := dthdX1 hslope poly_xt poly_alpha mks_smooth startx1 derefine X).
  exists (sqrt (/ (1 + x))), (fun i => match i with 1%nat => x / (1 + x) / DR1 | 2%nat => - D1 * (x / (1 + x) / DR1) / D2 | _ => 0 end).
  unfold set_gcov. apply (C71_code_coordinates _ _ _ _ _ K).
  - split; [reflexivity|]. split.
    + intros i I. destruct i as [|[|[|[|i]]]]; try lia; split; reflexivity.
    + intros p Z. assert (Z1 := Z 1%nat ltac:(lia)). assert (Z2 := Z 2%nat ltac:(lia)). assert (Z3 := Z 3%nat ltac:(lia)).
      unfold spatial_image in *. cbn [h2bl_con] in Z1, Z2, Z3. fold DR1 in Z1. fold D1 D2 in Z2.
      assert (P1 : p 1%nat = 0) by (apply Rmult_eq_reg_l with DR1; lra). rewrite P1 in Z2. assert (P2 : p 2%nat = 0) by (apply Rmult_eq_reg_l with D2; lra).
      intros i I. destruct i as [|[|[|[|i]]]]; try lia; auto. lra.
  - intros i I. unfold spatial_image. destruct i as [|[|[|[|i]]]]; try lia; cbn [h2bl_con]; fold DR1 D1 D2; [| |ring].
    + set (w := x / (1 + x)). field. lra.
    + set (w := x / (1 + x)). field. lra.
Qed.
End Poles.
