(** Jacobians of the code coordinates. *)
From Coq Require Import Reals Bool List Lia Lra.
From Coquelicot Require Import Coquelicot.
From Verif Require Import RLib FluxModel GeomModel GeomSpec GeomProofs SpaceProofs FloorProofs CrdModel CrdSpec.
Open Scope R_scope.

Section Jac.
Variables (hslope poly_xt : R) (poly_alpha : nat) (mks_smooth startx1 : R) (derefine : bool).
Hypothesis XT : 0 < poly_xt.
Notation thG := (thG_of_X hslope).
Notation thJ := (thJ_of_X poly_xt poly_alpha).
Notation th := (th_of_X hslope poly_xt poly_alpha mks_smooth startx1 derefine).
Notation d1 := (dthdX1 hslope poly_xt poly_alpha mks_smooth startx1 derefine).
Notation d2 := (dthdX2 hslope poly_xt poly_alpha mks_smooth startx1 derefine).
Notation pn := (poly_norm poly_xt poly_alpha).

Lemma n1 : 0 < INR poly_alpha + 1. Proof. pose proof (pos_INR poly_alpha). lra. Qed.
Lemma xtn : 0 < poly_xt ^ poly_alpha. Proof. apply pow_lt, XT. Qed.
Lemma den : 0 < 1 + 1 / (INR poly_alpha + 1) * 1 / poly_xt ^ poly_alpha.
Proof.
  pose proof n1. pose proof xtn.
  assert (0 < 1 / (INR poly_alpha + 1) * 1 / poly_xt ^ poly_alpha) by (apply Rdiv_lt_0_compat; [|auto]; rewrite Rmult_1_r; apply Rdiv_lt_0_compat; lra). lra.
Qed.
Lemma pn_pos : 0 < pn.
Proof. unfold poly_norm. apply Rdiv_lt_0_compat; [pose proof PI_RGT_0; lra|exact den]. Qed.

Lemma th_1 X x : is_derive (fun x => th (put X 1 x)) x (d1 (put X 1 x)).
Proof.
  assert (EG : forall x, thG (put X 1 x) = thG X) by reflexivity. assert (EJ : forall x, thJ (put X 1 x) = thJ X) by reflexivity.
  unfold th_of_X, dthdX1. rewrite EG, EJ. destruct derefine.
  - apply (is_derive_ext (fun x => thG X + exp (mks_smooth * (startx1 - x)) * (thJ X - thG X))); [intros t; rewrite EG, EJ; reflexivity|].
    change (put X 1 x 1%nat) with x. generalize (thG X) (thJ X). intros g j. auto_derive; [auto|]. change (startx1 + - x) with (startx1 - x). ring.
  - apply (is_derive_ext (fun _ => thG X)); [intros t; rewrite EG; reflexivity|exact (is_derive_const (thG X) x)].
Qed.
Lemma core_J c n x : is_derive (fun x => c * (2 * x - 1) * (1 + ((2 * x - 1) / poly_xt) ^ n / (INR n + 1)) + / 2 * PI) x (c * (1 + ((2 * x - 1) / poly_xt) ^ n) * 2).
Proof.
  assert (N : INR n + 1 <> 0) by (pose proof (pos_INR n); lra). auto_derive; [auto|].
  destruct n as [|n].
  - cbn [INR Nat.pred pow]. field. lra.
  - change (Nat.pred (S n)) with n. cbn [pow]. set (m := INR (S n)) in *. set (q := ((2 * x - 1) * / poly_xt)).
    replace ((2 * x + - (1)) * / poly_xt) with q by (unfold q; ring). replace ((2 * x - 1) / poly_xt) with q by (unfold q, Rdiv; ring).
    set (Q := q ^ n). clearbody Q m. unfold q. field. lra.
Qed.
Lemma thG_2 X x : is_derive (fun x => thG (put X 2 x)) x (dthGdX2 hslope (put X 2 x)).
Proof. unfold thG_of_X, dthGdX2, put. cbn [Nat.eqb]. auto_derive; [auto|field]. Qed.
Lemma thJ_2 X x : is_derive (fun x => thJ (put X 2 x)) x (dthJdX2 poly_xt poly_alpha (put X 2 x)).
Proof. unfold thJ_of_X, dthJdX2, y_of_X, put. cbn [Nat.eqb]. apply core_J. Qed.
Lemma th_2 X x : is_derive (fun x => th (put X 2 x)) x (d2 (put X 2 x)).
Proof.
  unfold th_of_X, dthdX2. destruct derefine; [|apply thG_2].
  assert (E : forall x, put X 2 x 1%nat = X 1%nat) by reflexivity.
  apply (is_derive_ext (fun x => thG (put X 2 x) + exp (mks_smooth * (startx1 - X 1%nat)) * (thJ (put X 2 x) - thG (put X 2 x)))); [reflexivity|].
  set (w := exp (mks_smooth * (startx1 - X 1%nat))).
  apply (is_derive_plus (fun x => thG (put X 2 x)) (fun x => w * (thJ (put X 2 x) - thG (put X 2 x)))); [apply thG_2|].
  apply (is_derive_scal (fun x => thJ (put X 2 x) - thG (put X 2 x)) x w).
  apply (is_derive_minus (fun x => thJ (put X 2 x)) (fun x => thG (put X 2 x))); [apply thJ_2|apply thG_2].
Qed.
Lemma th_0 X j x : j <> 1%nat -> j <> 2%nat -> th (put X j x) = th X.
Proof.
  intros A B. unfold th_of_X, thJ_of_X, thG_of_X, y_of_X, put.
  destruct j as [|[|[|j]]]; try congruence; reflexivity.
Qed.
Lemma put_same X j : forall i, put X j (X j) i = X i.
Proof. intros i. unfold put. destruct (Nat.eqb_spec i j); subst; auto. Qed.
Lemma d1_same X : d1 (put X 1 (X 1%nat)) = d1 X. Proof. reflexivity. Qed.
Lemma d2_same X : d2 (put X 2 (X 2%nat)) = d2 X. Proof. reflexivity. Qed.

Notation bl4 := (bl4 hslope poly_xt poly_alpha mks_smooth startx1 derefine).
Notation hcon := (h2bl_con hslope poly_xt poly_alpha mks_smooth startx1 derefine).
Lemma const_d (c x : R) : is_derive (fun _ => c) x 0. Proof. exact (is_derive_const c x). Qed.
Lemma bl_jac X i j : (i < 4)%nat -> (j < 4)%nat -> partial (fun X => bl4 X i) X j (hcon X i j).
Proof.
  intros I J. unfold partial.
  destruct i as [|[|[|[|i]]]]; try lia; cbn [CrdModel.bl4].
  - destruct j as [|[|[|[|j]]]]; try lia; cbn [h2bl_con put Nat.eqb]; try apply const_d. exact (is_derive_id _).
  - unfold r_of_X. destruct j as [|[|[|[|j]]]]; try lia; cbn [h2bl_con put Nat.eqb]; try apply const_d.
    unfold drdX1. auto_derive; [auto|ring].
  - destruct j as [|[|[|[|j]]]]; try lia; cbn [h2bl_con].
    + apply (is_derive_ext (fun _ => th X)); [intros t; symmetry; apply th_0; lia|apply const_d].
    + rewrite <- d1_same. apply th_1.
    + rewrite <- d2_same. apply th_2.
    + apply (is_derive_ext (fun _ => th X)); [intros t; symmetry; apply th_0; lia|apply const_d].
  - destruct j as [|[|[|[|j]]]]; try lia; cbn [h2bl_con put Nat.eqb]; try apply const_d. exact (is_derive_id _).
Qed.

Lemma fix_off t : off t -> sing_fix t = t.
Proof. intros (A & B). fold SINGSMALL in A, B. unfold sing_fix. rewrite (Rltb_false (Rabs t)) by lra. rewrite Rltb_false by lra. reflexivity. Qed.
Lemma off_near (f : R -> R) x d : is_derive f x d -> off (f x) -> locally x (fun y => off (f y)).
Proof.
  intros D (A & B). fold SINGSMALL in A, B. assert (C : continuous f x) by (exact (@ex_derive_continuous R_AbsRing R_NormedModule f x (ex_intro _ d D))).
  assert (E : 0 < Rmin (Rabs (f x) - SINGSMALL) (Rabs (PI - f x) - SINGSMALL)) by (apply Rmin_pos; lra).
  pose proof (proj1 (filterlim_locally f (f x)) C (mkposreal _ E)) as L. revert L. apply filter_imp. intros y Y.
  assert (Y' : Rabs (f y - f x) < Rmin (Rabs (f x) - SINGSMALL) (Rabs (PI - f x) - SINGSMALL)) by exact Y.
  pose proof (Rmin_l (Rabs (f x) - SINGSMALL) (Rabs (PI - f x) - SINGSMALL)). pose proof (Rmin_r (Rabs (f x) - SINGSMALL) (Rabs (PI - f x) - SINGSMALL)).
  split; fold SINGSMALL.
  - pose proof (Rabs_triang_inv (f x) (f y)). rewrite (Rabs_minus_sym (f x)) in H1. lra.
  - pose proof (Rabs_triang_inv (PI - f x) (PI - f y)) as T. replace (PI - f x - (PI - f y)) with (f y - f x) in T by ring. lra.
Qed.

Notation cart := (cart_coord hslope poly_xt poly_alpha mks_smooth startx1 derefine).
Notation blth := (bl_th hslope poly_xt poly_alpha mks_smooth startx1 derefine).
Notation ccon := (h2c_con hslope poly_xt poly_alpha mks_smooth startx1 derefine).
(** spherical to Cartesian along a curve *)
Lemma chain (r t p : R -> R) x dr dt dp : is_derive r x dr -> is_derive t x dt -> is_derive p x dp ->
  is_derive (fun x => r x * sin (t x) * cos (p x)) x (sin (t x) * cos (p x) * dr + r x * cos (t x) * cos (p x) * dt + - r x * sin (t x) * sin (p x) * dp) /\
  is_derive (fun x => r x * sin (t x) * sin (p x)) x (sin (t x) * sin (p x) * dr + r x * cos (t x) * sin (p x) * dt + r x * sin (t x) * cos (p x) * dp) /\
  is_derive (fun x => r x * cos (t x)) x (cos (t x) * dr + - r x * sin (t x) * dt).
Proof.
  intros A B C. assert (EA : ex_derive r x) by (exists dr; auto). assert (EB : ex_derive t x) by (exists dt; auto). assert (EC : ex_derive p x) by (exists dp; auto).
  pose proof (is_derive_unique _ _ _ A) as UA. pose proof (is_derive_unique _ _ _ B) as UB. pose proof (is_derive_unique _ _ _ C) as UC.
  split; [|split]; auto_derive; auto;
  change (Derive (fun x => r x) x) with (Derive r x); change (Derive (fun x => t x) x) with (Derive t x); change (Derive (fun x => p x) x) with (Derive p x);
  rewrite ?UA, ?UB, ?UC; ring.
Qed.
Lemma cart_jac X i j : (i < 4)%nat -> (j < 4)%nat -> off (th X) -> partial (fun X => cart X i) X j (ccon X i j).
Proof.
  intros I J O.
  assert (D2 := bl_jac X 2 j ltac:(lia) J). assert (D1 := bl_jac X 1 j ltac:(lia) J). assert (D3 := bl_jac X 3 j ltac:(lia) J). assert (D0 := bl_jac X 0 j ltac:(lia) J).
  unfold partial in *. cbn [CrdModel.bl4] in D0, D1, D2, D3.
  assert (TX : th (put X j (X j)) = th X).
  { unfold th_of_X, thJ_of_X, thG_of_X, y_of_X. rewrite !put_same. reflexivity. }
  assert (RX : r_of_X (put X j (X j)) = r_of_X X) by (unfold r_of_X; rewrite put_same; reflexivity).
  assert (L : locally (X j) (fun y => off (th (put X j y)))).
  { apply (off_near (fun y => th (put X j y)) (X j) _ D2). rewrite TX. exact O. }
  destruct (chain _ _ _ _ _ _ _ D1 D2 D3) as (C1 & C2 & C3). assert (PX : put X j (X j) 3%nat = X 3%nat) by apply put_same. rewrite TX, RX in C1, C2, C3. rewrite PX in C1, C2.
  assert (B : blth X = th X) by (apply fix_off, O).
  destruct i as [|[|[|[|i]]]]; try lia.
  - cbn [cart_coord]. unfold h2c_con, sum4. cbn [bl2c_con].
    replace (1 * hcon X 0%nat j + 0 * hcon X 1%nat j + 0 * hcon X 2%nat j + 0 * hcon X 3%nat j) with (hcon X 0%nat j) by ring. exact D0.
  - unfold h2c_con, sum4. cbn [bl2c_con]. rewrite B.
    match goal with |- is_derive _ _ ?e => match type of C1 with is_derive _ _ ?g => replace e with g by ring end end.
    refine (is_derive_ext_loc _ _ _ _ _ C1). revert L. apply filter_imp. intros y Y. cbn [cart_coord]. unfold bl_th. rewrite (fix_off _ Y). reflexivity.
  - unfold h2c_con, sum4. cbn [bl2c_con]. rewrite B.
    match goal with |- is_derive _ _ ?e => match type of C2 with is_derive _ _ ?g => replace e with g by ring end end.
    refine (is_derive_ext_loc _ _ _ _ _ C2). revert L. apply filter_imp. intros y Y. cbn [cart_coord]. unfold bl_th. rewrite (fix_off _ Y). reflexivity.
  - unfold h2c_con, sum4. cbn [bl2c_con]. rewrite B.
    match goal with |- is_derive _ _ ?e => match type of C3 with is_derive _ _ ?g => replace e with g by ring end end.
    refine (is_derive_ext_loc _ _ _ _ _ C3). revert L. apply filter_imp. intros y Y. cbn [cart_coord]. unfold bl_th. rewrite (fix_off _ Y). reflexivity.
Qed.
End Jac.
