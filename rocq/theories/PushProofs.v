From Coq Require Import Reals Bool Arith Lia Lra.
From Verif Require Import RLib GeomModel PushModel PushSpec.
Open Scope R_scope.

Section P.
Variable gcon_at : vec -> mat.
Variable killing : nat -> bool.
Variable tol : R.
Notation push := (push gcon_at killing).
Notation is_null := (is_null tol).
Notation push_X_K := (push_X_K tol).

Lemma is_null_spec s K0 prev : is_null s K0 prev = true <-> null_within tol K0 prev s.
Proof.
  unfold is_null, PushModel.is_null, null_within, dot, sum4.
  destruct (Reqb_spec K0 0); [split; [discriminate|tauto]|].
  assert (P : 0 < K0 ^ 2) by (replace (K0 ^ 2) with (Rsqr K0) by (unfold Rsqr; ring); apply Rsqr_pos_lt; auto).
  set (a := Rabs _). destruct (Rltb_spec (a / K0 ^ 2) tol) as [L|L]; split; intros H; auto; try discriminate.
  - split; auto. apply (Rmult_lt_compat_r (K0 ^ 2)) in L; auto. unfold Rdiv in L.
    rewrite Rmult_assoc, Rinv_l, Rmult_1_r in L by lra. exact L.
  - exfalso. apply L. destruct H as (_ & H). apply (Rmult_lt_reg_r (K0 ^ 2)); auto.
    unfold Rdiv. rewrite Rmult_assoc, Rinv_l, Rmult_1_r by lra. exact H.
Qed.

Lemma push_time : keeps_time push.
Proof. intros dt s. reflexivity. Qed.
Lemma tracer_time r rh uc un : keeps_time (push_tracers r rh uc un).
Proof. intros dt s. reflexivity. Qed.

Lemma times_time p dt n : keeps_time p -> forall s, X (times n (p dt) s) 0%nat = X s 0%nat + INR n * dt.
Proof.
  intros K. induction n as [|n IH]; intros s; cbn [times]; [cbn; lra|].
  rewrite IH, K, S_INR. lra.
Qed.
Lemma pow2_INR n : INR (2 ^ n) = 2 ^ n.
Proof. induction n as [|n IH]; [reflexivity|]. cbn [Nat.pow pow]. rewrite mult_INR, IH. cbn. lra. Qed.
Lemma attempt_time p s dt n : keeps_time p -> X (attempt p s dt n) 0%nat = X s 0%nat + dt.
Proof.
  intros K. unfold attempt. rewrite times_time by exact K. rewrite pow2_INR.
  assert (2 ^ n <> 0) by (apply pow_nonzero; lra). field. exact H.
Qed.

(** What the loop does. *)
Lemma subdivide_spec p good s dt fuel : forall n s' k, subdivide p good s dt n fuel = (s', k) ->
  exists m, (n <= m <= n + fuel)%nat /\ k = S m /\ s' = attempt p s dt m /\
    (forall j, (n <= j < m)%nat -> good (attempt p s dt j) = false) /\
    ((m < n + fuel)%nat -> good s' = true).
Proof.
  induction fuel as [|fuel IH]; intros n s' k H.
  - cbn [subdivide] in H. inversion H; subst. exists n. repeat split; auto; intros; lia.
  - cbn [subdivide] in H. destruct (good (attempt p s dt n)) eqn:G.
    + inversion H; subst. exists n. repeat split; auto; intros; lia.
    + apply IH in H. destruct H as (m & A & B & C & D & E). exists m. repeat split; auto; try lia.
      * intros j J. destruct (Nat.eq_dec j n) as [->|]; auto. apply D. lia.
      * intros M. apply E. lia.
Qed.

Lemma push_X_K_spec p tr s prev dt s' st : push_X_K p tr s prev dt = (s', st) ->
  exists m, (m <= 9)%nat /\ s' = attempt p s dt m /\
    (forall j, (j < m)%nat -> tr || is_null (attempt p s dt j) (Kcov s 0%nat) prev = false) /\
    (st = PUSH_SUCCESS -> (m < 9)%nat /\ tr || is_null s' (Kcov s 0%nat) prev = true) /\
    (st = PUSH_FAIL -> m = 9%nat).
Proof.
  unfold push_X_K, PushModel.push_X_K, MAX_SUBDIV. intros H.
  destruct (subdivide p _ s dt 0 (10 - 1)) as (a & k) eqn:E.
  apply (subdivide_spec p _ s dt 9) in E. destruct E as (m & A & B & C & D & F).
  inversion H; subst. exists m. repeat split; auto; try lia.
  - intros j J. apply D. lia.
  - destruct (Nat.eqb_spec (S m) 10); [discriminate|lia].
  - destruct (Nat.eqb_spec (S m) 10) as [M|M]; [discriminate|]. apply F. lia.
  - destruct (Nat.eqb_spec (S m) 10); [lia|discriminate].
Qed.

Lemma push_time_full p tr s prev dt s' st : keeps_time p -> push_X_K p tr s prev dt = (s', st) ->
  X s' 0%nat = X s 0%nat + dt.
Proof.
  intros K H. apply push_X_K_spec in H. destruct H as (m & _ & -> & _). apply attempt_time. exact K.
Qed.

Lemma push_success s prev dt s' : push_X_K push false s prev dt = (s', PUSH_SUCCESS) ->
  null_within tol (Kcov s 0%nat) prev s' /\ X s' 0%nat = X s 0%nat + dt /\
  exists n, (n < 9)%nat /\ s' = times (2 ^ n) (push (dt / 2 ^ n)) s /\
    forall m, (m < n)%nat -> ~ null_within tol (Kcov s 0%nat) prev (times (2 ^ m) (push (dt / 2 ^ m)) s).
Proof.
  intros H. assert (T := push_time_full _ _ _ _ _ _ _ push_time H).
  apply push_X_K_spec in H. destruct H as (m & A & B & C & D & E).
  destruct (D eq_refl) as (L & N). cbn [orb] in N. split; [apply is_null_spec; exact N|]. split; auto.
  exists m. repeat split; auto. intros j J Q. apply is_null_spec in Q. specialize (C j J). cbn [orb] in C.
  unfold attempt in C. congruence.
Qed.

Lemma push_failure s prev dt s' st : push_X_K push false s prev dt = (s', st) ->
  (st = PUSH_FAIL <-> forall m, (m < 9)%nat -> ~ null_within tol (Kcov s 0%nat) prev (times (2 ^ m) (push (dt / 2 ^ m)) s)).
Proof.
  intros H. apply push_X_K_spec in H. destruct H as (m & A & B & C & D & E). split.
  - intros F. specialize (E F). subst m. intros j J Q. apply is_null_spec in Q. specialize (C j J). cbn [orb] in C.
    unfold attempt in C. congruence.
  - intros F. destruct st; auto. exfalso. destruct (D eq_refl) as (L & N). cbn [orb] in N.
    apply (F m L). apply is_null_spec. rewrite B in N. exact N.
Qed.

(** Conserved components. *)
Lemma push_K dt s mu : killing mu = true \/ mu = 0%nat -> Kcov (push dt s) mu = Kcov s mu.
Proof.
  intros H. cbn [PushModel.push Kcov]. destruct (Nat.eqb_spec mu 0); auto.
  destruct H as [H|H]; [|contradiction]. unfold get_K_source. rewrite H. lra.
Qed.
Lemma times_K n dt mu : killing mu = true \/ mu = 0%nat -> forall s, Kcov (times n (push dt) s) mu = Kcov s mu.
Proof. intros H. induction n as [|n IH]; intros s; cbn [times]; auto. rewrite IH. apply push_K. exact H. Qed.
Lemma push_X_K_K s prev dt s' st mu : push_X_K push false s prev dt = (s', st) -> killing mu = true \/ mu = 0%nat ->
  Kcov s' mu = Kcov s mu.
Proof.
  intros H K. apply push_X_K_spec in H. destruct H as (m & _ & -> & _). apply times_K. exact K.
Qed.

(** A whole life of pushes with any steps. *)
Fixpoint pushes (l : list (R * R)) (s : state) : state :=
  match l with nil => s | cons (prev, dt) l => pushes l (fst (push_X_K push false s prev dt)) end.
Lemma pushes_K l mu : killing mu = true \/ mu = 0%nat -> forall s, Kcov (pushes l s) mu = Kcov s mu.
Proof.
  intros K. induction l as [|(prev, dt) l IH]; intros s; cbn [pushes]; auto. rewrite IH.
  destruct (push_X_K push false s prev dt) as (s', st) eqn:E. cbn [fst]. eapply push_X_K_K; eauto.
Qed.

(** Interpolation. *)
Lemma interp_time ti a b : X b 0%nat <> X a 0%nat -> X (interp ti a b) 0%nat = ti.
Proof. intros H. cbn [interp X]. unfold lin. field. lra. Qed.
Lemma interp_const ti a b mu : Kcov a mu = Kcov b mu -> Kcov (interp ti a b) mu = Kcov a mu.
Proof. intros H. cbn [interp Kcov]. unfold lin. rewrite H. ring. Qed.

Lemma get_time h ti s st : X (s0 h) 0%nat < X (s1 h) 0%nat -> X (s1 h) 0%nat < X (s2 h) 0%nat ->
  get_X_K_interp gcon_at killing tol h ti = Some (s, st) -> X s 0%nat = ti.
Proof.
  intros A B. unfold get_X_K_interp. destruct (Reqb_spec ti (X (s2 h) 0%nat)) as [E|E].
  - intros H. inversion H; subst. auto.
  - destruct (Rltb_spec ti (X (s1 h) 0%nat)) as [L|L]; cbn [negb andb].
    + destruct (Rltb _ _); intros H; injection H.
      * intros H'. pose proof (push_time_full _ _ _ _ _ _ _ push_time H'). lra.
      * intros _ <-. apply interp_time. lra.
    + destruct (Rleb_spec ti (X (s2 h) 0%nat)) as [M|M]; cbn [negb]; [|discriminate].
      destruct (Rltb _ _); intros H; injection H.
      * intros H'. pose proof (push_time_full _ _ _ _ _ _ _ push_time H'). lra.
      * intros _ <-. apply interp_time. lra.
Qed.
Lemma get_exits h ti : X (s1 h) 0%nat <= X (s2 h) 0%nat ->
  get_X_K_interp gcon_at killing tol h ti = None <-> X (s2 h) 0%nat < ti.
Proof.
  intros B. unfold get_X_K_interp. destruct (Reqb_spec ti (X (s2 h) 0%nat)) as [E|E].
  - split; [discriminate|lra].
  - destruct (Rltb_spec ti (X (s1 h) 0%nat)) as [L|L]; cbn [negb andb].
    + split; [destruct (Rltb _ _); discriminate|lra].
    + destruct (Rleb_spec ti (X (s2 h) 0%nat)) as [M|M]; cbn [negb].
      * split; [destruct (Rltb _ _); discriminate|lra].
      * split; auto. intros _. lra.
Qed.
Lemma get_K h ti s st mu : killing mu = true \/ mu = 0%nat ->
  Kcov (s0 h) mu = Kcov (s1 h) mu -> Kcov (s1 h) mu = Kcov (s2 h) mu ->
  get_X_K_interp gcon_at killing tol h ti = Some (s, st) -> Kcov s mu = Kcov (s2 h) mu.
Proof.
  intros K A B. unfold get_X_K_interp. destruct (Reqb ti (X (s2 h) 0%nat)).
  - intros H. inversion H; subst. auto.
  - destruct (Rltb ti (X (s1 h) 0%nat)); cbn [negb andb].
    + destruct (Rltb _ _); intros H; injection H.
      * intros H'. pose proof (push_X_K_K _ _ _ _ _ mu H' K). congruence.
      * intros _ <-. rewrite interp_const; congruence.
    + destruct (Rleb ti (X (s2 h) 0%nat)); cbn [negb]; [|discriminate].
      destruct (Rltb _ _); intros H; injection H.
      * intros H'. pose proof (push_X_K_K _ _ _ _ _ mu H' K). congruence.
      * intros _ <-. rewrite interp_const; congruence.
Qed.
End P.

(** Straight lines in Minkowski space. *)
Lemma raise_eta K mu : (mu < 4)%nat -> raise K eta mu = (if Nat.eqb mu 0 then - K mu else K mu).
Proof.
  intros H. unfold raise, eta. destruct mu as [|[|[|[|mu]]]]; try lia; cbn; lra.
Qed.
Lemma minkowski_push dt s mu : Kcov s 0%nat <> 0 -> (1 <= mu <= 3)%nat ->
  X (push (fun _ => eta) killing_minkowski dt s) mu = X s mu - dt * (Kcov s mu / Kcov s 0%nat).
Proof.
  intros K M. cbn [push X]. destruct (Nat.eqb_spec mu 0); [lia|].
  unfold get_X_source. rewrite !raise_eta by lia.
  replace (Nat.eqb 0 0) with true by reflexivity.
  destruct (Nat.eqb_spec mu 0); [lia|]. unfold get_K_source, killing_minkowski.
  replace (Kcov s mu + dt * 0) with (Kcov s mu) by ring. replace (Kcov s 0%nat + dt * 0) with (Kcov s 0%nat) by ring.
  field. lra.
Qed.
Lemma minkowski_times n dt mu : (1 <= mu <= 3)%nat -> forall s, Kcov s 0%nat <> 0 ->
  X (times n (push (fun _ => eta) killing_minkowski dt) s) mu = X s mu - INR n * dt * (Kcov s mu / Kcov s 0%nat).
Proof.
  intros M. induction n as [|n IH]; intros s K; cbn [times]; [cbn; lra|].
  rewrite IH by (rewrite push_K; auto). rewrite minkowski_push by auto.
  rewrite !push_K by auto. rewrite S_INR. lra.
Qed.
Lemma straight tol s prev dt s' st mu : (1 <= mu <= 3)%nat -> Kcov s 0%nat <> 0 ->
  push_X_K tol (push (fun _ => eta) killing_minkowski) false s prev dt = (s', st) ->
  X s' mu = X s mu - dt * (Kcov s mu / Kcov s 0%nat).
Proof.
  intros M K H. apply push_X_K_spec in H. destruct H as (m & _ & -> & _). unfold attempt.
  rewrite minkowski_times, pow2_INR by auto.
  assert (P : 2 ^ m <> 0) by (apply pow_nonzero; lra). field. auto.
Qed.

(** A photon in Minkowski space at rest frame energy one. *)
Definition kx : vec := fun mu => if Nat.eqb mu 0 then -1 else if Nat.eqb mu 1 then 1 else 0.
Definition kcx : vec := fun mu => if Nat.eqb mu 0 then 1 else if Nat.eqb mu 1 then 1 else 0.
Definition ph0 : state := mkst (fun _ => 0) kx kcx.

(** A metric whose g^11 is the coordinate x^1: the position then grows by the factor
    1 + h + h^2/2 per substep h, and finer subdivision gives larger values. *)
Definition gex : vec -> mat := fun x i j => if Nat.eqb i j then (if Nat.eqb i 0 then -1 else if Nat.eqb i 1 then x 1%nat else 1) else 0.
Definition ph1 : state := mkst (fun mu => if Nat.eqb mu 1 then 1 else 0) kx kcx.
Notation pushex := (push gex killing_minkowski).
Lemma gex_raise K x mu : (mu < 4)%nat -> raise K (gex x) mu = (if Nat.eqb mu 0 then - K mu else if Nat.eqb mu 1 then x 1%nat * K mu else K mu).
Proof. intros H. unfold raise, gex. destruct mu as [|[|[|[|mu]]]]; try lia; cbn; lra. Qed.
Lemma gex_push dt s : (forall mu, (mu < 4)%nat -> Kcov s mu = kx mu) ->
  (forall mu, (mu < 4)%nat -> Kcov (pushex dt s) mu = kx mu) /\
  X (pushex dt s) 1%nat = X s 1%nat * (1 + dt + dt * dt / 2) /\
  (forall mu, (mu < 4)%nat -> Kcon (pushex dt s) mu = if Nat.eqb mu 0 then 1 else if Nat.eqb mu 1 then X (pushex dt s) 1%nat else 0).
Proof.
  intros H. assert (A : forall mu, (mu < 4)%nat -> Kcov (pushex dt s) mu = kx mu) by (intros; rewrite push_K; auto).
  split; [exact A|]. split.
  - cbn [push X]. replace (Nat.eqb 1 0) with false by reflexivity. unfold get_X_source.
    rewrite !gex_raise by lia. unfold get_K_source, killing_minkowski.
    replace (Nat.eqb 0 0) with true by reflexivity. replace (Nat.eqb 1 0) with false by reflexivity.
    replace (Nat.eqb 1 1) with true by reflexivity. rewrite !H by lia. cbn [kx Nat.eqb]. field.
  - intros mu M. change (Kcon (pushex dt s)) with (raise (Kcov (pushex dt s)) (gex (X (pushex dt s)))).
    rewrite gex_raise, A by exact M. destruct mu as [|[|[|[|mu]]]]; try lia; cbn [kx Nat.eqb]; lra.
Qed.
Lemma gex_times n dt : forall s, (forall mu, (mu < 4)%nat -> Kcov s mu = kx mu) ->
  (forall mu, (mu < 4)%nat -> Kcov (times n (pushex dt) s) mu = kx mu) /\
  X (times n (pushex dt) s) 1%nat = X s 1%nat * (1 + dt + dt * dt / 2) ^ n /\
  (n <> 0%nat -> forall mu, (mu < 4)%nat -> Kcon (times n (pushex dt) s) mu =
     if Nat.eqb mu 0 then 1 else if Nat.eqb mu 1 then X (times n (pushex dt) s) 1%nat else 0).
Proof.
  induction n as [|n IH]; intros s H; cbn [times pow].
  - repeat split; auto; [lra|congruence].
  - destruct (gex_push dt s H) as (A & B & C). destruct (IH _ A) as (D & E & F). rewrite E, B.
    split; [exact D|]. split; [ring|]. intros _ mu M. destruct n as [|n].
    + cbn [times pow]. rewrite (C mu M), B. destruct (Nat.eqb mu 0); auto. destruct (Nat.eqb mu 1); lra.
    + rewrite (F ltac:(lia) mu M). rewrite E, B. reflexivity.
Qed.
(** the position reached by the attempt with 2^m substeps of a unit step *)
Definition xm (m : nat) : R := (1 + / 2 ^ m + / 2 ^ m * / 2 ^ m / 2) ^ (2 ^ m).
Lemma xm_step m : xm m < xm (S m).
Proof.
  unfold xm. replace (2 ^ S m)%nat with (2 * 2 ^ m)%nat by (cbn [Nat.pow]; lia). rewrite pow_mult.
  assert (P : 0 < / 2 ^ m) by (apply Rinv_0_lt_compat, pow_lt; lra).
  replace (/ 2 ^ S m) with (/ 2 ^ m / 2) by (cbn [pow]; field; apply pow_nonzero; lra).
  set (h := / 2 ^ m) in *.
  assert (Q : 1 + h + h * h / 2 < (1 + h / 2 + h / 2 * (h / 2) / 2) ^ 2).
  { replace ((1 + h / 2 + h / 2 * (h / 2) / 2) ^ 2) with (1 + h + h * h / 2 + h * h * h / 8 + h * h * h * h / 64) by field.
    assert (0 < h * h) by (apply Rmult_lt_0_compat; auto). assert (0 < h * h * h) by (apply Rmult_lt_0_compat; auto).
    assert (0 < h * h * h * h) by (apply Rmult_lt_0_compat; auto). lra. }
  assert (R : 0 <= 1 + h + h * h / 2) by (assert (0 < h * h) by (apply Rmult_lt_0_compat; auto); lra).
  assert (N : (2 ^ m <> 0)%nat) by (apply Nat.pow_nonzero; lia).
  destruct (2 ^ m)%nat as [|k]; [congruence|]. clear N.
  set (b := (1 + h / 2 + h / 2 * (h / 2) / 2) ^ 2) in *.
  induction k as [|k IH]; [rewrite !pow_1; exact Q|].
  cbn [pow] in IH |- *. apply Rmult_le_0_lt_compat; auto.
  apply (pow_le _ (S k)). exact R.
Qed.
Lemma xm_mono m k : (m <= k)%nat -> xm m <= xm k.
Proof. induction 1 as [|k L IH]; [lra|]. pose proof (xm_step k). lra. Qed.
Lemma gex_dot m : dot (Kcov (attempt pushex ph1 1 m)) (Kcon (attempt pushex ph1 1 m)) = xm m - 1.
Proof.
  unfold attempt. destruct (gex_times (2 ^ m) (1 / 2 ^ m) ph1 ltac:(auto)) as (A & B & C).
  assert (N : (2 ^ m <> 0)%nat) by (apply Nat.pow_nonzero; lia). specialize (C N).
  unfold dot, sum4. rewrite !A, !C by lia. cbn [kx Nat.eqb]. rewrite B. unfold xm.
  replace (1 / 2 ^ m) with (/ 2 ^ m) by (unfold Rdiv; ring). cbn [ph1 X Nat.eqb]. lra.
Qed.
Lemma last_refuted : exists g tol s prev dt s', 0 < tol /\ Kcov s 0%nat < 0 /\
  push_X_K tol (push g killing_minkowski) false s prev dt = (s', PUSH_FAIL) /\ null_within tol (Kcov s 0%nat) prev s'.
Proof.
  assert (T : 0 < xm 9 - xm 8) by (pose proof (xm_step 8); lra).
  exists gex, (xm 9 - xm 8), ph1, (xm 9 - 1), 1.
  destruct (push_X_K (xm 9 - xm 8) pushex false ph1 (xm 9 - 1) 1) as (s', st) eqn:E.
  exists s'. assert (NN : forall m, PushModel.is_null (xm 9 - xm 8) (attempt pushex ph1 1 m) (-1) (xm 9 - 1) = true <-> Rabs (xm m - xm 9) < xm 9 - xm 8).
  { intros m. unfold PushModel.is_null. destruct (Reqb_spec (-1) 0); [lra|]. rewrite gex_dot.
    replace (Rabs (xm m - 1 - (xm 9 - 1)) / (-1) ^ 2) with (Rabs (xm m - xm 9))
      by (replace (xm m - 1 - (xm 9 - 1)) with (xm m - xm 9) by ring; field).
    destruct (Rltb_spec (Rabs (xm m - xm 9)) (xm 9 - xm 8)); split; auto; discriminate || (intros; lra). }
  assert (E' := E). apply push_X_K_spec in E'. destruct E' as (m & A & B & Cj & Dm & F).
  change (Kcov ph1 0%nat) with (-1) in *.
  assert (St : st = PUSH_FAIL).
  { destruct st; auto. exfalso. destruct (Dm eq_refl) as (L & N). cbn [orb] in N. rewrite B in N. apply NN in N.
    pose proof (xm_mono m 8 ltac:(lia)). rewrite Rabs_left1 in N by lra. lra. }
  split; [exact T|]. split; [lra|]. split; [congruence|].
  apply (is_null_spec (xm 9 - xm 8)). rewrite B, (F St). apply NN.
  replace (xm 9 - xm 9) with 0 by ring. rewrite Rabs_R0. exact T.
Qed.

(** A packet whose two older states are still zero. *)
Definition zero_state : state := mkst (fun _ => 0) (fun _ => 0) (fun _ => 0).
Lemma newborn gcon_at killing tol h ti : 0 <= tol -> s0 h = zero_state -> 0 < X (s1 h) 0%nat ->
  dot (Kcov (s1 h)) (Kcon (s1 h)) = 0 -> ti < X (s1 h) 0%nat -> X (s1 h) 0%nat <= X (s2 h) 0%nat ->
  exists s, get_X_K_interp gcon_at killing tol h ti = Some (s, PUSH_SUCCESS) /\
    forall mu, X s mu = ti / X (s1 h) 0%nat * X (s1 h) mu /\ Kcov s mu = ti / X (s1 h) 0%nat * Kcov (s1 h) mu.
Proof.
  intros T Z P N L M. exists (interp ti (s0 h) (s1 h)). unfold get_X_K_interp.
  destruct (Reqb_spec ti (X (s2 h) 0%nat)) as [E|E]; [lra|].
  destruct (Rltb_spec ti (X (s1 h) 0%nat)) as [L'|L']; [|contradiction]. cbn [negb andb]. rewrite Z.
  split.
  - match goal with |- (if Rltb _ (Rabs (?a / _)) then _ else _) = _ => replace a with 0 end.
    + unfold Rdiv. rewrite Rmult_0_l, Rabs_R0. destruct (Rltb_spec (100 * tol) 0); [lra|reflexivity].
    + revert N. unfold dot, sum4. cbn [interp zero_state Kcov Kcon X]. unfold lin. intros N.
      set (f := (ti - 0) / (X (s1 h) 0%nat - 0)).
      apply (f_equal (Rmult (f * f))) in N. rewrite Rmult_0_r in N. lra.
  - intros mu. cbn [interp zero_state Kcov X]. unfold lin. split; field; lra.
Qed.

(** It scattered at time 1 at x = 4 and then moved along x with the speed of light. *)
Definition born : state := mkst (fun mu => if Nat.eqb mu 0 then 1 else if Nat.eqb mu 1 then 4 else 0) kx kcx.
Definition newborn_history : history :=
  mkhist zero_state born (fst (push_X_K (/ 100) (push (fun _ => eta) killing_minkowski) false born 0 1)).
Lemma newborn_refuted : exists h ti s, X (s2 h) 0%nat = X (s1 h) 0%nat + 1 /\ X (s2 h) 1%nat = X (s1 h) 1%nat + 1 /\
  0 < ti < X (s1 h) 0%nat /\
  get_X_K_interp (fun _ => eta) killing_minkowski (/ 100) h ti = Some (s, PUSH_SUCCESS) /\
  Rabs (X s 1%nat - (X (s1 h) 1%nat + (ti - X (s1 h) 0%nat))) = 3 / 2 /\ Kcov s 0%nat = 1 / 2 * Kcov (s1 h) 0%nat.
Proof.
  destruct (push_X_K (/ 100) (push (fun _ => eta) killing_minkowski) false born 0 1) as (s', st) eqn:E.
  assert (T := push_time_full _ _ _ _ _ _ _ _ (push_time (fun _ => eta) killing_minkowski) E).
  assert (N : Kcov born 0%nat <> 0) by (cbn; lra).
  assert (St := straight _ _ _ _ _ _ 1 ltac:(lia) N E).
  exists newborn_history, (1 / 2).
  destruct (newborn (fun _ => eta) killing_minkowski (/ 100) newborn_history (1 / 2)) as (s & A & B);
    unfold newborn_history; cbn [s0 s1 s2]; rewrite ?E; cbn [fst]; try reflexivity; try (cbn; lra).
  - unfold dot, sum4. cbn. lra.
  - rewrite T. cbn. lra.
  - exists s. rewrite T, St. split; [lra|]. split; [cbn; lra|]. split; [cbn; lra|].
    unfold newborn_history in A, B. rewrite E in A. cbn [fst s1] in A, B. split; [exact A|].
    destruct (B 1%nat) as (B1 & _). destruct (B 0%nat) as (_ & B0). rewrite B1, B0. cbn. split; [|lra].
    replace (1 / 2 / 1 * 4 - (4 + (1 / 2 - 1))) with (- (3 / 2)) by lra. rewrite Rabs_Ropp. apply Rabs_right. lra.
Qed.

(** Cases. *)
Lemma straight_succeeds : exists s', push_X_K (/ 100) (push (fun _ => eta) killing_minkowski) false ph0 0 1 = (s', PUSH_SUCCESS).
Proof.
  destruct (push_X_K (/ 100) (push (fun _ => eta) killing_minkowski) false ph0 0 1) as (s', st) eqn:E.
  exists s'. f_equal. destruct st; auto. exfalso. apply push_failure in E. destruct E as (E & _).
  apply (E eq_refl 0%nat); [lia|]. cbn [Nat.pow times pow].
  assert (K : forall mu, (mu < 4)%nat -> Kcov (push (fun _ => eta) killing_minkowski (1 / 1) ph0) mu = kx mu)
    by (intros; rewrite push_K; auto).
  assert (C : forall mu, (mu < 4)%nat -> Kcon (push (fun _ => eta) killing_minkowski (1 / 1) ph0) mu = if Nat.eqb mu 0 then - kx mu else kx mu).
  { intros mu M. change (Kcon (push (fun _ => eta) killing_minkowski (1 / 1) ph0)) with
      (raise (Kcov (push (fun _ => eta) killing_minkowski (1 / 1) ph0)) eta). rewrite raise_eta, K by exact M. reflexivity. }
  unfold null_within. rewrite !K, !C by lia. cbn. split; [lra|].
  replace (-1 * - -1 + 1 * 1 + 0 * 0 + 0 * 0 - 0) with 0 by lra. rewrite Rabs_R0. lra.
Qed.
Lemma mks_changes : Kcov (pushes gex killing_mks 1 (cons (0, 1) (cons (0, 1 / 2) nil)) ph1) 0%nat = -1 /\
  Kcov (push gex killing_mks 1 ph1) 1%nat <> Kcov ph1 1%nat.
Proof.
  split; [rewrite pushes_K; [reflexivity|auto]|].
  cbn [push Kcov]. replace (Nat.eqb 1 0) with false by reflexivity. unfold get_K_source.
  replace (killing_mks 1) with false by reflexivity. cbv zeta.
  assert (S : forall x k c, sum4 (fun nu => sum4 (fun kap => k nu * k kap *
     ((gex (bump x 1 DELTAK) nu kap - gex (bump x 1 (- DELTAK)) nu kap) / (x 1%nat + DELTAK - (x 1%nat - DELTAK))))) * c = k 1%nat * k 1%nat * c).
  { intros x k c. unfold sum4, gex, bump. cbn. assert (DELTAK <> 0) by (unfold DELTAK; cbn; lra). field. intros Q. apply H. lra. }
  rewrite !S. rewrite !gex_raise by lia. cbn.
  replace (2 * - (-1 + 1 * 0)) with 2 by ring. replace (2 * - (-1)) with 2 by ring. lra.
Qed.
Definition full_history : history :=
  mkhist ph0 (mkst (fun mu => if Nat.ltb mu 2 then 1 else 0) kx kcx) (mkst (fun mu => if Nat.ltb mu 2 then 2 else 0) kx kcx).
Lemma full_history_ok : X (s0 full_history) 0%nat < X (s1 full_history) 0%nat /\ X (s1 full_history) 0%nat < X (s2 full_history) 0%nat /\
  exists s, get_X_K_interp (fun _ => eta) killing_minkowski (/ 100) full_history (3 / 2) = Some (s, PUSH_SUCCESS) /\ X s 1%nat = 3 / 2.
Proof.
  split; [cbn; lra|]. split; [cbn; lra|]. eexists. split.
  - unfold get_X_K_interp. destruct (Reqb_spec (3 / 2) (X (s2 full_history) 0%nat)) as [E|_]; [cbn in E; lra|].
    destruct (Rltb_spec (3 / 2) (X (s1 full_history) 0%nat)) as [E|_]; [cbn in E; lra|].
    destruct (Rleb_spec (3 / 2) (X (s2 full_history) 0%nat)) as [_|E]; [|cbn in E; lra]. cbn [negb andb].
    match goal with |- (if Rltb _ (Rabs (?a / _)) then _ else _) = _ => replace a with 0 end.
    + unfold Rdiv at 1. rewrite Rmult_0_l, Rabs_R0. destruct (Rltb_spec (100 * / 100) 0); [lra|reflexivity].
    + unfold dot, sum4. cbn. unfold lin. cbn. lra.
  - cbn. unfold lin. cbn. lra.
Qed.
