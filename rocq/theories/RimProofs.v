From Coq Require Import Reals Lra Lia Bool List Permutation.
From Verif Require Import RLib ExchModel GeomModel RimModel RimSpec.
Import ListNotations.
Open Scope R_scope.

Lemma deg th : (3 <= th * 180 / PI <-> PI / 60 <= th) /\ (th * 180 / PI <= 177 <-> th <= PI - PI / 60).
Proof.
  pose proof PI_RGT_0 as P. assert (E : th * 180 / PI * PI = th * 180) by (field; lra). set (q := th * 180 / PI) in *.
  split; split; intros H.
  - assert (3 * PI <= q * PI) by (apply Rmult_le_compat_r; lra). lra.
  - apply (Rmult_le_reg_r PI); lra.
  - assert (q * PI <= 177 * PI) by (apply Rmult_le_compat_r; lra). lra.
  - apply (Rmult_le_reg_r PI); lra.
Qed.

Definition verdict_is (v : verdict) (exits : Prop) (act recd : Prop) : Prop :=
  match v with Exit => exits | Act a r => ~ exits /\ (a = true <-> act) /\ (r = true <-> recd) end.

Lemma plain_step c v b (x : bool) (P Q E : Prop) (cross : Prop) : reflect cross x ->
  verdict_is v E P Q ->
  verdict_is (if x then bind v (plain_edge b) else v)
    (E \/ (cross /\ ~ handled c b false)) (P /\ (b <> RPeriodic -> ~ cross)) Q.
Proof.
  intros RX H. destruct RX as [C|N]; destruct v as [|a r]; cbn in *.
  - tauto.
  - destruct b; cbn; intuition congruence.
  - tauto.
  - tauto.
Qed.

Lemma active_spec c tracer X :
  verdict_is (bound_rad_isactive c tracer X) (beyond_unhandled c tracer X) (in_domain c tracer X)
    (tracer = false /\ bR c D1 = RCamera /\ hi c D1 < X D1 /\ mks c = true).
Proof.
  unfold bound_rad_isactive. cbv zeta.
  assert (A0 : verdict_is (Act (if mks c && (Rltb (th_of c X * 180 / PI) 3 || Rltb 177 (th_of c X * 180 / PI)) then false else true) false)
     False (mks c = true -> PI / 60 <= th_of c X <= PI - PI / 60) False).
  { cbn. destruct (deg (th_of c X)) as [D1 D2]. split; [tauto|]. split; [|split; intros; [discriminate|tauto]].
    destruct (mks c); cbn [andb]; [|split; [intros _ K; discriminate|trivial]].
    destruct (Rltb_spec (th_of c X * 180 / PI) 3), (Rltb_spec 177 (th_of c X * 180 / PI)); cbn [orb]; split; intros H;
      try discriminate; try trivial; try (specialize (H eq_refl); exfalso; lra); intros _; lra. }
  set (s0 := Act _ false) in *. clearbody s0.
  pose proof (plain_step c s0 (bL c D1) _ _ _ _ _ (Rltb_spec (X D1) (lo c D1)) A0) as A1.
  set (s1 := if Rltb (X D1) (lo c D1) then _ else _) in *. clearbody s1. clear A0.
  set (P1 := (mks c = true -> PI / 60 <= th_of c X <= PI - PI / 60) /\ (bL c D1 <> RPeriodic -> ~ X D1 < lo c D1)) in A1.
  set (X1 := False \/ (X D1 < lo c D1 /\ ~ handled c (bL c D1) false)) in A1.
  assert (A2 : verdict_is (if Rltb (hi_gas c) (X D1) && tracer then bind (if Rltb (hi c D1) (X D1) && negb tracer then bind s1 (outer_edge c) else s1) (outer_tracer c)
      else if Rltb (hi c D1) (X D1) && negb tracer then bind s1 (outer_edge c) else s1)
    (X1 \/ (outer c tracer D1 < X D1 /\ ~ handled c (bR c D1) true)) (P1 /\ (bR c D1 <> RPeriodic -> ~ outer c tracer D1 < X D1))
    (tracer = false /\ bR c D1 = RCamera /\ hi c D1 < X D1 /\ mks c = true)).
  { clearbody P1 X1. unfold outer. destruct tracer; cbn [negb]; rewrite ?andb_false_r, ?andb_true_r.
    - destruct (Rltb_spec (hi_gas c) (X D1)) as [C|C]; destruct s1 as [|a r]; cbn in *; [tauto| |tauto|].
      + unfold outer_tracer. destruct (bR c D1), (mks c) eqn:MK; cbn [handled verdict_is bind lose]; rewrite ?MK; intuition congruence.
      + intuition congruence.
    - destruct (Rltb_spec (hi c D1) (X D1)) as [C|C]; destruct s1 as [|a r]; cbn in *; [tauto| |tauto|].
      + unfold outer_edge. destruct (bR c D1), (mks c) eqn:MK; cbn [handled verdict_is bind lose]; rewrite ?MK; intuition congruence.
      + intuition congruence. }
  clear A1. set (s2 := if Rltb (hi_gas c) (X D1) && tracer then _ else _) in *. clearbody s2.
  pose proof (plain_step c s2 (bL c D2) _ _ _ _ _ (Rltb_spec (X D2) (lo c D2)) A2) as A3. clear A2. set (s3 := if Rltb (X D2) (lo c D2) then _ else _) in *. clearbody s3.
  pose proof (plain_step c s3 (bR c D2) _ _ _ _ _ (Rltb_spec (hi c D2) (X D2)) A3) as A4. clear A3. set (s4 := if Rltb (hi c D2) (X D2) then _ else _) in *. clearbody s4.
  pose proof (plain_step c s4 (bL c D3) _ _ _ _ _ (Rltb_spec (X D3) (lo c D3)) A4) as A5. clear A4. set (s5 := if Rltb (X D3) (lo c D3) then _ else _) in *. clearbody s5.
  pose proof (plain_step c s5 (bR c D3) _ _ _ _ _ (Rltb_spec (hi c D3) (X D3)) A5) as A6. clear A5. set (s6 := if Rltb (hi c D3) (X D3) then _ else _) in *. clearbody s6.
  destruct s6 as [|a r]; cbn [verdict_is] in *.
  - unfold X1 in A6. clear P1 X1.
    destruct A6 as [[[[[[[]|A]|A]|A]|A]|A]|A]; [exists D1; left|exists D1; right|exists D2; left|exists D2; right|exists D3; left|exists D3; right]; exact A.
  - destruct A6 as (N & AC & RC). split; [|split; [|exact RC]].
    + clear AC RC. unfold X1 in N. clear P1 X1. intros ([| |] & [B|B]); apply N; clear N; cbn [outer] in B.
      * do 5 left. right. exact B.
      * do 4 left. right. exact B.
      * do 3 left. right. exact B.
      * do 2 left. right. exact B.
      * left. right. exact B.
      * right. exact B.
    + clear N RC. eapply iff_trans; [exact AC|]. clear AC. unfold P1, in_domain. clear P1 X1. split.
      * intros ((((((K & K1) & K2) & K3) & K4) & K5) & K6). split; [exact K|]. intros [| |]; split; intros Q; apply Rnot_lt_le; auto.
      * intros (K & KD). destruct (KD D1) as [U1 V1], (KD D2) as [U2 V2], (KD D3) as [U3 V3].
        repeat apply conj; [exact K|intros Q; apply Rle_not_lt; auto..].
Qed.

Lemma active_ok c tracer X a r : bound_rad_isactive c tracer X = Act a r ->
  (a = true <-> in_domain c tracer X) /\ (r = true <-> tracer = false /\ bR c D1 = RCamera /\ hi c D1 < X D1 /\ mks c = true).
Proof. intros E. pose proof (active_spec c tracer X) as H. rewrite E in H. cbn in H. tauto. Qed.
Lemma exit_ok c tracer X : bound_rad_isactive c tracer X = Exit <-> beyond_unhandled c tracer X.
Proof. pose proof (active_spec c tracer X) as H. destruct (bound_rad_isactive c tracer X); cbn in H; [tauto|]. split; [discriminate|tauto]. Qed.
Lemma supported_ok c tracer X : supported c -> bound_rad_isactive c tracer X <> Exit.
Proof. intros S E. apply exit_ok in E. destruct E as (d & [B|B]); destruct (S d); tauto. Qed.

Lemma error_ok w k0 : rad_error_check w k0 = true <-> SMALL <= w /\ k0 <= 0.
Proof. unfold rad_error_check. destruct (Rltb_spec w SMALL), (Rltb_spec 0 k0); cbn; split; intros H; try discriminate; try trivial; lra. Qed.

Lemma packet_ok c tracer v f r : bound_packet c tracer v = Some (f, r) ->
  (f <> Lost <-> in_domain c tracer (pos v) /\ interp_ok v = true /\ SMALL <= weight v /\ k_0 v <= 0) /\
  (f = Sent -> outside v = true) /\ (f = Kept -> outside v = false) /\
  (r = true <-> tracer = false /\ bR c D1 = RCamera /\ hi c D1 < pos v D1 /\ mks c = true) /\
  (r = true -> f = Lost).
Proof.
  unfold bound_packet. destruct (bound_rad_isactive c tracer (pos v)) as [|a r'] eqn:E; [discriminate|].
  destruct (active_ok _ _ _ _ _ E) as [AC RC]. pose proof (error_ok (weight v) (k_0 v)) as EC.
  assert (RA : r' = true -> a = false).
  { intros K. apply RC in K. destruct a; [|reflexivity]. destruct (proj1 AC eq_refl) as [_ D]. destruct K as (T & B & H & _).
    destruct (D D1) as [_ D']. rewrite B in D'. specialize (D' ltac:(discriminate)). unfold outer in D'. rewrite T in D'. lra. }
  assert (G : (in_domain c tracer (pos v) /\ interp_ok v = true /\ SMALL <= weight v /\ k_0 v <= 0) <->
     (a = true /\ interp_ok v = true /\ rad_error_check (weight v) (k_0 v) = true)) by (rewrite <- AC, EC; tauto).
  intros H. rewrite G. clear G AC EC E.
  destruct a, (rad_error_check (weight v) (k_0 v)), (interp_ok v), (outside v); cbn [negb orb] in H; injection H as <- <-;
    (split; [split; [intros K|intros K K']|split; [intros K|split; [intros K|split; [exact RC|intros K]]]]); try (exfalso; congruence); try (repeat split; congruence);
    try (destruct K as (? & ? & ?); discriminate); try discriminate (RA K).
Qed.

(** ** Histories *)
Lemma pass_ok c see l recs rest : pass c see l = Some (recs, rest) ->
  (forall p, In p recs -> In p l) /\ (forall p, In p rest -> In p l) /\
  (NoDup (map num l) -> NoDup (map num recs) /\ NoDup (map num rest) /\ forall p q, In p recs -> In q rest -> num p <> num q).
Proof.
  revert recs rest. induction l as [|p l IH]; cbn [pass]; intros recs rest E.
  - injection E as <- <-. split; [tauto|]. split; [tauto|]. intros _. split; [constructor|]. split; [constructor|]. intros ? ? [].
  - destruct (bound_packet c (tr p) (see p)) as [[f r]|] eqn:B; [|discriminate]. destruct (pass c see l) as [[recs0 rest0]|]; [|discriminate].
    injection E as <- <-. destruct (IH _ _ eq_refl) as (I1 & I2 & I3). clear IH.
    pose proof (packet_ok _ _ _ _ _ B) as (_ & _ & _ & _ & RL).
    split; [|split].
    + intros q. destruct r; cbn; intuition.
    + intros q. destruct f; cbn; intuition.
    + intros N. cbn in N. apply NoDup_cons_iff in N. destruct N as [NI N]. destruct (I3 N) as (A & A' & AD).
      assert (F : forall q, In q l -> num p <> num q) by (intros q Q K; apply NI; rewrite K; now apply in_map).
      assert (NR : ~ In (num p) (map num recs0)) by (intros K; apply in_map_iff in K; destruct K as (q & K & Q); apply (F q (I1 q Q)); congruence).
      assert (NS : ~ In (num p) (map num rest0)) by (intros K; apply in_map_iff in K; destruct K as (q & K & Q); apply (F q (I2 q Q)); congruence).
      split; [|split].
      * destruct r; cbn; [constructor|]; trivial.
      * destruct f; cbn; trivial; constructor; trivial.
      * destruct r.
        -- specialize (RL eq_refl). subst f. intros q s [<-|Q] S; [apply F, I2, S|apply AD; trivial].
        -- intros q s Q S. destruct f; [now apply AD| |]; (destruct S as [<-|S]; [intros K; apply (F q (I1 q Q)); congruence|now apply AD]).
Qed.

Lemma run_ok c steps : forall l recs rest, run c steps l = Some (recs, rest) ->
  NoDup (map num (l ++ concat (map fst steps))) ->
  (forall p, In p recs \/ In p rest -> In p l \/ In p (concat (map fst steps))) /\
  NoDup (map num recs) /\ NoDup (map num rest) /\ (forall p q, In p recs -> In q rest -> num p <> num q).
Proof.
  induction steps as [|[born see] steps IH]; intros l recs rest; cbn [run].
  - intros [= <- <-] N. rewrite app_nil_r in N. split; [cbn; tauto|]. split; [constructor|]. split; [exact N|]. intros ? ? [].
  - destruct (pass c see (born ++ l)) as [[recs1 rest1]|] eqn:P; [|discriminate].
    destruct (run c steps rest1) as [[recs2 rest2]|] eqn:R; [|discriminate]. intros [= <- <-] N. cbn [map concat fst] in *.
    destruct (pass_ok _ _ _ _ _ P) as (I1 & I2 & I3).
    assert (N1 : NoDup (map num (born ++ l)) /\ NoDup (map num (concat (map fst steps))) /\ forall p q, In p (born ++ l) -> In q (concat (map fst steps)) -> num p <> num q).
    { rewrite app_assoc, map_app in N. rewrite !map_app in *. 
      assert (Q : forall A (a b : list A), NoDup (a ++ b) -> NoDup a /\ NoDup b /\ forall x, In x a -> ~ In x b).
      { clear. intros A a b. induction a as [|x a IH]; cbn; intros N; [split; [constructor|tauto]|].
        apply NoDup_cons_iff in N. destruct N as [N1 N2]. destruct (IH N2) as (B1 & B2 & B3). rewrite in_app_iff in N1.
        split; [constructor; tauto|]. split; [exact B2|]. intros y [<-|Y]; [tauto|now apply B3]. }
      destruct (Q _ _ _ N) as (Q1 & Q2 & Q3). destruct (Q _ _ _ Q1) as (L1 & B1 & LB).
      split; [|split; [exact Q2|]].
      - apply (Permutation_NoDup (l := map num l ++ map num born)); [apply Permutation_app_comm|exact Q1].
      - intros p q IP IQ K. apply (Q3 (num p)); [|rewrite K; now apply in_map].
        rewrite in_app_iff. apply in_app_or in IP. destruct IP; [right|left]; now apply in_map. }
    destruct N1 as (N1 & N2 & N3). destruct (I3 N1) as (A1 & A2 & A3).
    assert (NN : NoDup (map num (rest1 ++ concat (map fst steps)))).
    { rewrite map_app. assert (Q : forall A (a b : list A), NoDup a -> NoDup b -> (forall x, In x a -> ~ In x b) -> NoDup (a ++ b)).
      { clear. intros A a b. induction a as [|x a IH]; cbn; intros Na Nb D; [exact Nb|]. apply NoDup_cons_iff in Na. destruct Na as [X Na].
        constructor; [rewrite in_app_iff; intros [K|K]; [tauto|apply (D x); tauto]|]. apply IH; trivial. intros y Y. apply D. tauto. }
      apply Q; trivial. intros x X Y. apply in_map_iff in X, Y. destruct X as (p & <- & X), Y as (q & K & Y). apply (N3 p q (I2 p X) Y). congruence. }
    destruct (IH _ _ _ R NN) as (J1 & J2 & J3 & J4).
    assert (D12 : forall p q, In p recs1 -> In q rest1 \/ In q (concat (map fst steps)) -> num p <> num q).
    { intros p q IP [Q|Q]; [now apply A3|]. apply N3; trivial. now apply I1. }
    split; [|split; [|split]].
    + intros p [Q|Q].
      * apply in_app_or in Q. destruct Q as [Q|Q].
        -- apply I1, in_app_or in Q. rewrite in_app_iff. tauto.
        -- destruct (J1 p (or_introl Q)) as [K|K]; [apply I2, in_app_or in K|]; rewrite in_app_iff; tauto.
      * destruct (J1 p (or_intror Q)) as [K|K]; [apply I2, in_app_or in K|]; rewrite in_app_iff; tauto.
    + rewrite map_app. assert (Q : forall A (a b : list A), NoDup a -> NoDup b -> (forall x, In x a -> ~ In x b) -> NoDup (a ++ b)).
      { clear. intros A a b. induction a as [|x a IH]; cbn; intros Na Nb D; [exact Nb|]. apply NoDup_cons_iff in Na. destruct Na as [X Na].
        constructor; [rewrite in_app_iff; intros [K|K]; [tauto|apply (D x); tauto]|]. apply IH; trivial. intros y Y. apply D. tauto. }
      apply Q; trivial. intros x X Y. apply in_map_iff in X, Y. destruct X as (p & <- & X), Y as (q & K & Y).
      apply (D12 p q X); [apply J1; tauto|congruence].
    + exact J3.
    + intros p q X Y. apply in_app_or in X. destruct X as [X|X]; [|now apply J4]. apply (D12 p q X). apply J1. tauto.
Qed.

(** ** What is not so *)
Definition bh (th : R) : rim := Rim true (fun _ => th) (fun _ => 0) (fun _ => 1) 2
  (fun d => match d with D1 => REscape | D2 => REscape | D3 => RPeriodic end) (fun d => match d with D1 => RCamera | D2 => REscape | D3 => RPeriodic end).
Lemma bh_supported th : supported (bh th).
Proof. intros [| |]; cbn; tauto. Qed.
Lemma bh_in : forall X tracer, 0 <= X D1 <= (if tracer : bool then 2 else 1) -> 0 <= X D2 <= 1 -> in_domain (bh (PI / 2)) tracer X.
Proof. intros X tracer H1 H2. pose proof PI_RGT_0. split; [cbn; lra|]. intros [| |]; cbn; split; intros; try lra; try congruence. Qed.
Definition far : dir -> R := fun d => match d with D1 => 3 / 2 | _ => 1 / 2 end.
Definition mid : dir -> R := fun _ => 1 / 2.
(** the camera is asked before the packet's errors are *)
Lemma camera_bad : exists c v, supported c /\ 0 < k_0 v /\ weight v < SMALL /\ interp_ok v = false /\ bound_packet c false v = Some (Lost, true).
Proof.
  exists (bh (PI / 2)), (View far false 0 1 false). split; [apply bh_supported|]. cbn [k_0 weight interp_ok]. split; [lra|]. split; [apply Rinv_0_lt_compat, pow_lt; lra|].
  split; [reflexivity|]. unfold bound_packet. cbn [pos].
  destruct (bound_rad_isactive (bh (PI / 2)) false far) as [|a r] eqn:E; [exfalso; revert E; apply supported_ok, bh_supported|].
  destruct (active_ok _ _ _ _ _ E) as [_ RC]. cbn [interp_ok]. rewrite orb_true_r. replace r with true; [reflexivity|]. symmetry. apply RC. cbn. repeat split; trivial. lra.
Qed.
(** fluid in the ergosphere with a positive covariant time component *)
Definition ergo_u : vec := fun i => match i with 0%nat => 97 / 6 | 1%nat => - (5 / 2) | 3%nat => - (5 / 3) | _ => 0 end.
Definition ergo_g : mat := ks_gcov (4 / 5) (9 / 5) (PI / 2).
Lemma ergo_values : dot2 ergo_g ergo_u ergo_u = -1 /\ lower ergo_u ergo_g 0%nat = 1 / 2.
Proof. unfold dot2, lower, sum4, ergo_g, ergo_u, ks_gcov. rewrite cos_PI2, sin_PI2. split; field. Qed.
Lemma tracer_lost : exists a r th u v c, a * a < 1 /\ 1 + sqrt (1 - a * a) < r /\ 0 < u 0%nat /\ dot2 (ks_gcov a r th) u u = -1 /\
  k_0 v = lower u (ks_gcov a r th) 0%nat /\ weight v = 1 /\ interp_ok v = true /\ supported c /\ in_domain c true (pos v) /\ bound_packet c true v = Some (Lost, false).
Proof.
  exists (4 / 5), (9 / 5), (PI / 2), ergo_u, (View mid true 1 (1 / 2) false), (bh (PI / 2)). destruct ergo_values as [E1 E2].
  split; [lra|]. split. { replace (1 - 4 / 5 * (4 / 5)) with ((3 / 5) * (3 / 5)) by lra. rewrite sqrt_square by lra. lra. }
  split; [cbn; lra|]. split; [exact E1|]. split; [cbn [k_0]; symmetry; exact E2|]. split; [reflexivity|]. split; [reflexivity|]. split; [apply bh_supported|].
  assert (I : in_domain (bh (PI / 2)) true mid) by (apply bh_in; unfold mid; lra).
  split; [exact I|]. unfold bound_packet. cbn [pos].
  destruct (bound_rad_isactive (bh (PI / 2)) true mid) as [|a r] eqn:E; [exfalso; revert E; apply supported_ok, bh_supported|].
  destruct (active_ok _ _ _ _ _ E) as [AC RC]. assert (r = false) as ->. { destruct r; [|reflexivity]. destruct (proj1 RC eq_refl). discriminate. }
  assert (rad_error_check 1 (1 / 2) = false) as K. { destruct (rad_error_check 1 (1 / 2)) eqn:Q; [|reflexivity]. apply error_ok in Q. lra. }
  cbn [weight k_0]. rewrite K. rewrite orb_true_r. reflexivity.
Qed.
(** two degrees from the axis, far from every edge *)
Lemma axis_lost : exists c X, supported c /\ (forall d, lo c d < X d < hi c d) /\ bound_rad_isactive c true X = Act false false /\ bound_rad_isactive c false X = Act false false.
Proof.
  exists (bh (PI / 90)), mid. split; [apply bh_supported|]. split; [intros d; unfold mid; cbn; lra|]. pose proof PI_RGT_0.
  split.
  - destruct (bound_rad_isactive (bh (PI / 90)) true mid) as [|a r] eqn:E; [exfalso; revert E; apply supported_ok, bh_supported|].
    destruct (active_ok _ _ _ _ _ E) as [AC RC]. f_equal; [destruct a|destruct r]; trivial; exfalso.
    + destruct (proj1 AC eq_refl) as [K _]. specialize (K eq_refl). cbn in K. lra.
    + destruct (proj1 RC eq_refl). discriminate.
  - destruct (bound_rad_isactive (bh (PI / 90)) false mid) as [|a r] eqn:E; [exfalso; revert E; apply supported_ok, bh_supported|].
    destruct (active_ok _ _ _ _ _ E) as [AC RC]. f_equal; [destruct a|destruct r]; trivial; exfalso.
    + destruct (proj1 AC eq_refl) as [K _]. specialize (K eq_refl). cbn in K. lra.
    + destruct (proj1 RC eq_refl) as (_ & _ & K & _). unfold mid in K. cbn in K. lra.
Qed.
