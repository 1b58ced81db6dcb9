From Coq Require Import Reals Bool Arith List Lia Lra Sorting.
From Verif Require Import RLib GeomModel InterModel InterSpec.
Import ListNotations.
Open Scope R_scope.

Lemma SMALL_pos : 0 < SMALL.
Proof. unfold SMALL. apply Rinv_0_lt_compat, pow_lt. lra. Qed.

Lemma div_lt a b c d : 0 < b -> 0 < d -> (a / b < c / d <-> a * d < c * b).
Proof.
  intros B D. replace (a * d) with (a / b * (b * d)) by (field; lra). replace (c * b) with (c / d * (b * d)) by (field; lra).
  assert (0 < b * d) by (apply Rmult_lt_0_compat; auto). split; intros H0.
  - apply Rmult_lt_compat_r; auto.
  - apply Rmult_lt_reg_r in H0; auto.
Qed.
Lemma div_before x d x' d' : 0 <= d -> 0 <= d' -> (x / (d + SMALL) < x' / (d' + SMALL) <-> before x d x' d').
Proof. intros. pose proof SMALL_pos. unfold before. apply div_lt; lra. Qed.

(** ** The choice *)
Lemma first_min_spec l : forall i best f n g, first_min l i best f = (n, g) ->
  (n = best /\ g = f /\ Forall (fun c => f <= frac c) l) \/
  (exists k c, n = (i + k)%nat /\ nth_error l k = Some c /\ g = frac c /\ g < f /\ Forall (fun c => g <= frac c) l /\
     Forall (fun c => g < frac c) (firstn k l)).
Proof.
  induction l as [|c l IH]; intros i best f n g H; cbn [first_min] in H.
  - inversion H; subst. left. auto.
  - destruct (Rltb_spec (frac c) f) as [L|L].
    + apply IH in H. right. destruct H as [(-> & -> & F)|(k & c' & -> & N & -> & L' & F & G)].
      * exists 0%nat, c. split; [lia|]. split; [reflexivity|]. split; [reflexivity|]. split; [lra|]. split; [constructor; auto; lra|constructor].
      * exists (S k), c'. split; [lia|]. split; [exact N|]. split; [reflexivity|]. split; [lra|]. split; [constructor; auto; lra|cbn [firstn]; constructor; auto; lra].
    + apply IH in H. destruct H as [(-> & -> & F)|(k & c' & -> & N & -> & L' & F & G)].
      * left. repeat split; auto. constructor; auto. lra.
      * right. exists (S k), c'. split; [lia|]. split; [exact N|]. split; [reflexivity|]. split; [lra|]. split; [constructor; auto; lra|cbn [firstn]; constructor; auto; lra].
Qed.
Lemma first_min_chans c l n g : first_min (c :: l) 0 0 (frac c) = (n, g) ->
  exists c', nth_error (c :: l) n = Some c' /\ g = frac c' /\ Forall (fun c => g <= frac c) (c :: l) /\
    Forall (fun c => g < frac c) (firstn n (c :: l)).
Proof.
  intros H. apply first_min_spec in H. destruct H as [(-> & -> & F)|(k & c' & -> & N & -> & L & F & G)].
  - exists c. repeat split; auto. constructor.
  - exists c'. repeat split; auto.
Qed.

Definition okc (c : chan) := 0 < xs c /\ 0 <= ds c /\ 1 <= bs c.

Section Choice.
Variables (ABS : bool) (xa da : R) (l : list chan).
Hypothesis (Xa : 0 < xa) (Da : 0 <= da) (L : Forall okc l).
Definition can_abs := Rleb xa da && ABS.
Definition can_scat := match l with [] => false | _ => forallb (fun c => Rleb (xs c) (ds c)) l end.
Definition abs_first := forallb (fun c => Rltb (xa / (da + SMALL)) (frac c)) l.
Lemma can_abs_spec : can_abs = true <-> ABS = true /\ xa <= da.
Proof. unfold can_abs. rewrite andb_true_iff. destruct (Rleb_spec xa da); intuition discriminate. Qed.
Lemma can_scat_spec : can_scat = true <-> l <> [] /\ Forall reached l.
Proof.
  unfold can_scat. destruct l as [|c l']; [intuition discriminate|].
  rewrite forallb_forall, Forall_forall. split.
  - intros H. split; [discriminate|]. intros x I. specialize (H x I). destruct (Rleb_spec (xs x) (ds x)); auto. discriminate.
  - intros (_ & H) x I. specialize (H x I). destruct (Rleb_spec (xs x) (ds x)); auto.
Qed.
Lemma abs_first_spec : abs_first = true <-> Forall (fun c => before xa da (xs c) (ds c)) l.
Proof.
  unfold abs_first. rewrite forallb_forall, Forall_forall. rewrite Forall_forall in L. split; intros H x I; specialize (H x I);
    destruct (L x I) as (_ & D & _).
  - destruct (Rltb_spec (xa / (da + SMALL)) (frac x)) as [Q|]; [|discriminate]. apply div_before in Q; auto.
  - destruct (Rltb_spec (xa / (da + SMALL)) (frac x)) as [Q|Q]; auto. exfalso. apply Q. apply div_before; auto.
Qed.
Lemma decide_unfold : decide ABS xa da l = if negb (can_abs || can_scat) then Nothing
  else if can_abs && abs_first then Absorb
  else match l with [] => Nothing | c :: _ => let '(n, f) := first_min l 0 0 (frac c) in Scatter n f end.
Proof. reflexivity. Qed.

Lemma decide_absorb : decide ABS xa da l = Absorb <->
  ABS = true /\ xa <= da /\ Forall (fun c => before xa da (xs c) (ds c)) l.
Proof.
  assert (E : (ABS = true /\ xa <= da /\ Forall (fun c => before xa da (xs c) (ds c)) l) <-> can_abs = true /\ abs_first = true)
    by (rewrite can_abs_spec, abs_first_spec; tauto).
  rewrite E, decide_unfold. destruct can_abs; cbn [orb negb andb].
  - destruct abs_first; [tauto|]. destruct l as [|c l']; [|destruct (first_min _ _ _ _)]; intuition discriminate.
  - destruct can_scat; cbn [negb]; [|intuition discriminate]. destruct l as [|c l']; [|destruct (first_min _ _ _ _)]; intuition discriminate.
Qed.
Lemma decide_nothing : decide ABS xa da l = Nothing <->
  ~ (ABS = true /\ xa <= da) /\ ~ (l <> [] /\ Forall reached l).
Proof.
  rewrite <- can_abs_spec, <- can_scat_spec, decide_unfold. destruct can_abs eqn:A, can_scat eqn:S; cbn [orb negb andb]; try (intuition discriminate).
  - destruct abs_first; [intuition discriminate|]. unfold can_scat in S; destruct l as [|c l']; [discriminate S|]. destruct (first_min _ _ _ _). intuition discriminate.
  - destruct abs_first eqn:F; [intuition discriminate|]. unfold abs_first in F. destruct l as [|c l']; [discriminate F|]. destruct (first_min _ _ _ _). intuition discriminate.
  - unfold can_scat in S; destruct l as [|c l']; [discriminate S|]. destruct (first_min _ _ _ _). intuition discriminate.
Qed.
Lemma decide_scatter n f : decide ABS xa da l = Scatter n f ->
  exists c, nth_error l n = Some c /\ f = xs c / (ds c + SMALL) /\ 0 < f < 1 /\
    (forall c', In c' l -> ~ before (xs c') (ds c') (xs c) (ds c)) /\
    (forall c', In c' (firstn n l) -> before (xs c) (ds c) (xs c') (ds c')) /\
    (ABS = true -> xa <= da -> ~ before xa da (xs c) (ds c)).
Proof.
  rewrite decide_unfold. intros H. pose proof SMALL_pos as SP. pose proof (proj1 (Forall_forall _ _) L) as LL.
  assert (Q : exists c l', l = c :: l' /\ first_min (c :: l') 0 0 (frac c) = (n, f)).
  { destruct (negb _); [discriminate|]. destruct (_ && _); [discriminate|]. destruct l as [|c l']; [discriminate|].
    exists c, l'. split; auto. destruct (first_min _ _ _ _). inversion H; subst; auto. }
  destruct Q as (c0 & l' & E & M). apply first_min_chans in M. rewrite <- E in M.
  destruct M as (c & N & -> & F & G). rewrite Forall_forall in F, G. exists c.
  pose proof (nth_error_In _ _ N) as I. destruct (LL c I) as (X & D & _).
  assert (Fp : 0 < frac c) by (apply Rdiv_lt_0_compat; lra).
  assert (NA : ABS = true -> xa <= da -> ~ before xa da (xs c) (ds c)).
  { intros T1 T2 T3. assert (CA : can_abs = true) by (apply can_abs_spec; auto).
    rewrite CA in H. cbn [orb negb andb] in H. destruct abs_first eqn:AF; [discriminate|].
    assert (abs_first = true); [|congruence]. apply abs_first_spec. apply Forall_forall. intros c' I'.
    apply div_before; auto; [apply (LL c' I')|]. apply (div_before xa da) in T3; auto. specialize (F c' I'). unfold frac in F. lra. }
  split; [exact N|]. split; [reflexivity|]. split; [split; [exact Fp|]|].
  - destruct can_abs eqn:A.
    + apply can_abs_spec in A. destruct A as (A1 & A2). specialize (NA A1 A2). rewrite <- div_before in NA by auto.
      assert (xa / (da + SMALL) < 1).
      { apply (Rmult_lt_reg_r (da + SMALL)); [lra|]. unfold Rdiv. rewrite Rmult_assoc, Rinv_l by lra. lra. }
      unfold frac. lra.
    + destruct can_scat eqn:S; [|cbn in H; discriminate]. apply can_scat_spec in S. destruct S as (_ & S).
      rewrite Forall_forall in S. specialize (S c I). unfold reached in S.
      unfold frac. apply (Rmult_lt_reg_r (ds c + SMALL)); [lra|]. unfold Rdiv. rewrite Rmult_assoc, Rinv_l by lra. lra.
  - split; [|split; [|exact NA]].
    + intros c' I' B. apply div_before in B; [|apply (LL c' I')|exact D]. specialize (F c' I'). unfold frac in F. lra.
    + intros c' I'. apply div_before; [exact D| |exact (G c' I')].
      apply (LL c'). rewrite <- (firstn_skipn n l). apply in_or_app. left. exact I'.
Qed.
End Choice.

(** With a single process a packet interacts exactly if it reaches one of the two
    sampled depths. *)
Lemma decide_single ABS xa da c : okc c ->
  decide ABS xa da [c] <> Nothing <-> (ABS = true /\ xa <= da) \/ reached c.
Proof.
  intros C. rewrite (decide_nothing ABS xa da [c] (Forall_cons _ C (Forall_nil _))).
  assert (E : Forall reached [c] <-> reached c) by (split; [apply Forall_inv|intros; constructor; auto]). rewrite E.
  unfold reached. destruct (Rle_dec xa da), (Rle_dec (xs c) (ds c)), ABS; intuition (try discriminate; try congruence).
Qed.
(** With two it may reach one of them and not interact at all. *)
Lemma decide_refuted : exists ABS xa da l, 0 < xa /\ 0 <= da /\ Forall okc l /\ Exists reached l /\ decide ABS xa da l = Nothing.
Proof.
  exists true, 1, 0, [mkch 1 2 1; mkch 1 0 1]. assert (O : Forall okc [mkch 1 2 1; mkch 1 0 1]).
  { constructor; [|constructor; [|constructor]]; unfold okc; cbn; lra. }
  split; [lra|]. split; [lra|]. split; [exact O|]. split; [left; unfold reached; cbn; lra|].
  apply decide_nothing; auto; try lra. split; [lra|]. intros (_ & F). apply Forall_inv_tail, Forall_inv in F. unfold reached in F. cbn in F. lra.
Qed.

(** ** Sums *)
Lemma rsum_app {A} (f : A -> R) a b : rsum f (a ++ b) = rsum f a + rsum f b.
Proof. induction a as [|x a IH]; cbn; [lra|]. rewrite IH. lra. Qed.
Lemma rsum_pos {A} (f : A -> R) l : (forall a, In a l -> 0 <= f a) -> 0 <= rsum f l.
Proof. induction l as [|x l IH]; intros H; cbn; [lra|]. pose proof (H x (or_introl eq_refl)). assert (0 <= rsum f l) by (apply IH; intros; apply H; right; auto). lra. Qed.

Section Run.
Variable ABS : bool.
Variables n1 n2 n3 : nat.
Variables t dt d3x kphys : R.
Variable Kat : packet -> sample -> vec.
Notation step := (step ABS n1 n2 n3 t dt d3x kphys Kat).
Notation run := (run ABS n1 n2 n3 t dt d3x kphys Kat).
Notation settle := (settle t).

Lemma settle_sum f d td g e : rsum f (packets (settle d td g e)) = rsum f d + rsum f td.
Proof.
  revert d. induction td as [|p td IH]; intros d; cbn [InterModel.settle].
  - unfold packets. cbn. rewrite rsum_app. reflexivity.
  - destruct (_ || _); [rewrite IH; cbn; lra|]. unfold packets. cbn [done todo]. rewrite rsum_app. reflexivity.
Qed.
Lemma settle_radG d td g e : radG (settle d td g e) = g.
Proof. revert d. induction td as [|p td IH]; intros d; cbn [InterModel.settle]; auto. destruct (_ || _); auto. Qed.
Lemma settle_events d td g e : events (settle d td g e) = e.
Proof. revert d. induction td as [|p td IH]; intros d; cbn [InterModel.settle]; auto. destruct (_ || _); auto. Qed.
Lemma sum_head f s ph rest : todo s = ph :: rest -> rsum f (packets s) = rsum f (done s) + f ph + rsum f rest.
Proof. intros H. unfold packets. rewrite rsum_app, H. cbn. lra. Qed.

(** What a pass does, in the six ways it can go. *)
Inductive effect (nid : nat) (s : state) (m : sample) (ph : packet) (rest : list packet) : state -> Prop :=
| ef_removed : at_ m = Bad -> effect nid s m ph rest (settle (done s) rest (radG s) (events s))
| ef_next : at_ m <> Bad -> effect nid s m ph rest (settle (ph :: done s) rest (radG s) (events s))
| ef_absorbed : at_ m = Good -> interp_ok m = true -> decide ABS (xabs m) (dabs m) (chans m) = Absorb ->
   effect nid s m ph rest (settle (mkp (id ph) 0 (K ph) (t0 ph) (tracer ph) :: done s) rest
    ((fold_zone n1 n2 n3 (sz m), fun mu => 1 / (dt * d3x) * w ph * kphys * Kat ph m mu) :: radG s)
    (EAbs (id ph) (tmin s + xabs m / dabs m * (t + dt - tmin s)) (w ph) :: events s))
| ef_scat n f (b := bs (nth n (chans m) (mkch 0 0 0))) :
   at_ m = Good -> interp_ok m = true -> decide ABS (xabs m) (dabs m) (chans m) = Scatter n f -> scatter_ok m = false ->
   effect nid s m ph rest (settle (mkp (id ph) ((1 - 1 / b) * w ph) (K ph) (t0 ph) (tracer ph) :: done s) rest (radG s) (events s))
| ef_push n f (b := bs (nth n (chans m) (mkch 0 0 0))) :
   at_ m = Good -> interp_ok m = true -> decide ABS (xabs m) (dabs m) (chans m) = Scatter n f -> scatter_ok m = true -> push_ok m = false ->
   effect nid s m ph rest (settle (mkp (id ph) ((1 - 1 / b) * w ph) (K ph) (t0 ph) (tracer ph) :: done s) rest
    ((fold_zone n1 n2 n3 (sz m), fun mu => 1 / (dt * d3x) * (w ph / b) * kphys * (Kat ph m mu - K' m mu)) :: radG s) (events s))
| ef_scattered n f (b := bs (nth n (chans m) (mkch 0 0 0))) (tsc := tmin s + f * (t + dt - tmin s))
    (ph' := mkp (id ph) ((1 - 1 / b) * w ph) (K ph) (t0 ph) (tracer ph)) (phs := mkp nid (w ph / b) (K' m) tsc (tracer ph))
    (g := (fold_zone n1 n2 n3 (sz m), fun mu => 1 / (dt * d3x) * (w ph / b) * kphys * (Kat ph m mu - K' m mu)) :: radG s)
    (e := EScat (id ph) tsc (w ph / b) :: events s) :
   at_ m = Good -> interp_ok m = true -> decide ABS (xabs m) (dabs m) (chans m) = Scatter n f -> scatter_ok m = true -> push_ok m = true ->
   effect nid s m ph rest (if Nat.ltb (S (nint s)) MAX_INTERACTIONS then mkst (done s) (ph' :: phs :: rest) (S (nint s)) tsc g e
     else settle (done s) (ph' :: phs :: rest) g e).

Lemma step_effect nid s m ph rest : todo s = ph :: rest -> effect nid s m ph rest (step nid s m).
Proof.
  intros H. unfold step, InterModel.step. rewrite H. unfold advance. rewrite H.
  destruct (at_ m) eqn:A; [constructor; auto|constructor; congruence|].
  destruct (decide _ _ _ _) as [| |n f] eqn:D; [constructor; congruence| |].
  - destruct (interp_ok m) eqn:I; cbn [negb]; [apply ef_absorbed; auto|constructor; congruence].
  - destruct (interp_ok m) eqn:I; cbn [negb]; [|constructor; congruence].
    destruct (scatter_ok m) eqn:S; cbn [negb]; [|apply (ef_scat _ _ _ _ _ n f); auto].
    destruct (push_ok m) eqn:P; cbn [negb]; [|apply (ef_push _ _ _ _ _ n f); auto].
    apply (ef_scattered nid s m ph rest n f); auto.
Qed.
Lemma step_done nid s m : todo s = [] -> step nid s m = s.
Proof. intros H. unfold step, InterModel.step. rewrite H. reflexivity. Qed.

Lemma bias_ok m n f : sound m -> decide ABS (xabs m) (dabs m) (chans m) = Scatter n f ->
  1 <= bs (nth n (chans m) (mkch 0 0 0)) /\ 0 < f < 1.
Proof.
  intros (A & B & C) H. pose proof H as H'. apply (decide_scatter _ _ _ _ A B C) in H. destruct H as (c & N & _ & F & _).
  split; [|exact F]. rewrite (nth_error_nth _ _ _ N). apply nth_error_In in N. rewrite Forall_forall in C. apply (C c N).
Qed.

(** ** Weight *)
Lemma step_weight nid s m : sound m -> smooth m -> weight (step nid s m) + absorbed (step nid s m) = weight s + absorbed s.
Proof.
  intros So (Nb & So' & Pu). destruct (todo s) as [|ph rest] eqn:T; [rewrite step_done; auto|].
  pose proof (step_effect nid s m ph rest T) as E. unfold weight. rewrite (sum_head w s ph rest T).
  destruct E; try congruence.
  - unfold absorbed. rewrite settle_sum, settle_events. cbn. lra.
  - unfold absorbed. rewrite settle_sum, settle_events. cbn. lra.
  - destruct (bias_ok m n f So H1) as (B & _). fold b in B.
    destruct (Nat.ltb _ _).
    + unfold absorbed, packets. cbn [done todo events]. rewrite rsum_app. cbn. field. lra.
    + unfold absorbed. rewrite settle_sum, settle_events. cbn. field. lra.
Qed.
Lemma run_weight l : forall nid s, Forall (fun m => sound m /\ smooth m) l -> weight (run nid s l) + absorbed (run nid s l) = weight s + absorbed s.
Proof.
  induction l as [|m l IH]; intros nid s H; cbn [InterModel.run]; auto.
  rewrite IH by (eapply Forall_inv_tail; eauto). apply Forall_inv in H. apply step_weight; tauto.
Qed.
(** a failed scattering, or a failed push of the scattered packet *)
Lemma step_weight_failed nid s m ph rest n f : todo s = ph :: rest -> sound m -> at_ m = Good -> interp_ok m = true ->
  decide ABS (xabs m) (dabs m) (chans m) = Scatter n f -> scatter_ok m && push_ok m = false ->
  weight (step nid s m) = weight s - w ph / bs (nth n (chans m) (mkch 0 0 0)) /\ events (step nid s m) = events s.
Proof.
  intros T So A I D F. destruct (bias_ok m n f So D) as (B & _). set (b := bs _) in *.
  assert (E : exists g, step nid s m = settle (mkp (id ph) ((1 - 1 / b) * w ph) (K ph) (t0 ph) (tracer ph) :: done s) rest g (events s)).
  { unfold step, InterModel.step. rewrite T, A, D, I. cbn [negb]. destruct (scatter_ok m); cbn [negb andb] in *.
    - rewrite F. cbn [negb]. eexists. reflexivity.
    - eexists. reflexivity. }
  destruct E as (g & ->). unfold weight. rewrite settle_sum, settle_events, (sum_head w s ph rest T). cbn. split; auto. field. lra.
Qed.
Lemma settle_in d td g e p : In p (packets (settle d td g e)) <-> In p d \/ In p td.
Proof.
  revert d. induction td as [|q td IH]; intros d; cbn [InterModel.settle].
  - unfold packets. cbn. rewrite in_app_iff. tauto.
  - destruct (_ || _); [rewrite IH; cbn; tauto|]. unfold packets. cbn [done todo]. rewrite in_app_iff. tauto.
Qed.
Definition nonneg (s : state) := forall p, In p (packets s) -> 0 <= w p.
Lemma step_nonneg nid s m : sound m -> nonneg s -> nonneg (step nid s m).
Proof.
  intros So N. destruct (todo s) as [|ph rest] eqn:T; [rewrite step_done; auto|].
  pose proof (step_effect nid s m ph rest T) as E.
  assert (Nd : forall p, In p (done s) -> 0 <= w p) by (intros; apply N; unfold packets; rewrite in_app_iff; auto).
  assert (Np : 0 <= w ph) by (apply N; unfold packets; rewrite in_app_iff, T; cbn; auto).
  assert (Nr : forall p, In p rest -> 0 <= w p) by (intros; apply N; unfold packets; rewrite in_app_iff, T; cbn; auto).
  assert (Wb : forall b, 1 <= b -> 0 <= w ph / b /\ 0 <= (1 - 1 / b) * w ph).
  { intros b B. assert (0 < / b <= 1).
    { split; [apply Rinv_0_lt_compat; lra|]. rewrite <- Rinv_1. apply Rinv_le_contravar; lra. }
    unfold Rdiv. split; [apply Rmult_le_pos; lra|]. apply Rmult_le_pos; lra. }
  destruct E; intros p; try rewrite settle_in; cbn [In].
  - intros [I|I]; auto.
  - intros [[<-|I]|I]; auto.
  - intros [[<-|I]|I]; cbn; auto; lra.
  - destruct (bias_ok m n f So H1) as (B & _). fold b in B. intros [[<-|I]|I]; auto. apply (Wb b B).
  - destruct (bias_ok m n f So H1) as (B & _). fold b in B. intros [[<-|I]|I]; auto. apply (Wb b B).
  - destruct (bias_ok m n f So H1) as (B & _). fold b in B. destruct (Nat.ltb _ _).
    + unfold packets. cbn [done todo]. rewrite in_app_iff. cbn. intros [I|[<-|[<-|I]]]; auto; apply (Wb b B).
    + rewrite settle_in. cbn. intros [I|[<-|[<-|I]]]; auto; apply (Wb b B).
Qed.
Lemma run_nonneg l : forall nid s, Forall sound l -> nonneg s -> nonneg (run nid s l).
Proof.
  induction l as [|m l IH]; intros nid s H N; cbn [InterModel.run]; auto.
  apply IH; [eapply Forall_inv_tail; eauto|]. apply Forall_inv in H. apply step_nonneg; auto.
Qed.

(** ** Momentum *)
Hypothesis (Dt : dt * d3x <> 0).
Lemma step_momentum nid s m mu : (forall ph, Kat ph m mu = K ph mu) -> sound m -> smooth m ->
  kphys * momentum (step nid s m) mu + dt * d3x * impulse (step nid s m) mu = kphys * momentum s mu + dt * d3x * impulse s mu.
Proof.
  intros Fr So (Nb & So' & Pu). destruct (todo s) as [|ph rest] eqn:T; [rewrite step_done; auto|].
  pose proof (step_effect nid s m ph rest T) as E. unfold momentum. rewrite (sum_head _ s ph rest T).
  destruct E; try congruence.
  - unfold impulse. rewrite settle_sum, settle_radG. cbn. lra.
  - unfold impulse. rewrite settle_sum, settle_radG. cbn. rewrite Fr. field.
    split; intros Q; apply Dt; rewrite Q; ring.
  - destruct (bias_ok m n f So H1) as (B & _). fold b in B.
    assert (D2 : dt <> 0 /\ d3x <> 0) by (split; intros Q; apply Dt; rewrite Q; ring).
    destruct (Nat.ltb _ _).
    + unfold impulse, packets. cbn [done todo radG]. rewrite rsum_app. unfold g, ph', phs. cbn. rewrite Fr. field. repeat split; try apply D2. lra.
    + unfold impulse. rewrite settle_sum, settle_radG. unfold g, ph', phs. cbn. rewrite Fr. field. repeat split; try apply D2. lra.
Qed.
Lemma run_momentum mu l : forall nid s, (forall ph m, Kat ph m mu = K ph mu) -> Forall (fun m => sound m /\ smooth m) l ->
  kphys * momentum (run nid s l) mu + dt * d3x * impulse (run nid s l) mu = kphys * momentum s mu + dt * d3x * impulse s mu.
Proof.
  induction l as [|m l IH]; intros nid s Fr H; cbn [InterModel.run]; auto.
  rewrite IH; [|exact Fr|eapply Forall_inv_tail; eauto]. apply Forall_inv in H. apply step_momentum; auto; tauto.
Qed.
(** one absorption, in any geometry *)
Lemma step_absorb nid s m ph rest : todo s = ph :: rest -> at_ m = Good -> interp_ok m = true -> decide ABS (xabs m) (dabs m) (chans m) = Absorb ->
  exists g, radG (step nid s m) = (fold_zone n1 n2 n3 (sz m), g) :: radG s /\ (forall mu, dt * d3x * g mu = kphys * (w ph * Kat ph m mu)) /\
    weight (step nid s m) = weight s - w ph /\ In (mkp (id ph) 0 (K ph) (t0 ph) (tracer ph)) (packets (step nid s m)).
Proof.
  intros T A I D. unfold step, InterModel.step. rewrite T, A, D, I. cbn [negb]. eexists. rewrite settle_radG. split; [reflexivity|].
  split; [|split].
  - intros mu. field. split; intros Q; apply Dt; rewrite Q; ring.
  - unfold weight. rewrite settle_sum, (sum_head w s ph rest T). cbn. lra.
  - apply settle_in. cbn. auto.
Qed.
(** the push of the scattered packet fails after the fluid has been given the recoil *)
Lemma step_push_failed nid s m ph rest n f mu : todo s = ph :: rest -> (forall ph, Kat ph m mu = K ph mu) -> sound m ->
  at_ m = Good -> interp_ok m = true -> decide ABS (xabs m) (dabs m) (chans m) = Scatter n f -> scatter_ok m = true -> push_ok m = false ->
  kphys * momentum (step nid s m) mu + dt * d3x * impulse (step nid s m) mu =
  kphys * momentum s mu + dt * d3x * impulse s mu - kphys * (w ph / bs (nth n (chans m) (mkch 0 0 0)) * K' m mu).
Proof.
  intros T Fr So A I D S P. destruct (bias_ok m n f So D) as (B & _). unfold step, InterModel.step. rewrite T, A, D, I, S, P. cbn [negb].
  set (b := bs _) in *. unfold momentum, impulse. rewrite settle_sum, settle_radG, (sum_head _ s ph rest T). cbn. rewrite Fr. field.
  repeat split; try lra; intros Q; apply Dt; rewrite Q; ring.
Qed.
End Run.
Lemma fold_zone_id n1 n2 n3 i j k :
  (n1 = 1%nat -> i = NG) -> (n2 = 1%nat -> j = NG) -> (n3 = 1%nat -> k = NG) -> fold_zone n1 n2 n3 (i, j, k) = (i, j, k).
Proof.
  intros A B C. unfold fold_zone. destruct (Nat.eqb_spec n1 1), (Nat.eqb_spec n2 1), (Nat.eqb_spec n3 1); repeat f_equal; symmetry; auto.
Qed.
