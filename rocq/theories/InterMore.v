From Coq Require Import Reals Bool Arith List Lia Lra Permutation.
From Verif Require Import RLib GeomModel InterModel InterSpec InterProofs InterTimes InterCases.
Import ListNotations.
Open Scope R_scope.

Section More.
Variable ABS : bool.
Variables n1 n2 n3 : nat.
Variables t dt d3x kphys : R.
Variable Kat : packet -> sample -> vec.
Notation step := (step ABS n1 n2 n3 t dt d3x kphys Kat).
Notation run := (run ABS n1 n2 n3 t dt d3x kphys Kat).
Notation settle := (settle t).

(** ** Packets removed and packets passed over *)
Lemma step_removed nid s m ph rest : todo s = ph :: rest -> at_ m = Bad ->
  Permutation (ph :: packets (step nid s m)) (packets s) /\ radG (step nid s m) = radG s /\ events (step nid s m) = events s.
Proof.
  intros T B. unfold InterModel.step. rewrite T, B, settle_radG, settle_events. split; [|auto].
  rewrite settle_perm. unfold packets. rewrite T. apply Permutation_middle.
Qed.
Lemma step_passed nid s m : at_ m = Skip \/ (at_ m = Good /\ (decide ABS (xabs m) (dabs m) (chans m) = Nothing \/ interp_ok m = false)) ->
  Permutation (packets (step nid s m)) (packets s) /\ radG (step nid s m) = radG s /\ events (step nid s m) = events s.
Proof.
  intros H. destruct (todo s) as [|ph rest] eqn:T; [rewrite step_done by exact T; auto|].
  assert (E : step nid s m = settle (ph :: done s) rest (radG s) (events s)).
  { unfold InterModel.step, advance. rewrite T. destruct H as [-> |(-> & [-> | ->])]; try reflexivity.
    destruct (decide _ _ _ _); reflexivity. }
  rewrite E, settle_radG, settle_events. split; [|auto]. rewrite settle_perm. unfold packets. rewrite T. cbn. apply Permutation_middle.
Qed.

(** ** Tracers and packets without weight *)
Definition aside (p : packet) (s : state) : Prop := In p (done s) \/ In p (tl (todo s)).
Definition idle (p : packet) : Prop := tracer p = true \/ w p < SMALL.
Lemma settle_aside p d td g e : idle p -> In p d \/ In p td -> aside p (settle d td g e).
Proof.
  intros Q. revert d. induction td as [|q td IH]; intros d H; cbn [InterModel.settle].
  - unfold aside. cbn. tauto.
  - destruct (Rltb (w q) SMALL || tracer q) eqn:C.
    + apply IH. cbn in *. tauto.
    + unfold aside. cbn in *. destruct H as [H|[->|H]]; auto. exfalso. apply orb_false_iff in C. destruct C as (C1 & C2).
      destruct Q as [Q|Q]; [congruence|]. destruct (Rltb_spec (w p) SMALL); [discriminate|lra].
Qed.
Lemma step_aside p nid s m : idle p -> aside p s -> aside p (step nid s m).
Proof.
  intros Q H. destruct (todo s) as [|ph rest] eqn:T; [rewrite step_done by exact T; exact H|].
  pose proof (step_effect ABS n1 n2 n3 t dt d3x kphys Kat nid s m ph rest T) as E. unfold aside in H. rewrite T in H. cbn [tl] in H.
  destruct E; try (apply settle_aside; [exact Q|cbn; tauto]).
  destruct (Nat.ltb _ _); [unfold aside; cbn; tauto|apply settle_aside; [exact Q|cbn; tauto]].
Qed.
Lemma aside_in p s : aside p s -> In p (packets s).
Proof. unfold aside, packets. rewrite in_app_iff. destruct (todo s); cbn; tauto. Qed.

Hypothesis (Dt : 0 <= dt).
Notation good := (good t dt).
(** the events of a pass: at most one is added, by the packet in hand, not before its time *)
Lemma step_events nid s m ph rest : todo s = ph :: rest -> sound m -> good nid s -> forall e, In e (events (step nid s m)) ->
  In e (events s) \/ (eid e = id ph /\ tmin s <= when e).
Proof.
  intros T So G e. pose proof (step_effect ABS n1 n2 n3 t dt d3x kphys Kat nid s m ph rest T) as E.
  pose proof (g_head _ _ _ _ G) as H. rewrite T in H. destruct H as (_ & Ht & _).
  destruct E; try (rewrite settle_events); auto.
  - intros [<-|I]; [right|auto]. destruct (sound_abs_frac ABS m So H1) as (F1 & F2).
    destruct (advance_time t dt (xabs m / dabs m) (tmin s) Ht ltac:(lra)) as (W1 & W2). cbn. split; [reflexivity|lra].
  - destruct (bias_ok ABS m n f So H1) as (_ & F). destruct (advance_time t dt f (tmin s) Ht ltac:(lra)) as (W1 & W2).
    destruct (Nat.ltb _ _); [cbn [events]|rewrite settle_events]; intros [<-|I]; auto; right; cbn; split; auto; unfold tsc; lra.
Qed.
Lemma head_id nid s ph rest p : good nid s -> todo s = ph :: rest -> aside p s -> id p <> id ph.
Proof.
  intros G T A E. pose proof (g_nodup _ _ _ _ G) as N. unfold packets in N. rewrite T in N.
  unfold aside in A. rewrite T in A. cbn [tl] in A. rewrite map_app in N. cbn [map] in N. apply NoDup_remove_2 in N. apply N.
  rewrite <- E, <- map_app. apply in_map, in_or_app. exact A.
Qed.
Lemma run_idle p : idle p -> forall l nid s, Forall sound l -> good nid s -> aside p s -> (forall e, In e (events s) -> eid e <> id p) ->
  aside p (run nid s l) /\ forall e, In e (events (run nid s l)) -> eid e <> id p.
Proof.
  intros Q. induction l as [|m l IH]; intros nid s S G A N; cbn [InterModel.run]; [auto|].
  apply IH; [eapply Forall_inv_tail; eauto|apply step_good; auto; eapply Forall_inv; eauto|apply step_aside; auto|].
  intros e I. destruct (todo s) as [|ph rest] eqn:T; [rewrite step_done in I by exact T; auto|].
  destruct (step_events nid s m ph rest T (Forall_inv S) G e I) as [J|(J & _)]; [auto|].
  rewrite J. intros K. exact (head_id _ _ _ _ _ G T A (eq_sym K)).
Qed.
Lemma idle_untouched nid ps l p : NoDup (map id ps) -> (forall p, In p ps -> (id p < nid)%nat /\ t0 p <= t + dt) -> Forall sound l ->
  In p ps -> idle p -> In p (packets (run nid (start t ps) l)) /\ history (id p) (run nid (start t ps) l) = [].
Proof.
  intros A B C I Q. destruct (run_idle p Q l nid (start t ps) C) as (D & E).
  - apply start_good; auto.
  - apply settle_aside; auto.
  - unfold start. rewrite settle_events. intros e [].
  - split; [apply aside_in, D|]. unfold history. destruct (filter _ _) as [|e r] eqn:F; [reflexivity|exfalso].
    assert (J : In e (filter (of (id p)) (events (run nid (start t ps) l)))) by (rewrite F; left; reflexivity).
    apply filter_In in J. destruct J as (J1 & J2). apply of_spec in J2. exact (E e J1 J2).
Qed.

(** ** Not before birth *)
Record born (i : nat) (tau : R) (s : state) : Prop := {
  b_p : forall q, In q (packets s) -> id q = i -> t0 q = tau;
  b_e : forall e, In e (events s) -> eid e = i -> tau <= when e }.
Definition awake (s : state) : Prop := match todo s with [] => True | ph :: _ => t0 ph <= tmin s end.
Definition mature (s : state) : Prop := forall q e, In q (packets s) -> In e (events s) -> eid e = id q -> t0 q <= when e.
Lemma settle_awake d td g e : awake (settle d td g e).
Proof.
  revert d. induction td as [|q td IH]; intros d; cbn [InterModel.settle]; [exact I|]. destruct (_ || _); [apply IH|].
  unfold awake. cbn. unfold MY_MAX. rcases; lra.
Qed.
Lemma step_awake nid s m : sound m -> good nid s -> awake s -> awake (step nid s m).
Proof.
  intros So G A. destruct (todo s) as [|ph rest] eqn:T; [rewrite step_done by exact T; exact A|].
  pose proof (step_effect ABS n1 n2 n3 t dt d3x kphys Kat nid s m ph rest T) as E. unfold awake in A. rewrite T in A.
  pose proof (g_head _ _ _ _ G) as H. rewrite T in H. destruct H as (_ & Ht & _).
  destruct E; try apply settle_awake. destruct (Nat.ltb _ _); [|apply settle_awake].
  destruct (bias_ok ABS m n f So H1) as (_ & F). destruct (advance_time t dt f (tmin s) Ht ltac:(lra)) as (W1 & W2).
  unfold awake. cbn. unfold tsc. lra.
Qed.
(** the packets after a pass: old ones, the packet in hand with the same name and birth, a new one *)
Lemma step_packets nid s m ph rest : todo s = ph :: rest -> forall q, In q (packets (step nid s m)) ->
  (In q (done s) \/ In q rest) \/ (id q = id ph /\ t0 q = t0 ph) \/ id q = nid.
Proof.
  intros T q. pose proof (step_effect ABS n1 n2 n3 t dt d3x kphys Kat nid s m ph rest T) as E.
  destruct E; try (rewrite (settle_in t Kat); cbn [In]; intros [[<-|I]|I]; auto; fail).
  - rewrite (settle_in t Kat). tauto.
  - destruct (Nat.ltb _ _).
    + unfold packets. cbn [done todo]. rewrite in_app_iff. cbn [In]. intros [I|[<-|[<-|I]]]; auto.
    + rewrite (settle_in t Kat). cbn [In]. intros [I|[<-|[<-|I]]]; auto.
Qed.
Lemma step_born i tau nid s m : (i < nid)%nat -> sound m -> good nid s -> awake s -> born i tau s -> born i tau (step nid s m).
Proof.
  intros L So G A B. destruct (todo s) as [|ph rest] eqn:T; [rewrite step_done by exact T; exact B|].
  assert (HB : id ph = i -> t0 ph = tau) by (intros E; apply (b_p _ _ _ B); [unfold packets; rewrite T, in_app_iff; cbn; auto|exact E]).
  constructor.
  - intros q I E. destruct (step_packets nid s m ph rest T q I) as [J|[(J1 & J2)|J]].
    + apply (b_p _ _ _ B); [|exact E]. unfold packets. rewrite T, in_app_iff. cbn. tauto.
    + rewrite J2. apply HB. congruence.
    + lia.
  - intros e I E. destruct (step_events nid s m ph rest T So G e I) as [J|(J1 & J2)]; [exact (b_e _ _ _ B e J E)|].
    unfold awake in A. rewrite T in A. rewrite <- (HB ltac:(congruence)). lra.
Qed.
Lemma step_mature nid s m : sound m -> good nid s -> awake s -> mature s -> mature (step nid s m).
Proof.
  intros So G A M. destruct (todo s) as [|ph rest] eqn:T; [rewrite step_done by exact T; exact M|].
  unfold awake in A. rewrite T in A. intros q e I J E.
  destruct (step_events nid s m ph rest T So G e J) as [K|(K1 & K2)].
  - destruct (step_packets nid s m ph rest T q I) as [L|[(L1 & L2)|L]].
    + apply (M q e); auto. unfold packets. rewrite T, in_app_iff. cbn. tauto.
    + rewrite L2. apply (M ph e); auto; [unfold packets; rewrite T, in_app_iff; cbn; auto|congruence].
    + pose proof (g_ev _ _ _ _ G e K). lia.
  - destruct (step_packets nid s m ph rest T q I) as [L|[(L1 & L2)|L]].
    + exfalso. apply (head_id nid s ph rest q G T); [|congruence]. unfold aside. rewrite T. cbn. exact L.
    + lra.
    + assert (id ph < nid)%nat by (apply (g_ids _ _ _ _ G); unfold packets; rewrite T, in_app_iff; cbn; auto). lia.
Qed.
Lemma run_mature l : forall nid s, Forall sound l -> good nid s -> awake s -> mature s -> mature (run nid s l).
Proof.
  induction l as [|m l IH]; intros nid s S G A M; cbn [InterModel.run]; [auto|]. pose proof (Forall_inv S) as So.
  apply IH; [eapply Forall_inv_tail; eauto|apply step_good; auto|apply (step_awake nid); auto|apply (step_mature nid); auto].
Qed.
Lemma run_born i tau l : forall nid s, (i < nid)%nat -> Forall sound l -> good nid s -> awake s -> born i tau s -> born i tau (run nid s l).
Proof.
  induction l as [|m l IH]; intros nid s L S G A M; cbn [InterModel.run]; [auto|]. pose proof (Forall_inv S) as So.
  apply IH; [lia|eapply Forall_inv_tail; eauto|apply step_good; auto|apply (step_awake nid); auto|apply (step_born _ _ nid); auto].
Qed.
Lemma not_before_birth nid ps l : NoDup (map id ps) -> (forall p, In p ps -> (id p < nid)%nat /\ t0 p <= t + dt) -> Forall sound l ->
  let s := run nid (start t ps) l in
  forall p e, In p ps \/ In p (packets s) -> In e (history (id p) s) -> t0 p <= when e.
Proof.
  intros A B C s p e I J. apply filter_In in J. destruct J as (J1 & J2). apply of_spec in J2.
  pose proof (start_good t dt Kat Dt nid ps A B) as G. assert (W : awake (start t ps)) by apply settle_awake.
  destruct I as [I|I].
  - apply (b_e (id p) (t0 p) s); auto. apply (run_born (id p) (t0 p) l nid); auto; [apply B, I|]. constructor.
    + intros q K E. unfold start in K. rewrite (settle_in t Kat) in K. destruct K as [[]|K].
      replace q with p; [reflexivity|]. clear - A I K E. induction ps as [|x ps IH]; [destruct I|]. cbn in A. apply NoDup_cons_iff in A. destruct A as (A1 & A2).
      destruct I as [->|I], K as [->|K]; auto; exfalso; apply A1; [rewrite <- E|rewrite E]; apply in_map; assumption.
    + unfold start. rewrite settle_events. intros x [].
  - apply (run_mature l nid (start t ps)); auto. intros q x _. unfold start. rewrite settle_events. intros [].
Qed.
End More.
(** a tracer before a packet that is born in the middle of the step and scatters then *)
Definition late : list packet := [mkp 0 1 (fun _ => 0) 0 true; mkp 1 1 (fun _ => 1) (1 / 2) false].
Lemma late_ok : NoDup (map id late) /\ (forall p, In p late -> (id p < 2)%nat /\ t0 p <= 0 + 1) /\ Forall sound [half true true].
Proof.
  split; [repeat constructor; cbn; intuition lia|]. split; [|constructor; [apply half_sound|constructor]].
  intros p [<-|[<-|[]]]; cbn; split; lia || lra.
Qed.
Lemma late_event : exists e, history 1 (run false 1 1 1 0 1 1 1 Kflat 2 (start 0 late) [half true true]) = [e] /\ when e = 3 / 4.
Proof.
  assert (S : start 0 late = mkst [mkp 0 1 (fun _ => 0) 0 true] [mkp 1 1 (fun _ => 1) (1 / 2) false] 0 (1 / 2) [] []).
  { unfold start, late. cbn [settle tracer w t0]. rewrite orb_true_r. rewrite Rltb_false by (pose proof SMALL_1; lra). cbn [orb]. f_equal. unfold MY_MAX. rcases; lra. }
  rewrite S. cbn [run]. rewrite (step_half 2 _ (mkp 1 1 (fun _ => 1) (1 / 2) false) []) by reflexivity. cbn. eexists. split; [reflexivity|]. cbn. lra.
Qed.
