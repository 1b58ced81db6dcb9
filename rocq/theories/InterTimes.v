From Coq Require Import Reals Bool Arith List Lia Lra Sorting Permutation.
From Verif Require Import RLib GeomModel InterModel InterSpec InterProofs.
Import ListNotations.
Open Scope R_scope.

Definition eid (e : event) : nat := match e with EAbs j _ _ | EScat j _ _ => j end.
Lemma of_spec i e : of i e = true <-> eid e = i.
Proof. destruct e; cbn; rewrite Nat.eqb_eq; intuition. Qed.
Definition later (a b : event) := when b <= when a.

Section Times.
Variable ABS : bool.
Variables n1 n2 n3 : nat.
Variables t dt d3x kphys : R.
Variable Kat : packet -> sample -> vec.
Hypothesis (Dt : 0 <= dt).
Notation step := (step ABS n1 n2 n3 t dt d3x kphys Kat).
Notation run := (run ABS n1 n2 n3 t dt d3x kphys Kat).
Notation settle := (settle t).
Notation hist i e := (filter (of i) e).

Record good (nid : nat) (s : state) : Prop := {
  g_nodup : NoDup (map id (packets s));
  g_ids : forall p, In p (packets s) -> (id p < nid)%nat;
  g_ev : forall e, In e (events s) -> (eid e < nid)%nat;
  g_t0 : forall p, In p (packets s) -> t0 p <= t + dt;
  g_in : forall e, In e (events s) -> t <= when e <= t + dt;
  g_sorted : forall i, (length (hist i (events s)) <= 100)%nat -> StronglySorted later (hist i (events s));
  g_head : match todo s with [] => True | ph :: rest =>
    (nint s < 100)%nat /\ t <= tmin s <= t + dt /\
    ((length (hist (id ph) (events s)) < 100)%nat -> length (hist (id ph) (events s)) = nint s /\
       forall e, In e (hist (id ph) (events s)) -> when e <= tmin s) /\
    forall p, In p rest -> hist (id p) (events s) = [] end }.

Lemma settle_perm d td g e : Permutation (packets (settle d td g e)) (d ++ td).
Proof.
  revert d. induction td as [|p td IH]; intros d; cbn [InterModel.settle].
  - unfold packets. cbn. reflexivity.
  - destruct (_ || _); [|unfold packets; cbn; reflexivity]. rewrite IH. cbn. apply Permutation_middle.
Qed.

Lemma settle_good nid d td g e : NoDup (map id (d ++ td)) -> (forall p, In p (d ++ td) -> (id p < nid)%nat) ->
  (forall x, In x e -> (eid x < nid)%nat) -> (forall p, In p (d ++ td) -> t0 p <= t + dt) ->
  (forall x, In x e -> t <= when x <= t + dt) ->
  (forall i, (length (hist i e) <= 100)%nat -> StronglySorted later (hist i e)) ->
  match td with [] => True | ph :: rest => (hist (id ph) e = [] \/ (100 <= length (hist (id ph) e))%nat) /\
    forall p, In p rest -> hist (id p) e = [] end ->
  good nid (settle d td g e).
Proof.
  intros A B C D E F G. pose proof (settle_perm d td g e) as P.
  constructor.
  - eapply Permutation_NoDup; [apply Permutation_map, Permutation_sym, P|exact A].
  - intros p I. apply B. eapply Permutation_in; eauto.
  - rewrite settle_events. exact C.
  - intros p I. apply D. eapply Permutation_in; eauto.
  - rewrite settle_events. exact E.
  - rewrite settle_events. exact F.
  - rewrite settle_events. clear A B C E F P.
    revert d D. induction td as [|ph td IH]; intros d D; cbn [InterModel.settle]; [exact I|].
    destruct (_ || _).
    + apply IH.
      * destruct td as [|q td]; [exact I|]. destruct G as (_ & G). split; [left; apply G; left; reflexivity|].
        intros p I. apply G. right. exact I.
      * intros p I. apply D. revert I. rewrite !in_app_iff. cbn. tauto.
    + cbn [todo nint tmin]. destruct G as (G1 & G2). split; [lia|]. split; [|split; [|exact G2]].
      * assert (t0 ph <= t + dt) by (apply D; rewrite in_app_iff; cbn; auto). unfold MY_MAX. rcases; lra.
      * intros L. destruct G1 as [-> |G1]; [|lia]. cbn. split; [reflexivity|tauto].
Qed.

Lemma hist_cons_other i e l : eid e <> i -> hist i (e :: l) = hist i l.
Proof. intros H. cbn [filter]. destruct (of i e) eqn:O; auto. apply of_spec in O. congruence. Qed.
Lemma hist_cons_same e l : hist (eid e) (e :: l) = e :: hist (eid e) l.
Proof. cbn [filter]. replace (of (eid e) e) with true; auto. symmetry. apply of_spec. reflexivity. Qed.
Lemma hist_in i l e : In e (hist i l) -> In e l.
Proof. intros H. apply filter_In in H. tauto. Qed.

(** Adding an event of the current packet keeps the histories sorted. *)
Lemma add_event nid s ph rest e : good nid s -> todo s = ph :: rest -> eid e = id ph -> tmin s <= when e ->
  forall i, (length (hist i (e :: events s)) <= 100)%nat -> StronglySorted later (hist i (e :: events s)).
Proof.
  intros G T I W i L. pose proof (g_head _ _ G) as H. rewrite T in H. destruct H as (_ & _ & H & _).
  destruct (Nat.eq_dec (eid e) i) as [<-|N].
  - rewrite hist_cons_same in *. cbn [length] in L. rewrite I in *. destruct (H ltac:(lia)) as (_ & H').
    constructor; [apply (g_sorted _ _ G); lia|]. apply Forall_forall. intros x X. specialize (H' x X). unfold later. lra.
  - rewrite hist_cons_other in * by auto. apply (g_sorted _ _ G). exact L.
Qed.

Lemma nodup_map_id (a b : list packet) : map id a = map id b -> NoDup (map id a) -> NoDup (map id b).
Proof. intros ->; auto. Qed.

Lemma good_weaken nid s : good nid s -> good (S nid) s.
Proof.
  intros [A B C D E F G]. constructor; auto; intros x X; [specialize (B x X)|specialize (C x X)]; lia.
Qed.

Lemma sound_abs_frac m : sound m -> decide ABS (xabs m) (dabs m) (chans m) = Absorb -> 0 < xabs m / dabs m <= 1.
Proof.
  intros (A & B & C) D. apply (decide_absorb _ _ _ _ B C) in D. destruct D as (_ & D & _).
  split; [apply Rdiv_lt_0_compat; lra|]. apply (Rmult_le_reg_r (dabs m)); [lra|]. unfold Rdiv. rewrite Rmult_assoc, Rinv_l by lra. lra.
Qed.
Lemma advance_time f a : t <= a <= t + dt -> 0 <= f <= 1 -> a <= a + f * (t + dt - a) <= t + dt.
Proof.
  intros A F. assert (0 <= f * (t + dt - a)) by (apply Rmult_le_pos; lra).
  assert (0 <= (1 - f) * (t + dt - a)) by (apply Rmult_le_pos; lra). lra.
Qed.

Lemma step_good nid s m : sound m -> good nid s -> good (S nid) (step nid s m).
Proof.
  intros So G. destruct (todo s) as [|ph rest] eqn:T.
  { rewrite step_done by exact T. apply good_weaken, G. }
  pose proof (step_effect ABS n1 n2 n3 t dt d3x kphys Kat nid s m ph rest T) as E.
  pose proof (g_nodup _ _ G) as Nd. unfold packets in Nd. rewrite T in Nd.
  assert (Ids : forall p, In p (done s ++ ph :: rest) -> (id p < S nid)%nat)
    by (intros p I; pose proof (g_ids _ _ G p) as Q; unfold packets in Q; rewrite T in Q; specialize (Q I); lia).
  assert (T0 : forall p, In p (done s ++ ph :: rest) -> t0 p <= t + dt)
    by (intros p I; pose proof (g_t0 _ _ G p) as Q; unfold packets in Q; rewrite T in Q; exact (Q I)).
  assert (Ev : forall x, In x (events s) -> (eid x < S nid)%nat) by (intros x X; pose proof (g_ev _ _ G x X); lia).
  pose proof (g_head _ _ G) as H. rewrite T in H. destruct H as (Hn & Ht & Hh & Hr).
  assert (Rest : forall e, (forall p, In p rest -> hist (id p) e = []) ->
     match rest with [] => True | ph :: rest => (hist (id ph) e = [] \/ (100 <= length (hist (id ph) e))%nat) /\ forall p, In p rest -> hist (id p) e = [] end).
  { intros e Q. destruct rest as [|q r]; auto. split; [left; apply Q; left; auto|]. intros; apply Q; right; auto. }
  assert (NdP : NoDup (map id ((ph :: done s) ++ rest))).
  { eapply Permutation_NoDup; [|exact Nd]. apply Permutation_map. cbn. symmetry. apply Permutation_middle. }
  assert (NotIn : forall p, In p rest -> id p <> id ph).
  { intros p I. cbn in NdP. apply NoDup_cons_iff in NdP. destruct NdP as (NI & _). intros Q. apply NI. rewrite <- Q.
    apply in_map, in_or_app. auto. }
  assert (NdP' : forall q, id q = id ph -> NoDup (map id ((q :: done s) ++ rest))).
  { intros q Q. revert NdP. apply nodup_map_id. cbn. rewrite Q. reflexivity. }
  assert (IdsP : forall q, id q = id ph -> forall p, In p ((q :: done s) ++ rest) -> (id p < S nid)%nat).
  { intros q Q p I. cbn in I. destruct I as [<-|I]; [rewrite Q; apply Ids; rewrite in_app_iff; cbn; auto|].
    apply Ids. revert I. rewrite !in_app_iff. cbn. tauto. }
  assert (T0P : forall q, t0 q = t0 ph -> forall p, In p ((q :: done s) ++ rest) -> t0 p <= t + dt).
  { intros q Q p I. cbn in I. destruct I as [<-|I]; [rewrite Q; apply T0; rewrite in_app_iff; cbn; auto|].
    apply T0. revert I. rewrite !in_app_iff. cbn. tauto. }
  pose proof (Rest _ Hr) as Rest0. pose proof (g_in _ _ G) as Gi. pose proof (g_sorted _ _ G) as Gs.
  destruct E.
  - apply settle_good; auto; try (apply NdP'; reflexivity); try (eapply IdsP; reflexivity); try (eapply T0P; reflexivity).
    + rewrite map_app in *. apply NoDup_remove_1 in Nd. exact Nd.
    + intros p I. apply Ids. revert I. rewrite !in_app_iff. cbn. tauto.
    + intros p I. apply T0. revert I. rewrite !in_app_iff. cbn. tauto.
  - apply settle_good; auto; try (apply NdP'; reflexivity); try (eapply IdsP; reflexivity); try (eapply T0P; reflexivity).
  - destruct (sound_abs_frac m So H1) as (F1 & F2).
    destruct (advance_time (xabs m / dabs m) (tmin s) Ht ltac:(lra)) as (W1 & W2).
    apply settle_good; auto; try (apply NdP'; reflexivity); try (eapply IdsP; reflexivity); try (eapply T0P; reflexivity).
    + intros x [<-|X]; [cbn; apply Ids; rewrite in_app_iff; cbn; auto|auto].
    + intros x [<-|X]; [cbn [when]; lra|apply (g_in _ _ G x X)].
    + eapply add_event; eauto.
    + apply Rest. intros p I. rewrite hist_cons_other; [apply Hr, I|]. cbn. intros Q. apply (NotIn p I). auto.
  - apply settle_good; auto; try (apply NdP'; reflexivity); try (eapply IdsP; reflexivity); try (eapply T0P; reflexivity).
  - apply settle_good; auto; try (apply NdP'; reflexivity); try (eapply IdsP; reflexivity); try (eapply T0P; reflexivity).
  - destruct (bias_ok ABS m n f So H1) as (_ & F).
    destruct (advance_time f (tmin s) Ht ltac:(lra)) as (W1 & W2). fold tsc in W1, W2.
    assert (Nid : forall p, In p (done s ++ ph :: rest) -> (id p < nid)%nat)
      by (intros p I; pose proof (g_ids _ _ G p) as Q; unfold packets in Q; rewrite T in Q; exact (Q I)).
    assert (Nd2 : NoDup (map id (done s ++ ph' :: phs :: rest))).
    { apply (Permutation_NoDup (l := nid :: map id (done s ++ ph :: rest))).
      - change (nid :: map id (done s ++ ph :: rest)) with (map id (phs :: (done s ++ ph :: rest))).
        transitivity (map id (done s ++ phs :: ph' :: rest)).
        + rewrite !map_app. cbn [map]. rewrite map_app. cbn [map]. apply (Permutation_middle _ _ _).
        + apply Permutation_map, Permutation_app_head. constructor.
      - constructor; [|exact Nd]. intros I. apply in_map_iff in I. destruct I as (q & Q1 & Q2). specialize (Nid q Q2). lia. }
    assert (Id2 : forall p, In p (done s ++ ph' :: phs :: rest) -> (id p < S nid)%nat).
    { intros p. rewrite in_app_iff. cbn. intros [I|[<-|[<-|I]]]; cbn; try lia; apply Ids; rewrite in_app_iff; cbn; auto. }
    assert (T02 : forall p, In p (done s ++ ph' :: phs :: rest) -> t0 p <= t + dt).
    { intros p. rewrite in_app_iff. cbn. intros [I|[<-|[<-|I]]]; cbn; try lra; apply T0; rewrite in_app_iff; cbn; auto. }
    assert (Ev2 : forall x, In x e -> (eid x < S nid)%nat).
    { intros x [<-|X]; [cbn; apply Ids; rewrite in_app_iff; cbn; auto|auto]. }
    assert (In2 : forall x, In x e -> t <= when x <= t + dt).
    { intros x [<-|X]; [cbn [when]; lra|apply (g_in _ _ G x X)]. }
    assert (So2 : forall i, (length (hist i e) <= 100)%nat -> StronglySorted later (hist i e)).
    { apply (add_event nid s ph rest); auto. }
    assert (He : hist (id ph) e = EScat (id ph) tsc (w ph / b) :: hist (id ph) (events s)).
    { exact (hist_cons_same (EScat (id ph) tsc (w ph / b)) (events s)). }
    assert (Hr2 : forall p, In p (phs :: rest) -> hist (id p) e = []).
    { intros p [<-|I].
      - unfold e. rewrite hist_cons_other.
        + destruct (hist (id phs) (events s)) as [|x l] eqn:Q; auto. exfalso.
          assert (X : In x (hist (id phs) (events s))) by (rewrite Q; left; auto).
          apply filter_In in X. destruct X as (X & Y). apply of_spec in Y. pose proof (g_ev _ _ G x X). cbn in Y. lia.
        + cbn. intros Q. assert (id ph < nid)%nat by (apply Nid; rewrite in_app_iff; cbn; auto). lia.
      - unfold e. rewrite hist_cons_other; [apply Hr, I|]. cbn. intros Q. apply (NotIn p I). auto. }
    destruct (Nat.ltb_spec (S (nint s)) MAX_INTERACTIONS) as [Lt|Ge].
    + constructor; auto. cbn [todo nint tmin events]. split; [exact Lt|]. split; [lra|]. split; [|exact Hr2].
      change (id ph') with (id ph). rewrite He. cbn [length]. intros L. destruct (Hh ltac:(lia)) as (L1 & L2). split; [lia|].
      intros x [<-|X]; [cbn; lra|]. specialize (L2 x X). lra.
    + apply settle_good; auto; try (apply NdP'; reflexivity); try (eapply IdsP; reflexivity); try (eapply T0P; reflexivity). split; [|exact Hr2]. right. change (id ph') with (id ph). rewrite He. cbn [length].
      unfold MAX_INTERACTIONS in Ge. destruct (Nat.lt_ge_cases (length (hist (id ph) (events s))) 100) as [L|L]; [|lia].
      destruct (Hh L) as (L1 & _). lia.
Qed.
Lemma run_good l : forall nid s, Forall sound l -> good nid s -> exists nid', good nid' (run nid s l).
Proof.
  induction l as [|m l IH]; intros nid s H G; cbn [InterModel.run]; [eauto|].
  apply IH; [eapply Forall_inv_tail; eauto|]. apply step_good; auto. eapply Forall_inv; eauto.
Qed.
Lemma start_good nid ps : NoDup (map id ps) -> (forall p, In p ps -> (id p < nid)%nat /\ t0 p <= t + dt) -> good nid (start t ps).
Proof.
  intros A B. apply settle_good; cbn; auto; try tauto; try (intros p I; apply B; exact I).
  - intros. constructor.
  - destruct ps; auto.
Qed.
Lemma run_times nid ps l i : NoDup (map id ps) -> (forall p, In p ps -> (id p < nid)%nat /\ t0 p <= t + dt) -> Forall sound l ->
  (forall e, In e (events (run nid (start t ps) l)) -> t <= when e <= t + dt) /\
  ((length (history i (run nid (start t ps) l)) <= 100)%nat -> StronglySorted (fun a b => when b <= when a) (history i (run nid (start t ps) l))).
Proof.
  intros A B C. destruct (run_good l nid _ C (start_good nid ps A B)) as (nid' & G). split.
  - apply (g_in _ _ G).
  - apply (g_sorted _ _ G).
Qed.
End Times.
