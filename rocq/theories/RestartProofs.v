From Coq Require Import List Arith Bool Lia.
From Verif Require Import RestartModel RestartSpec.
Import ListNotations.

Lemma run_app f a b : run f (a ++ b) = run (run f a) b.
Proof. unfold run. apply fold_left_app. Qed.
Lemma completed_app a b : completed (a ++ b) = completed a + completed b.
Proof. unfold completed. rewrite filter_app, app_length. reflexivity. Qed.

(** The directory between two writes. *)
Definition inv (r p : nat) (pre : list op) :=
  let f := run empty pre in
  completed pre = r /\
  (forall k, temp f k = if (k <? r) && (r <=? k + 2) then temp f k else None) /\
  (forall k, k < r -> r <= k + 2 -> exists q, temp f k = Some (Complete (k + 1) q)) /\
  (forall k, p <= k -> perm f k = None) /\
  (forall k r' p', In (OClose Perm k r' p') pre -> k < p /\ perm f k = Some (Complete r' p')) /\
  (r = 0 -> last f = NoLast) /\ (0 < r -> last f = Names (r - 1)) /\ ~ in_progress pre.

(** The claims about an arbitrary crash point. *)
Definition good (pre : list op) :=
  let f := run empty pre in let n := completed pre in
  (exists lo, forall k, temp f k <> None -> lo <= k < lo + 3) /\
  (forall k, k < n -> n <= k + 2 -> exists q, temp f k = Some (Complete (k + 1) q)) /\
  (forall k r' p', In (OClose Perm k r' p') pre -> perm f k = Some (Complete r' p')) /\
  (0 < n -> (usable f <-> ~ in_progress pre)).

Lemma temp_out r p pre k : inv r p pre -> temp (run empty pre) k <> None -> k < r /\ r <= k + 2.
Proof.
  intros (_ & H & _) N. specialize (H k).
  destruct (k <? r) eqn:A; destruct (r <=? k + 2) eqn:B; cbn in H; try congruence.
  apply Nat.ltb_lt in A. apply Nat.leb_le in B. lia.
Qed.

Lemma not_prog pre o : (o <> OLast) -> (forall k, o <> ONames k) -> (forall k, o <> OCreate Temp k) ->
  ~ in_progress (pre ++ [o]).
Proof.
  intros A B C (l & x & E & D). apply app_inj_tail in E. destruct E as (_ & ->).
  destruct D as [D|[(k & D)|(k & D)]]; congruence || (eapply B; eauto) || (eapply C; eauto).
Qed.

Lemma inv_good r p pre : inv r p pre -> good pre.
Proof.
  intros I. generalize I. intros (C & _ & K & _ & P & _ & L & N). unfold good. rewrite C.
  split; [|split; [|split]].
  - exists (r - 2). intros k Hk. apply (temp_out _ _ _ _ I) in Hk. lia.
  - exact K.
  - intros k r' p' H. apply P in H. tauto.
  - intros R. split; auto. intros _. destruct (K (r - 1)) as (q & E); try lia.
    exists (r - 1), (r - 1 + 1), q. split; auto.
Qed.

Lemma inv_perm r p pre : inv r p pre ->
  good (pre ++ [OCreate Perm p]) /\ inv r (p + 1) (pre ++ [OCreate Perm p] ++ [OClose Perm p r (p + 1)]).
Proof.
  intros I. generalize I. intros (C & Out & K & Q & P & Z & L & N).
  assert (NP : ~ in_progress (pre ++ [OCreate Perm p])) by (apply not_prog; congruence).
  split.
  - unfold good. rewrite run_app, completed_app. change (completed [OCreate Perm p]) with 0. rewrite Nat.add_0_r.
    change (run (run empty pre) [OCreate Perm p]) with
      (mkfs (temp (run empty pre)) (upd (perm (run empty pre)) p (Some Partial)) (last (run empty pre))).
    cbn [temp perm last]. rewrite C. split; [|split; [|split]].
    + exists (r - 2). intros k Hk. apply (temp_out _ _ _ _ I) in Hk. lia.
    + exact K.
    + intros k r' p' H. rewrite in_app_iff in H. destruct H as [H|[H|[]]]; [|discriminate].
      apply P in H. destruct H as (H & E). unfold upd. destruct (Nat.eqb_spec k p); [lia|auto].
    + intros R. split; auto. intros _. destruct (K (r - 1)) as (q & E); try lia.
      exists (r - 1), (r - 1 + 1), q. split; auto.
  - unfold inv. rewrite !run_app, !completed_app.
    change (completed [OCreate Perm p]) with 0. change (completed [OClose Perm p r (p + 1)]) with 0.
    rewrite !Nat.add_0_r.
    change (run (run (run empty pre) [OCreate Perm p]) [OClose Perm p r (p + 1)]) with
      (mkfs (temp (run empty pre)) (upd (upd (perm (run empty pre)) p (Some Partial)) p (Some (Complete r (p + 1))))
        (last (run empty pre))).
    cbn [temp perm last]. repeat split; auto.
    + intros k Hk. unfold upd. destruct (Nat.eqb_spec k p); [lia|]. apply Q. lia.
    + rewrite !in_app_iff in H. destruct H as [H|[[H|[]]|[H|[]]]]; [|discriminate|inversion H; lia].
      apply P in H. lia.
    + rewrite !in_app_iff in H. destruct H as [H|[[H|[]]|[H|[]]]]; [|discriminate|].
      * apply P in H. destruct H as (H & E). unfold upd. destruct (Nat.eqb_spec k p); [lia|auto].
      * inversion H; subst. unfold upd. rewrite Nat.eqb_refl. reflexivity.
    + rewrite app_assoc. apply not_prog; congruence.
Qed.

Section TempWrite.
Variables (r p : nat) (pre : list op).
Hypothesis I : inv r p pre.
Let f := run empty pre.

Lemma perm_kept l : (forall k r' p', ~ In (OClose Perm k r' p') l) -> perm (run f l) = perm f ->
  forall k r' p', In (OClose Perm k r' p') (pre ++ l) -> perm (run f l) k = Some (Complete r' p').
Proof.
  intros N E k r' p' H. rewrite in_app_iff in H. destruct H as [H|H]; [|exfalso; eapply N; eauto].
  rewrite E. generalize I. intros (_ & _ & _ & _ & P & _). apply P in H. tauto.
Qed.

Lemma prog_good l : l = [OLast] \/ l = [OLast; ONames r] \/ l = [OLast; ONames r; OCreate Temp r] -> good (pre ++ l).
Proof.
  intros H. generalize I. intros (C & Out & K & Q & P & Z & L & N).
  assert (NC : completed l = 0) by (destruct H as [-> | [-> | ->]]; reflexivity).
  assert (IP : in_progress (pre ++ l)).
  { destruct H as [-> | [-> | ->]].
    - exists pre, OLast. auto.
    - exists (pre ++ [OLast]), (ONames r). split; [rewrite <- app_assoc; reflexivity|eauto].
    - exists (pre ++ [OLast; ONames r]), (OCreate Temp r). split; [rewrite <- app_assoc; reflexivity|eauto]. }
  assert (EP : perm (run f l) = perm f) by (destruct H as [-> | [-> | ->]]; reflexivity).
  assert (ET : forall k, k <> r -> temp (run f l) k = temp f k).
  { intros k Hk. destruct H as [-> | [-> | ->]]; try reflexivity.
    cbn. unfold upd. destruct (Nat.eqb_spec k r); [lia|reflexivity]. }
  assert (NU : ~ usable (run f l)).
  { intros (k & a & b & A & B). destruct H as [-> | [-> | ->]]; cbn in A; try discriminate.
    - inversion A; subst k. cbn in B.
      assert (X : temp (run empty pre) r <> None) by (fold f; congruence).
      apply (temp_out _ _ _ _ I) in X. lia.
    - inversion A; subst k. cbn in B. unfold upd in B. rewrite Nat.eqb_refl in B. discriminate. }
  unfold good. rewrite run_app, completed_app, NC, C, Nat.add_0_r. fold f. split; [|split; [|split]].
  - exists (r - 2). intros k Hk. destruct (Nat.eq_dec k r); [lia|].
    rewrite (ET k n) in Hk. apply (temp_out _ _ _ _ I) in Hk. lia.
  - intros k A B. rewrite ET by lia. apply K; auto.
  - apply perm_kept; auto. intros k r' p' X. destruct H as [-> | [-> | ->]]; cbn in X;
      repeat (destruct X as [X|X]; try discriminate); auto.
  - intros R. split; intros X; [contradiction|]. contradiction.
Qed.

Definition l4 := [OLast; ONames r; OCreate Temp r; OClose Temp r (r + 1) p].
Lemma l4_temp k : temp (run f l4) k = if k =? r then Some (Complete (r + 1) p) else temp f k.
Proof. cbn. unfold upd. destruct (k =? r); reflexivity. Qed.
Lemma l4_good : good (pre ++ l4).
Proof.
  generalize I. intros (C & Out & K & Q & P & Z & L & N).
  unfold good. rewrite run_app, completed_app, C. change (completed l4) with 1. fold f. split; [|split; [|split]].
  - exists (r - 2). intros k Hk. rewrite l4_temp in Hk. destruct (Nat.eqb_spec k r); [lia|].
    apply (temp_out _ _ _ _ I) in Hk. lia.
  - intros k A B. rewrite l4_temp. destruct (Nat.eqb_spec k r); [subst; eauto|]. apply K; lia.
  - apply perm_kept; auto. intros k r' p' X. cbn in X. repeat (destruct X as [X|X]; try discriminate); auto.
  - intros _. split.
    + intros _. unfold l4. change (pre ++ [OLast; ONames r; OCreate Temp r; OClose Temp r (r + 1) p]) with
        (pre ++ [OLast; ONames r; OCreate Temp r] ++ [OClose Temp r (r + 1) p]). rewrite app_assoc.
      apply not_prog; congruence.
    + intros _. exists r, (r + 1), p. split; [reflexivity|]. rewrite l4_temp, Nat.eqb_refl. reflexivity.
Qed.

Definition tl_ops := if 3 <=? r + 1 then [ORemove (r + 1 - 3)] else [].
Lemma tail_inv : inv (r + 1) p (pre ++ l4 ++ tl_ops).
Proof.
  generalize I. intros (C & Out & K & Q & P & Z & L & N).
  assert (CT : completed tl_ops = 0) by (unfold tl_ops; destruct (3 <=? r + 1); reflexivity).
  assert (T : forall k, temp (run f (l4 ++ tl_ops)) k =
    if (k =? r) then Some (Complete (r + 1) p) else if k + 2 =? r then None else temp f k).
  { intros k. rewrite run_app. unfold tl_ops. destruct (3 <=? r + 1) eqn:E.
    - apply Nat.leb_le in E. change (temp (run (run f l4) [ORemove (r + 1 - 3)]) k) with
        (upd (temp (run f l4)) (r + 1 - 3) None k). unfold upd. rewrite l4_temp.
      destruct (Nat.eqb_spec k (r + 1 - 3)); destruct (Nat.eqb_spec k r); destruct (Nat.eqb_spec (k + 2) r); auto; lia.
    - apply Nat.leb_gt in E. cbn [run fold_left]. change (fold_left exec [] (run f l4)) with (run f l4).
      rewrite l4_temp. destruct (Nat.eqb_spec k r); auto. destruct (Nat.eqb_spec (k + 2) r); auto. lia. }
  assert (EP : perm (run f (l4 ++ tl_ops)) = perm f).
  { rewrite run_app. unfold tl_ops. destruct (3 <=? r + 1); reflexivity. }
  assert (EL : last (run f (l4 ++ tl_ops)) = Names r).
  { rewrite run_app. unfold tl_ops. destruct (3 <=? r + 1); reflexivity. }
  unfold inv. rewrite run_app. fold f. rewrite EP, EL. repeat split.
  - rewrite !completed_app, C, CT. change (completed l4) with 1. lia.
  - intros k. destruct (k <? r + 1) eqn:A; destruct (r + 1 <=? k + 2) eqn:B; cbn [andb]; auto.
    + apply Nat.ltb_lt in A. apply Nat.leb_gt in B. rewrite T.
      destruct (Nat.eqb_spec k r); [lia|]. destruct (Nat.eqb_spec (k + 2) r); auto.
      specialize (Out k). destruct (k <? r) eqn:A'; destruct (r <=? k + 2) eqn:B'; cbn in Out; auto.
      apply Nat.leb_le in B'. lia.
    + apply Nat.ltb_ge in A. rewrite T. destruct (Nat.eqb_spec k r); [lia|].
      destruct (Nat.eqb_spec (k + 2) r); auto. specialize (Out k).
      destruct (k <? r) eqn:A'; cbn in Out; auto. apply Nat.ltb_lt in A'. lia.
    + apply Nat.ltb_ge in A. rewrite T. destruct (Nat.eqb_spec k r); [lia|].
      destruct (Nat.eqb_spec (k + 2) r); auto. specialize (Out k).
      destruct (k <? r) eqn:A'; cbn in Out; auto. apply Nat.ltb_lt in A'. lia.
  - intros k A B. rewrite T. destruct (Nat.eqb_spec k r); [subst; eauto|].
    destruct (Nat.eqb_spec (k + 2) r); [lia|]. apply K; lia.
  - exact Q.
  - rewrite !in_app_iff in H. destruct H as [H|[H|H]].
    + apply P in H. lia.
    + cbn in H. repeat (destruct H as [H|H]; try discriminate); contradiction.
    + unfold tl_ops in H. destruct (3 <=? r + 1); cbn in H; [destruct H as [H|H]; [discriminate|contradiction]|contradiction].
  - rewrite !in_app_iff in H. destruct H as [H|[H|H]].
    + apply P in H. tauto.
    + cbn in H. repeat (destruct H as [H|H]; try discriminate); contradiction.
    + unfold tl_ops in H. destruct (3 <=? r + 1); cbn in H; [destruct H as [H|H]; [discriminate|contradiction]|contradiction].
  - intros X. lia.
  - intros _. f_equal. lia.
  - unfold tl_ops. destruct (3 <=? r + 1).
    + rewrite app_assoc. apply not_prog; congruence.
    + rewrite app_nil_r. unfold l4. change (pre ++ [OLast; ONames r; OCreate Temp r; OClose Temp r (r + 1) p]) with
        (pre ++ [OLast; ONames r; OCreate Temp r] ++ [OClose Temp r (r + 1) p]). rewrite app_assoc.
      apply not_prog; congruence.
Qed.
End TempWrite.

Lemma inv_empty : inv 0 0 [].
Proof.
  unfold inv. cbn. repeat split; auto; try (intros; lia); try contradiction.
  intros (l & o & E & _). symmetry in E. apply app_eq_nil in E. destruct E. discriminate.
Qed.

Lemma prefix_cases (l s pre suf : list op) : l ++ s = pre ++ suf ->
  (exists q, l = pre ++ q) \/ (exists q, pre = l ++ q /\ s = q ++ suf).
Proof.
  revert pre. induction l as [|x l IH]; intros pre H.
  - right. exists pre. auto.
  - destruct pre as [|y pre].
    + left. eexists. reflexivity.
    + cbn in H. inversion H; subst. destruct (IH pre H2) as [(q & ->)|(q & -> & ->)]; [left|right]; exists q; auto.
Qed.

Lemma all_good ds : forall r p pre l l', inv r p pre -> session ds r p = l ++ l' -> good (pre ++ l).
Proof.
  induction ds as [|d ds IH]; intros r p pre l l' I E.
  - cbn in E. symmetry in E. apply app_eq_nil in E. destruct E as (-> & _). rewrite app_nil_r.
    apply (inv_good r p). exact I.
  - destruct d.
    + change (session (Temp :: ds) r p) with (((l4 r p) ++ tl_ops r) ++ session ds (r + 1) p) in E.
      destruct (prefix_cases _ _ _ _ E) as [(q & H)|(q & -> & H)].
      * destruct l as [|a l]; [rewrite app_nil_r; apply (inv_good r p); exact I|].
        cbn in H. injection H as <- H.
        destruct l as [|a l]; [apply (prog_good r p); auto|]. injection H as <- H.
        destruct l as [|a l]; [apply (prog_good r p); auto|]. injection H as <- H.
        destruct l as [|a l]; [apply (prog_good r p); auto|]. injection H as <- H.
        destruct l as [|a l]; [apply (l4_good r p); exact I|].
        unfold tl_ops in H. destruct (3 <=? r + 1) eqn:T; [|discriminate].
        injection H as <- H. symmetry in H. apply app_eq_nil in H. destruct H as (-> & _).
        assert (X := tail_inv r p pre I). unfold tl_ops in X. rewrite T in X.
        apply (inv_good (r + 1) p). exact X.
      * rewrite app_assoc. apply (IH (r + 1) p _ _ l'); auto. apply tail_inv. exact I.
    + change (session (Perm :: ds) r p) with
        (([OCreate Perm p] ++ [OClose Perm p r (p + 1)]) ++ session ds r (p + 1)) in E.
      destruct (inv_perm r p pre I) as (G & J).
      destruct (prefix_cases _ _ _ _ E) as [(q & H)|(q & -> & H)].
      * destruct l as [|a l]; [rewrite app_nil_r; apply (inv_good r p); exact I|].
        cbn in H. injection H as <- H.
        destruct l as [|a l]; [exact G|]. injection H as <- H.
        symmetry in H. apply app_eq_nil in H. destruct H as (-> & _).
        apply (inv_good r (p + 1)). exact J.
      * rewrite app_assoc. apply (IH r (p + 1) _ _ l'); auto.
Qed.

Lemma session_inv ds : forall r p pre, inv r p pre -> exists r' p', inv r' p' (pre ++ session ds r p).
Proof.
  induction ds as [|d ds IH]; intros r p pre I.
  - exists r, p. cbn. rewrite app_nil_r. exact I.
  - destruct d.
    + change (session (Temp :: ds) r p) with (((l4 r p) ++ tl_ops r) ++ session ds (r + 1) p).
      rewrite app_assoc. apply IH. apply tail_inv. exact I.
    + change (session (Perm :: ds) r p) with
        (([OCreate Perm p] ++ [OClose Perm p r (p + 1)]) ++ session ds r (p + 1)).
      rewrite app_assoc. apply IH. apply inv_perm. exact I.
Qed.

Lemma crash_good ds l : crash ds l -> good l.
Proof. intros (l' & E). apply (all_good ds 0 0 [] l l' inv_empty E). Qed.

Lemma crash_usable ds l : crash ds l -> 0 < completed l -> (usable (run empty l) <-> ~ in_progress l).
Proof. intros H. apply crash_good in H. apply H. Qed.
Lemma crash_previous ds l k : crash ds l -> k < completed l -> completed l <= k + 2 ->
  exists q, temp (run empty l) k = Some (Complete (k + 1) q).
Proof. intros H. apply crash_good in H. apply H. Qed.
Lemma crash_three ds l : crash ds l -> exists lo, forall k, temp (run empty l) k <> None -> lo <= k < lo + 3.
Proof. intros H. apply crash_good in H. apply H. Qed.
Lemma crash_perm ds l k r p : crash ds l -> In (OClose Perm k r p) l -> perm (run empty l) k = Some (Complete r p).
Proof. intros H. apply crash_good in H. apply H. Qed.
Lemma done_two ds k : let l := session ds 0 0 in
  temp (run empty l) k <> None <-> k < completed l <= k + 2.
Proof.
  cbv zeta. destruct (session_inv ds 0 0 [] inv_empty) as (r & p & I). cbn [app] in I.
  assert (C := proj1 I). rewrite C. split.
  - apply (temp_out _ _ _ _ I).
  - intros H. destruct I as (_ & _ & K & _). destruct (K k) as (q & E); try lia. congruence.
Qed.
Lemma done_count ds : completed (session ds 0 0) = List.length (filter (fun d => match d with Temp => true | _ => false end) ds).
Proof.
  assert (G : forall r p, completed (session ds r p) = List.length (filter (fun d => match d with Temp => true | _ => false end) ds)).
  { induction ds as [|[] ds IH]; intros r p; auto.
    - change (session (Temp :: ds) r p) with (((l4 r p) ++ tl_ops r) ++ session ds (r + 1) p).
      rewrite !completed_app, IH. change (completed (l4 r p)) with 1. unfold tl_ops.
      destruct (3 <=? r + 1); cbn; lia.
    - change (session (Perm :: ds) r p) with
        (([OCreate Perm p] ++ [OClose Perm p r (p + 1)]) ++ session ds r (p + 1)).
      rewrite !completed_app, IH. reflexivity. }
  apply G.
Qed.

Lemma pointer_refuted : exists ds l, crash ds l /\ 2 <= completed l /\
  resume (run empty l) = Exits /\ temp (run empty l) 1 <> None /\ temp (run empty l) 0 <> None.
Proof.
  exists [Temp; Temp; Temp], (firstn 10 (session [Temp; Temp; Temp] 0 0)).
  split; [exists (skipn 10 (session [Temp; Temp; Temp] 0 0)); reflexivity|].
  split; [vm_compute; auto|]. repeat split; vm_compute; congruence.
Qed.

Lemma leak_refuted : exists runs f, life runs empty = Some f /\
  forall k, In k [0; 2; 4; 5] -> temp f k <> None.
Proof.
  exists [([Temp; Temp; Temp], 12); ([Temp; Temp], 9); ([Temp], 5)].
  eexists. split; [reflexivity|].
  intros k H. cbn in H. repeat (destruct H as [<-|H]; [vm_compute; congruence|]). contradiction.
Qed.
