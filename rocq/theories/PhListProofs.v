From Coq Require Import ZArith List Bool Lia Permutation.
Import ListNotations.
From Verif Require Import PhListModel PhListSpec.

Section Proofs.
Context {A : Type}.
Implicit Types h : heap A.
Implicit Types l : list (loc * A).

Lemma load_nn h p : p <> null -> load h p = h p.
Proof. intros H; unfold load; destruct (Nat.eqb_spec p null); congruence. Qed.

Lemma upd_same h p v : upd h p v p = v.
Proof. unfold upd; now rewrite Nat.eqb_refl. Qed.
Lemma upd_other h p v q : q <> p -> upd h p v q = h q.
Proof. intros H; unfold upd; destruct (Nat.eqb_spec q p); congruence. Qed.

Lemma locs_app l1 l2 : locs (l1 ++ l2) = locs l1 ++ locs l2.
Proof. induction l1 as [|[x a] l1 IH]; cbn; [trivial|now rewrite IH]. Qed.
Lemma locs_map l : locs l = map fst l.
Proof. induction l as [|[x a] l IH]; cbn; [trivial|now rewrite IH]. Qed.
Lemma locs_rev l : locs (rev l) = rev (locs l).
Proof. rewrite !locs_map. apply map_rev. Qed.
Lemma locs_concat (ls : list (list (loc * A))) : locs (concat ls) = concat (map locs ls).
Proof. induction ls as [|l ls IH]; cbn; [trivial|now rewrite locs_app, IH]. Qed.

Lemma NoDup_app_inv (s t : list loc) :
  NoDup (s ++ t) -> NoDup s /\ NoDup t /\ (forall x, In x s -> In x t -> False).
Proof.
  induction s as [|y s IH]; cbn; intros H.
    split; [constructor|split; [exact H|intros x [] ]].
  - apply NoDup_cons_iff in H as [Hy H]. rewrite in_app_iff in Hy.
    destruct (IH H) as (I1 & I2 & I3). repeat split; trivial.
    + constructor; tauto.
    + intros x [->|Hx] Ht; [tauto|eauto].
Qed.
Lemma NoDup_app_mk (s t : list loc) :
  NoDup s -> NoDup t -> (forall x, In x s -> In x t -> False) -> NoDup (s ++ t).
Proof.
  induction s as [|y s IH]; cbn; intros H1 H2 H3; trivial.
  apply NoDup_cons_iff in H1 as [Hy H1]. constructor.
  - rewrite in_app_iff. intros [E|E]; [tauto|eauto].
  - apply IH; trivial. intros x Hx; eauto.
Qed.
Lemma NoDup_app_l (s t : list loc) : NoDup (s ++ t) -> NoDup s.
Proof. intros H; now apply NoDup_app_inv in H. Qed.
Lemma NoDup_app_r (s t : list loc) : NoDup (s ++ t) -> NoDup t.
Proof. intros H; now apply NoDup_app_inv in H. Qed.
Lemma NoDup_app_disj (s t : list loc) x : NoDup (s ++ t) -> In x s -> In x t -> False.
Proof. intros H; apply NoDup_app_inv in H as (_ & _ & H); apply H. Qed.
Lemma NoDup_app_sub (s1 s2 t1 t2 : list loc) :
  NoDup (s1 ++ t1) -> NoDup s2 -> NoDup t2 -> incl s2 s1 -> incl t2 t1 -> NoDup (s2 ++ t2).
Proof.
  intros H H2 H3 I1 I2. apply NoDup_app_mk; trivial.
  intros x Hx Ht. eapply NoDup_app_disj; [exact H|apply I1; exact Hx|apply I2; exact Ht].
Qed.

Lemma lseg_frame h h' l p q :
  (forall x, In x (locs l) -> h' x = h x) -> lseg h p l q -> lseg h' p l q.
Proof.
  revert p; induction l as [|[x a] l IH]; cbn; intros p Hf H; [exact H|].
  destruct H as (-> & Hx & n & Hn & H). repeat split; trivial.
  exists n; split; [rewrite Hf; auto|]. apply IH; auto.
Qed.

Lemma lseg_app h l1 l2 p q :
  lseg h p (l1 ++ l2) q <-> exists m, lseg h p l1 m /\ lseg h m l2 q.
Proof.
  revert p; induction l1 as [|[x a] l1 IH]; cbn; intros p.
  - split; [intros H; exists p; auto | intros (m & -> & H); exact H].
  - split.
    + intros (-> & Hx & n & Hn & H). apply IH in H as (m & H1 & H2).
      exists m; split; auto. repeat split; trivial. exists n; auto.
    + intros (m & (-> & Hx & n & Hn & H1) & H2). repeat split; trivial.
      exists n; split; trivial. apply IH. exists m; auto.
Qed.

Lemma lseg_nn h l p q : lseg h p l q -> ~ In null (locs l).
Proof.
  revert p; induction l as [|[x a] l IH]; cbn; intros p H; [tauto|].
  destruct H as (-> & Hx & n & Hn & H). intros [E|E]; [auto|]. now apply IH in H.
Qed.

Lemma llist_head h p l : llist h p l -> p = head_loc l.
Proof. destruct l as [|[x a] l]; cbn; [trivial|intros (-> & _); trivial]. Qed.

Lemma last_loc_snoc l x a : last_loc (l ++ [(x, a)]) = x.
Proof.
  induction l as [|[y b] l IH]; cbn; trivial.
  destruct l as [|[z c] l]; cbn in *; trivial.
Qed.

Lemma snoc_cases l : l = [] \/ exists l' x a, l = l' ++ [(x, a)].
Proof.
  destruct l as [|xa l] using rev_ind; [left; trivial|right].
  destruct xa as [x a]; exists l, x, a; trivial.
Qed.

(** Redirecting the last [next] of a segment. *)
Lemma lseg_relink h l x a p m n :
  NoDup (locs (l ++ [(x, a)])) ->
  lseg h p (l ++ [(x, a)]) m ->
  lseg (upd h x (Some (a, n))) p (l ++ [(x, a)]) n.
Proof.
  intros ND H. rewrite locs_app in ND; cbn in ND.
  apply NoDup_remove in ND as [_ ND]. rewrite app_nil_r in ND.
  apply lseg_app in H as (k & H1 & H2). apply lseg_app. exists k; split.
  - eapply lseg_frame; [|exact H1]. intros y Hy. apply upd_other. congruence.
  - cbn in *. destruct H2 as (-> & Hx & _). repeat split; trivial.
    exists n; split; trivial. apply upd_same.
Qed.

Lemma lseg_last h l x a p m :
  lseg h p (l ++ [(x, a)]) m -> h x = Some (a, m) /\ x <> null.
Proof.
  intros H. apply lseg_app in H as (k & H1 & H2). cbn in H2.
  destruct H2 as (-> & Hx & n & Hn & ->). auto.
Qed.

Ltac dnull :=
  match goal with
  | H : ?x <> null |- context[Nat.eqb ?x null] =>
      destruct (Nat.eqb_spec x null); [congruence|]
  end.

Lemma list_remove_correct h head pre x a post :
  llist h head (pre ++ (x, a) :: post) ->
  NoDup (locs (pre ++ (x, a) :: post)) ->
  exists h' head',
    list_remove h x head (last_loc pre) = Some (h', head_loc post, head') /\
    llist h' head' (pre ++ post) /\
    lseg h' head' pre (head_loc post) /\ llist h' (head_loc post) post /\
    h' x = None /\
    agree_off (x :: locs pre) h h'.
Proof.
  intros HL ND. unfold llist in HL.
  apply lseg_app in HL as (k & H1 & H2). cbn in H2.
  destruct H2 as (-> & Hx & n & Hn & H2).
  assert (En : n = head_loc post) by (now apply llist_head in H2). subst n.
  assert (NDx : ~ In x (locs pre) /\ ~ In x (locs post) /\
                (forall y, In y (locs pre) -> ~ In y (locs post)) /\ NoDup (locs pre)).
  { rewrite locs_app in ND; cbn in ND.
    pose proof (NoDup_remove_1 _ _ _ ND) as ND1.
    apply NoDup_remove_2 in ND. rewrite in_app_iff in ND.
    repeat split; try tauto.
    - intros y Hy1 Hy2. eapply NoDup_app_disj; eauto.
    - now apply NoDup_app_l in ND1. }
  destruct NDx as (N1 & N2 & N3 & N4).
  destruct (snoc_cases pre) as [->|(pre' & y & b & ->)].
  - cbn [last_loc]. unfold list_remove; cbn [null Nat.eqb negb].
    unfold next_of, free. rewrite !load_nn, Hn by trivial.
    exists (upd h x None), (head_loc post). cbn in H1; subst head.
    assert (P : llist (upd h x None) (head_loc post) post).
    { eapply lseg_frame; [|exact H2]. intros z Hz. apply upd_other. congruence. }
    repeat split; trivial.
    + apply upd_same.
    + intros z Hz. apply upd_other. cbn in Hz. intros ->; tauto.
  - rewrite last_loc_snoc.
    pose proof (lseg_last _ _ _ _ _ _ H1) as (Hy & Hyn).
    assert (x <> y). { intros ->. apply N1. rewrite locs_app, in_app_iff; cbn; auto. }
    unfold list_remove. dnull. cbn [negb].
    unfold next_of, store_next, free. rewrite !load_nn, Hn, Hy by trivial.
    rewrite !load_nn by trivial.
    rewrite (upd_other _ y _ x) by trivial. rewrite Hn.
    rewrite load_nn by trivial.
    rewrite (upd_other _ x _ y) by congruence. rewrite upd_same.
    set (h1 := upd h y (Some (b, head_loc post))).
    exists (upd h1 x None), head.
    assert (S1 : lseg (upd h1 x None) head (pre' ++ [(y, b)]) (head_loc post)).
    { eapply lseg_frame; [|eapply lseg_relink; [|exact H1]; exact N4].
      intros z Hz. apply upd_other. congruence. }
    assert (S2 : llist (upd h1 x None) (head_loc post) post).
    { eapply lseg_frame; [|exact H2]. intros z Hz. unfold h1.
      rewrite !upd_other; trivial.
      - intros ->. apply (N3 y); trivial. rewrite locs_app, in_app_iff; cbn; auto.
      - congruence. }
    repeat split; trivial.
    + apply lseg_app. eexists; split; [exact S1|exact S2].
    + apply upd_same.
    + intros z Hz. cbn in Hz. rewrite locs_app, in_app_iff in Hz; cbn in Hz.
      unfold h1. rewrite !upd_other; trivial; intros ->; tauto.
Qed.

Lemma swap_ph_correct h x a dl rec rl :
  llist h x ((x, a) :: dl) -> llist h rec rl ->
  NoDup (locs ((x, a) :: dl ++ rl)) ->
  exists h',
    swap_ph h x rec = Some (h', head_loc dl, x) /\
    llist h' (head_loc dl) dl /\ llist h' x ((x, a) :: rl) /\
    agree_off [x] h h'.
Proof.
  intros HD HR ND. unfold llist in *. cbn in HD.
  destruct HD as (_ & Hx & n & Hn & HD).
  assert (En : n = head_loc dl) by (now apply llist_head in HD). subst n.
  change (NoDup (x :: locs (dl ++ rl))) in ND. apply NoDup_cons_iff in ND as [ND _].
  rewrite locs_app, in_app_iff in ND.
  unfold swap_ph, next_of, store_next.
  assert (G : forall v, lseg (upd h x v) (head_loc dl) dl null).
  { intros v; eapply lseg_frame; [|exact HD]. intros; apply upd_other. intros ->; tauto. }
  destruct (Nat.eqb_spec rec null) as [->|Hr].
  - rewrite !load_nn, Hn by trivial. eexists; split; [reflexivity|].
    assert (rl = []) as ->.
    { destruct rl as [|[z c] rl]; trivial. cbn in HR. destruct HR as (E & Hz & _). congruence. }
    split; [apply G|]. split.
    + cbn. repeat split; trivial. exists null; split; trivial. apply upd_same.
    + intros z Hz. apply upd_other. cbn in Hz. intros ->; tauto.
  - rewrite !load_nn, Hn by trivial. eexists; split; [reflexivity|].
    split; [apply G|]. split.
    + cbn. repeat split; trivial. exists rec; split; [apply upd_same|].
      eapply lseg_frame; [|exact HR]. intros; apply upd_other. intros ->; tauto.
    + intros z Hz. apply upd_other. cbn in Hz. intros ->; tauto.
Qed.

Lemma drain_correct l : forall fuel h p dst dl,
  (length l < fuel)%nat ->
  llist h p l -> llist h dst dl -> NoDup (locs (l ++ dl)) ->
  exists h', drain fuel h p dst = Some (h', head_loc (rev l ++ dl)) /\
    llist h' (head_loc (rev l ++ dl)) (rev l ++ dl) /\
    agree_off (locs l) h h'.
Proof.
  induction l as [|[x a] l IH]; intros fuel h p dst dl Hf HL HD ND.
  - destruct fuel as [|f]; [cbn in Hf; lia|]. cbn in HL; subst p.
    cbn. exists h. rewrite (llist_head _ _ _ HD) at 1.
    repeat split; trivial. now rewrite <- (llist_head _ _ _ HD).
  - destruct fuel as [|f]; [cbn in Hf; lia|]. cbn [drain].
    pose proof (llist_head _ _ _ HL) as E; cbn in E; subst p.
    assert (Hx : x <> null) by (cbn in HL; tauto).
    destruct (Nat.eqb_spec x null); [congruence|].
    destruct (swap_ph_correct _ _ _ _ _ _ HL HD) as (h1 & -> & L1 & L2 & F1).
    { exact ND. }
    destruct (IH f h1 (head_loc l) x ((x, a) :: dl)) as (h2 & E2 & L3 & F2); trivial.
    { cbn in Hf; lia. }
    { eapply Permutation_NoDup; [|exact ND]. cbn. rewrite !locs_app; cbn.
      apply Permutation_middle. }
    replace (rev ((x, a) :: l) ++ dl) with (rev l ++ (x, a) :: dl)
      by (cbn; now rewrite <- app_assoc).
    exists h2; repeat split; trivial.
    intros y Hy. cbn in Hy. rewrite F2 by tauto. apply F1. cbn; tauto.
Qed.

(** *** push pass *)
Section PushP.
Variable needs : A -> bool.
Variable push : A -> A * bool.
Variable trac : A -> bool.

Notation surv := (flat_map (survives needs push)).

Lemma surv_locs_incl l x : In x (locs (surv l)) -> In x (locs l).
Proof.
  induction l as [|[y a] l IH]; cbn; trivial.
  rewrite locs_app, in_app_iff. intros [H|H]; [left|right; auto].
  unfold survives in H. destruct (needs a); [destruct (snd (push a))|];
    cbn in H; intuition.
Qed.

Lemma push_loop_correct post : forall fuel h done head lost tot tr,
  (length post < fuel)%nat ->
  lseg h head done (head_loc post) -> llist h (head_loc post) post ->
  NoDup (locs (done ++ post)) ->
  exists h' head',
    push_loop needs push trac fuel h (head_loc post) (last_loc done) head lost tot tr =
    Some {| p_heap := h'; p_head := head';
            p_lost := lost + Z.of_nat (length post - length (surv post))%nat;
            p_tot := tot + Z.of_nat (length (surv post));
            p_tracer := tr + count trac (surv post) |} /\
    llist h' head' (done ++ surv post) /\
    (length (surv post) <= length post)%nat /\
    (forall x, In x (locs post) -> ~ In x (locs (surv post)) -> h' x = None) /\
    agree_off (locs done ++ locs post) h h'.
Proof.
  induction post as [|[x a] post IH]; intros fuel h done head lost tot tr Hf HD HP ND.
  - destruct fuel as [|f]; [cbn in Hf; lia|]. cbn. exists h, head.
    repeat split; trivial.
    + f_equal. f_equal; unfold count; cbn; lia.
    + rewrite app_nil_r. exact HD.
    + intros y [].
  - destruct fuel as [|f]; [cbn in Hf; lia|].
    pose proof HP as HP0. cbn in HP. destruct HP as (_ & Hx & n & Hn & HP).
    assert (En : n = head_loc post) by (now apply llist_head in HP). subst n.
    assert (NX : ~ In x (locs done) /\ ~ In x (locs post)).
    { rewrite locs_app in ND; cbn in ND. apply NoDup_remove_2 in ND.
      rewrite in_app_iff in ND; tauto. }
    assert (Step : forall h1 a' lost1 tot1 tr1,
       h1 x = Some (a', head_loc post) ->
       (forall y, y <> x -> h1 y = h y) ->
       exists h' head', push_loop needs push trac f h1 (head_loc post) x head lost1 tot1 tr1 =
         Some {| p_heap := h'; p_head := head';
            p_lost := lost1 + Z.of_nat (length post - length (surv post))%nat;
            p_tot := tot1 + Z.of_nat (length (surv post));
            p_tracer := tr1 + count trac (surv post) |} /\
         llist h' head' (done ++ (x, a') :: surv post) /\
         (length (surv post) <= length post)%nat /\
         (forall y, In y (locs post) -> ~ In y (locs (surv post)) -> h' y = None) /\
         agree_off (locs done ++ x :: locs post) h h').
    { intros h1 a' lost1 tot1 tr1 H1x H1f.
      destruct (IH f h1 (done ++ [(x, a')]) head lost1 tot1 tr1) as (h' & head' & E & L & Len & Dead & F).
      - cbn in Hf; lia.
      - apply lseg_app. exists x; split.
        + eapply lseg_frame; [|exact HD]. intros y Hy. apply H1f. intros ->; tauto.
        + cbn. repeat split; trivial. exists (head_loc post); auto.
      - eapply lseg_frame; [|exact HP]. intros y Hy. apply H1f. intros ->; tauto.
      - rewrite <- app_assoc, locs_app. cbn. rewrite locs_app in ND; exact ND.
      - rewrite last_loc_snoc in E. exists h', head'. repeat split; trivial.
        + rewrite <- app_assoc in L. exact L.
        + intros y Hy. rewrite F.
          * apply H1f. intros ->. apply Hy, in_app_iff; cbn; auto.
          * rewrite locs_app. cbn. intros Hy'. apply Hy.
            rewrite !in_app_iff in *. cbn in *. tauto. }
    cbn [push_loop head_loc]. destruct (Nat.eqb_spec x null); [congruence|].
    rewrite load_nn, Hn by trivial.
    cbn [flat_map].
    assert (Es : survives needs push (x, a) =
      if needs a then (if snd (push a) then [(x, fst (push a))] else []) else [(x, a)]) by reflexivity.
    rewrite Es. clear Es.
    destruct (needs a).
    + destruct (push a) as [a' ok] eqn:Epush. cbn [fst snd].
      unfold store_pay. rewrite load_nn, Hn by trivial.
      destruct ok; cbn [negb].
      * unfold next_of. rewrite load_nn, upd_same by trivial.
        destruct (Step (upd h x (Some (a', head_loc post))) a' lost (tot + 1)%Z
                    (if trac a' then tr + 1 else tr)%Z) as (h' & head' & E & L & Len & Dead & F).
        { apply upd_same. } { intros; now apply upd_other. }
        exists h', head'. repeat split; trivial.
        -- rewrite E. f_equal. cbn [app length]. unfold count; cbn [filter snd].
           destruct (trac a'); cbn [length]; f_equal; lia.
        -- cbn [app length]; lia.
        -- cbn [app locs map fst]. intros y [->|Hy] Hy2; cbn in Hy2; [tauto|]. apply Dead; tauto.
      * set (h1 := upd h x (Some (a', head_loc post))).
        assert (Q1 : lseg h1 head done x).
        { eapply lseg_frame; [|exact HD]. intros y Hy. apply upd_other. intros ->; tauto. }
        assert (Q2 : llist h1 x ((x, a') :: post)).
        { cbn. repeat split; trivial. exists (head_loc post); split; [apply upd_same|].
          eapply lseg_frame; [|exact HP]. intros y Hy. apply upd_other. intros ->; tauto. }
        destruct (list_remove_correct h1 head done x a' post) as (h2 & head2 & E2 & L2 & S2 & P2 & D2 & F2).
        { apply lseg_app; eauto. }
        { rewrite locs_app in *; exact ND. }
        rewrite E2.
        destruct (IH f h2 done head2 (lost + 1)%Z tot tr) as (h' & head' & E & L & Len & Dead & F).
        { cbn in Hf; lia. } { exact S2. } { exact P2. }
        { rewrite locs_app in *. cbn in ND. now apply NoDup_remove_1 in ND. }
        exists h', head'. repeat split; trivial.
        -- rewrite E. f_equal. cbn [app length]. f_equal; lia.
        -- cbn [app length]; lia.
        -- cbn [app locs map fst]. intros y [<-|Hy] Hy2; [|auto].
           rewrite F; [exact D2|]. rewrite in_app_iff; tauto.
        -- intros y Hy. rewrite in_app_iff in Hy; cbn in Hy.
           rewrite F by (rewrite in_app_iff; tauto).
           rewrite F2 by (cbn; tauto). apply upd_other. intros ->; tauto.
    + unfold next_of. rewrite load_nn, Hn by trivial.
      destruct (Step h a lost (tot + 1)%Z (if trac a then tr + 1 else tr)%Z)
        as (h' & head' & E & L & Len & Dead & F); trivial.
      exists h', head'. repeat split; trivial.
      -- rewrite E. f_equal. cbn [app length]. unfold count; cbn [filter snd].
         destruct (trac a); cbn [length]; f_equal; lia.
      -- cbn [app length]; lia.
      -- cbn [app locs map fst]. intros y [->|Hy] Hy2; cbn in Hy2; [tauto|]. apply Dead; tauto.
Qed.

Lemma push_thread_correct fuel h p l :
  (length l < fuel)%nat -> llist h p l -> NoDup (locs l) ->
  exists h' head',
    push_thread needs push trac fuel h p =
    Some {| p_heap := h'; p_head := head';
            p_lost := Z.of_nat (length l) - Z.of_nat (length (surv l));
            p_tot := Z.of_nat (length (surv l));
            p_tracer := count trac (surv l) |} /\
    llist h' head' (surv l) /\
    (forall x, In x (locs l) -> ~ In x (locs (surv l)) -> h' x = None) /\
    agree_off (locs l) h h'.
Proof.
  intros Hf HL ND. pose proof (llist_head _ _ _ HL) as ->.
  destruct (push_loop_correct l fuel h [] (head_loc l) 0 0 0) as (h' & head' & E & L & Len & D & F); trivial.
  { reflexivity. }
  exists h', head'. unfold push_thread. cbn [last_loc] in E.
  split; [|repeat split; trivial].
  etransitivity; [exact E|]. f_equal. f_equal; lia.
Qed.

Lemma surv_NoDup l : NoDup (locs l) -> NoDup (locs (surv l)).
Proof.
  induction l as [|[x a] l IH]; cbn; trivial. intros H; inversion H; subst.
  rewrite locs_app. unfold survives.
  destruct (needs a); [destruct (snd (push a))|]; cbn; auto;
  constructor; auto; intros E; now apply surv_locs_incl in E.
Qed.

Lemma llists_frame h h' ps ls :
  (forall x, In x (concat (map locs ls)) -> h' x = h x) -> llists h ps ls -> llists h' ps ls.
Proof.
  intros Hf H; induction H as [|p l ps ls H1 H2 IH]; constructor.
  - eapply lseg_frame; [|exact H1]. intros x Hx. apply Hf. cbn. apply in_app_iff; auto.
  - apply IH. intros x Hx. apply Hf. cbn. apply in_app_iff; auto.
Qed.

Lemma push_all_correct ls : forall fuel h ps c1 c2 c3,
  Forall (fun l => length l < fuel)%nat ls ->
  llists h ps ls -> NoDup (concat (map locs ls)) ->
  exists h' ps',
    push_all needs push trac fuel h ps c1 c2 c3 =
    Some (h', ps', (c1 + zsum (fun l => Z.of_nat (length l)) ls
                       - zsum (fun l => Z.of_nat (length (surv l))) ls,
                    c2 + zsum (fun l => Z.of_nat (length (surv l))) ls,
                    c3 + zsum (fun l => count trac (surv l)) ls))%Z /\
    llists h' ps' (map surv ls) /\
    (forall x, In x (concat (map locs ls)) -> ~ In x (concat (map (fun l => locs (surv l)) ls)) ->
       h' x = None) /\
    agree_off (concat (map locs ls)) h h'.
Proof.
  induction ls as [|l ls IH]; intros fuel h ps c1 c2 c3 Hf HL ND.
  - inversion HL; subst. cbn. exists h, []. repeat split; try constructor.
    + f_equal. f_equal. f_equal; [f_equal|]; lia.
    + intros ? [].
  - inversion HL as [|p ? ps0 ? H1 H2]; subst. inversion Hf; subst.
    cbn [map concat] in ND.
    destruct (push_thread_correct fuel h p l) as (h1 & hd & E & L & D & F); trivial.
    { now apply NoDup_app_l in ND. }
    cbn [push_all]. rewrite E. cbn [p_heap p_head p_lost p_tot p_tracer].
    edestruct (IH fuel h1 ps0) as (h2 & ps' & E2 & L2 & D2 & F2); trivial.
    { eapply llists_frame; [|exact H2]. intros x Hx. apply F.
      intros Hx2. eapply NoDup_app_disj; eauto. }
    { now apply NoDup_app_r in ND. }
    rewrite E2. exists h2, (hd :: ps'). split; [|split; [|split]].
    + f_equal. f_equal. cbn [zsum fold_right].
      f_equal; [f_equal|]; unfold zsum; lia.
    + cbn [map]. constructor; trivial. eapply lseg_frame; [|exact L].
      intros x Hx. apply F2. intros Hx2. apply surv_locs_incl in Hx.
      eapply NoDup_app_disj; eauto.
    + cbn [map concat]. intros x Hx Hn. rewrite in_app_iff in *.
      destruct Hx as [Hx|Hx].
      * rewrite F2; [apply D; tauto|]. intros Hx2. eapply NoDup_app_disj; eauto.
      * apply D2; tauto.
    + cbn [map concat]. intros x Hx. rewrite in_app_iff in Hx.
      rewrite F2 by tauto. apply F; tauto.
Qed.
End PushP.

(** *** boundary pass *)
Section BoundP.
Variable move : A -> A.
Variable inactive : A -> A -> bool.
Variable leaves : A -> bool.
Variable trac : A -> bool.

Notation S v l := (sent_to v move inactive leaves l).

Lemma sent_cons v x a l :
  S v ((x, a) :: l) =
  if verdict_eqb v (destination move inactive leaves a) then (x, move a) :: S v l else S v l.
Proof. unfold sent_to; cbn. destruct (verdict_eqb _ _); reflexivity. Qed.

Lemma sent_locs v l x : In x (locs (S v l)) -> In x (locs l).
Proof.
  induction l as [|[y a] l IH]; [cbn; trivial|].
  rewrite sent_cons. destruct (verdict_eqb _ _); cbn; tauto.
Qed.

Lemma sent_length l :
  (length (S Keep l) + length (S Lose l) + length (S Hand l) = length l)%nat.
Proof.
  induction l as [|[y a] l IH]; [reflexivity|]. rewrite !sent_cons.
  destruct (destination move inactive leaves a); cbn in *; lia.
Qed.

Lemma sent_perm l :
  Permutation (S Keep l ++ S Lose l ++ S Hand l) (moved move l).
Proof.
  induction l as [|[y a] l IH]; [constructor|]. rewrite !sent_cons.
  cbn [moved map fst snd]. fold (moved move l).
  destruct (destination move inactive leaves a); cbn [verdict_eqb app].
  - now constructor.
  - rewrite <- Permutation_middle. now constructor.
  - rewrite app_assoc, <- Permutation_middle, <- app_assoc. now constructor.
Qed.

Lemma moved_locs l : locs (moved move l) = locs l.
Proof. rewrite !locs_map. unfold moved. rewrite map_map. now apply map_ext. Qed.

Lemma bound_loop_correct post : forall fuel h done head mpi ml lost tot tr snt,
  (length post < fuel)%nat ->
  lseg h head done (head_loc post) -> llist h (head_loc post) post ->
  llist h mpi ml ->
  NoDup (locs (done ++ post ++ ml)) ->
  exists h' head' mpi',
    bound_loop move inactive leaves trac fuel h (head_loc post) (last_loc done) head mpi lost tot tr snt =
    Some {| b_heap := h'; b_head := head'; b_mpi := mpi';
            b_lost := lost + Z.of_nat (length (S Lose post));
            b_tot := tot - Z.of_nat (length (S Lose post));
            b_tracer := tr - count trac (S Lose post);
            b_send := snt + Z.of_nat (length (S Hand post)) |} /\
    llist h' head' (done ++ S Keep post) /\
    llist h' mpi' (rev (S Hand post) ++ ml) /\
    (forall x, In x (locs (S Lose post)) -> h' x = None) /\
    agree_off (locs done ++ locs post) h h'.
Proof.
  induction post as [|[x a] post IH];
    intros fuel h done head mpi ml lost tot tr snt Hf HD HP HM ND.
  - destruct fuel as [|f]; [cbn in Hf; lia|]. cbn. exists h, head, mpi.
    repeat split; trivial.
    + f_equal. f_equal; unfold count; cbn; lia.
    + rewrite app_nil_r. exact HD.
    + intros y [].
  - destruct fuel as [|f]; [cbn in Hf; lia|].
    cbn in HP. destruct HP as (_ & Hx & n & Hn & HP).
    assert (En : n = head_loc post) by (now apply llist_head in HP). subst n.
    assert (NX : ~ In x (locs done) /\ ~ In x (locs post) /\ ~ In x (locs ml)).
    { rewrite locs_app in ND; cbn in ND. apply NoDup_remove_2 in ND.
      rewrite in_app_iff, locs_app, in_app_iff in ND; tauto. }
    destruct NX as (NX1 & NX2 & NX3).
    assert (ND' : NoDup (locs (done ++ post ++ ml))).
    { rewrite locs_app in *. cbn in ND. now apply NoDup_remove_1 in ND. }
    rewrite !sent_cons.
    cbn [bound_loop head_loc]. destruct (Nat.eqb_spec x null); [congruence|].
    rewrite load_nn, Hn by trivial.
    unfold store_pay. rewrite load_nn, Hn by trivial.
    set (a' := move a). set (h1 := upd h x (Some (a', head_loc post))).
    assert (Q0 : forall y, y <> x -> h1 y = h y) by (intros; now apply upd_other).
    assert (Q1 : lseg h1 head done x).
    { eapply lseg_frame; [|exact HD]. intros y Hy. apply Q0. intros ->; tauto. }
    assert (Q2 : llist h1 (head_loc post) post).
    { eapply lseg_frame; [|exact HP]. intros y Hy. apply Q0. intros ->; tauto. }
    assert (Q3 : llist h1 mpi ml).
    { eapply lseg_frame; [|exact HM]. intros y Hy. apply Q0. intros ->; tauto. }
    assert (Q4 : llist h1 x ((x, a') :: post)).
    { cbn. repeat split; trivial. exists (head_loc post); split; [apply upd_same|exact Q2]. }
    unfold destination.
    destruct (inactive a a') eqn:Ei; fold a'; rewrite ?Ei; cbn [verdict_eqb].
    + (* lost *)
      destruct (list_remove_correct h1 head done x a' post) as (h2 & head2 & E2 & L2 & S2 & P2 & D2 & F2).
      { apply lseg_app; eauto. }
      { rewrite app_assoc, locs_app in ND. apply NoDup_app_l in ND. rewrite locs_app in *. exact ND. }
      rewrite E2.
      destruct (IH f h2 done head2 mpi ml (lost + 1)%Z (tot - 1)%Z (if trac a' then tr - 1 else tr)%Z snt)
        as (h' & head' & mpi' & E & K & M & D & F); trivial.
      { cbn in Hf; lia. }
      { eapply lseg_frame; [|exact Q3]. intros y Hy. apply F2. cbn. intros [->|Hy2]; [tauto|].
        rewrite !locs_app in ND'. eapply NoDup_app_disj; [exact ND'|exact Hy2|].
        apply in_app_iff; auto. }
      exists h', head', mpi'. repeat split; trivial.
      * rewrite E. f_equal. cbn [length]. f_equal; try lia.
        unfold count; cbn [filter snd]. destruct (trac a'); cbn [length]; lia.
      * cbn [locs map fst]. intros y [<-|Hy]; [|now apply D].
        rewrite F; [exact D2|]. rewrite in_app_iff; tauto.
      * intros y Hy. rewrite in_app_iff in Hy; cbn in Hy.
        rewrite F by (rewrite in_app_iff; tauto).
        rewrite F2 by (cbn; tauto). apply Q0. intros ->; tauto.
    + destruct (leaves a) eqn:El; cbn [verdict_eqb].
      * (* handed over *)
        assert (R : exists h2 head2,
          rad_mpi_transport h1 x head (last_loc done) mpi = Some (h2, head_loc post, head2, x) /\
          lseg h2 head2 done (head_loc post) /\ llist h2 (head_loc post) post /\
          llist h2 x ((x, a') :: ml) /\ agree_off (x :: locs done) h h2).
        { unfold rad_mpi_transport, next_of, store_next.
          rewrite !load_nn by trivial. unfold h1 at 1 2. rewrite upd_same.
          assert (QM : forall h2, h2 x = Some (a', mpi) -> (forall y, In y (locs ml) -> h2 y = h1 y) ->
                    llist h2 x ((x, a') :: ml)).
          { intros h2 G1 G2. cbn. repeat split; trivial. exists mpi; split; trivial.
            eapply lseg_frame; [|exact Q3]. exact G2. }
          destruct (snoc_cases done) as [->|(done' & y & b & ->)].
          - cbn [last_loc null Nat.eqb negb]. eexists _, _; split; [reflexivity|].
            split; [reflexivity|]. split; [|split].
            + eapply lseg_frame; [|exact Q2]. intros z Hz. apply upd_other. intros ->; tauto.
            + apply QM; [apply upd_same|]. intros z Hz; apply upd_other. intros ->; tauto.
            + intros z Hz. cbn in Hz. rewrite upd_other by (intros ->; tauto).
              apply Q0. intros ->; tauto.
          - rewrite last_loc_snoc. pose proof (lseg_last _ _ _ _ _ _ Q1) as (Hy & Hyn).
            assert (Hxy : x <> y). { intros ->. apply NX1. rewrite locs_app, in_app_iff; cbn; auto. }
            dnull. cbn [negb]. rewrite !load_nn by trivial.
            rewrite (upd_other _ x _ y) by congruence. rewrite Hy.
            rewrite load_nn, upd_same by trivial.
            eexists _, _; split; [reflexivity|].
            assert (NY : ~ In y (locs post) /\ ~ In y (locs ml)).
            { rewrite (locs_app (done' ++ _)), (locs_app done'), (locs_app post) in ND'. cbn in ND'.
              split; intros G; eapply NoDup_app_disj; [exact ND'| |apply in_app_iff; left; exact G
                |exact ND'| |apply in_app_iff; right; exact G]; apply in_app_iff; cbn; auto. }
            split; [|split; [|split]].
            + eapply lseg_relink.
              * rewrite locs_app in ND'. now apply NoDup_app_l in ND'.
              * eapply lseg_frame; [|exact Q1]. intros z Hz. apply upd_other. intros ->; tauto.
            + eapply lseg_frame; [|exact Q2]. intros z Hz. rewrite !upd_other; trivial; intros ->; tauto.
            + apply QM.
              * rewrite upd_other by trivial. apply upd_same.
              * intros z Hz. rewrite !upd_other; trivial; intros ->; tauto.
            + intros z Hz. cbn in Hz. rewrite locs_app, in_app_iff in Hz; cbn in Hz.
              rewrite !upd_other; try (intros ->; tauto). apply Q0. intros ->; tauto. }
        destruct R as (h2 & head2 & E2 & S2 & P2 & M2 & F2). rewrite E2.
        destruct (IH f h2 done head2 x ((x, a') :: ml) lost tot tr (snt + 1)%Z)
          as (h' & head' & mpi' & E & K & M & D & F); trivial.
        { cbn in Hf; lia. }
        { eapply Permutation_NoDup; [|exact ND]. rewrite !locs_app. cbn. rewrite ?locs_app.
          apply Permutation_app_head. apply Permutation_middle. }
        exists h', head', mpi'. repeat split; trivial.
        -- rewrite E. f_equal. cbn [length]. f_equal; lia.
        -- cbn [rev]. rewrite <- app_assoc. exact M.
        -- intros y Hy. rewrite in_app_iff in Hy; cbn in Hy.
           rewrite F by (rewrite in_app_iff; tauto). apply F2. cbn; tauto.
      * (* kept *)
        unfold next_of. rewrite load_nn by trivial. unfold h1 at 1. rewrite upd_same.
        destruct (IH f h1 (done ++ [(x, a')]) head mpi ml lost tot tr snt)
          as (h' & head' & mpi' & E & K & M & D & F); trivial.
        { cbn in Hf; lia. }
        { apply lseg_app. exists x; split; [exact Q1|]. cbn. repeat split; trivial.
          exists (head_loc post); split; [apply upd_same|trivial]. }
        { rewrite <- app_assoc, locs_app. cbn. rewrite locs_app in ND; exact ND. }
        rewrite last_loc_snoc in E.
        exists h', head', mpi'. repeat split; trivial.
        -- rewrite <- app_assoc in K. exact K.
        -- intros y Hy. rewrite F.
           ++ apply Q0. intros ->. apply Hy, in_app_iff; cbn; auto.
           ++ rewrite locs_app. cbn. rewrite !in_app_iff in *. cbn in *. tauto.
Qed.

Lemma bound_thread_correct fuel h p l m ml :
  (length l < fuel)%nat -> llist h p l -> llist h m ml -> NoDup (locs (l ++ ml)) ->
  exists h' head' mpi',
    bound_thread move inactive leaves trac fuel h p m =
    Some {| b_heap := h'; b_head := head'; b_mpi := mpi';
            b_lost := Z.of_nat (length (S Lose l));
            b_tot := - Z.of_nat (length (S Lose l));
            b_tracer := - count trac (S Lose l);
            b_send := Z.of_nat (length (S Hand l)) |} /\
    llist h' head' (S Keep l) /\ llist h' mpi' (rev (S Hand l) ++ ml) /\
    (forall x, In x (locs (S Lose l)) -> h' x = None) /\
    agree_off (locs l) h h'.
Proof.
  intros Hf HL HM ND. pose proof (llist_head _ _ _ HL) as ->.
  destruct (bound_loop_correct l fuel h [] (head_loc l) m ml 0 0 0 0)
    as (h' & head' & mpi' & E & K & M & D & F); trivial.
  { reflexivity. }
  exists h', head', mpi'. split; [|repeat split; trivial].
  unfold bound_thread. etransitivity; [exact E|]. reflexivity.
Qed.

Lemma NoDup_sent_hand l ml : NoDup (locs (l ++ ml)) -> NoDup (locs (rev (S Hand l) ++ ml)).
Proof.
  intros H. rewrite locs_app in *. eapply NoDup_app_sub; [exact H| |now apply NoDup_app_r in H| |apply incl_refl].
  - rewrite locs_rev. apply NoDup_rev. apply NoDup_app_l in H.
    revert H. induction l as [|[x a] l IH]; [constructor|]. intros H. inversion H; subst.
    rewrite sent_cons. destruct (verdict_eqb _ _); cbn; auto.
    constructor; auto. intros E. now apply sent_locs in E.
  - intros x Hx. rewrite locs_rev, <- in_rev in Hx. now apply sent_locs in Hx.
Qed.

(** All threads; the hand-over lists may be non-empty before. *)
Lemma bound_all_correct ls : forall fuel h pms mls c1 c2 c3 c4,
  length mls = length ls ->
  Forall (fun l => length l < fuel)%nat ls ->
  llists h (map fst pms) ls -> llists h (map snd pms) mls ->
  NoDup (concat (map locs ls) ++ concat (map locs mls)) ->
  exists h' pms',
    bound_all move inactive leaves trac fuel h pms c1 c2 c3 c4 =
    Some (h', pms', (c1 + zsum (fun l => Z.of_nat (length (S Lose l))) ls,
                     c2 - zsum (fun l => Z.of_nat (length (S Lose l))) ls,
                     c3 - zsum (fun l => count trac (S Lose l)) ls,
                     c4 + zsum (fun l => Z.of_nat (length (S Hand l))) ls))%Z /\
    llists h' (map fst pms') (map (fun l => S Keep l) ls) /\
    llists h' (map snd pms') (map (fun lm => rev (S Hand (fst lm)) ++ snd lm) (combine ls mls)) /\
    (forall x, In x (concat (map (fun l => locs (S Lose l)) ls)) -> h' x = None) /\
    agree_off (concat (map locs ls)) h h'.
Proof.
  induction ls as [|l ls IH]; intros fuel h pms mls c1 c2 c3 c4 Hlen Hf HL HM ND.
  - destruct mls; [|discriminate]. destruct pms as [|pm pms]; [|inversion HL].
    cbn. exists h, []. repeat split; try constructor.
    + f_equal. f_equal. f_equal; [f_equal; [f_equal|]|]; lia.
    + intros ? [].
  - destruct mls as [|ml mls]; [discriminate|].
    destruct pms as [|[p m] pms]; [inversion HL|].
    cbn [map fst snd] in HL, HM. inversion HL as [|? ? ? ? H1 H2]; subst.
    inversion HM as [|? ? ? ? G1 G2]; subst. inversion Hf; subst.
    cbn [map concat] in ND.
    assert (NDa : NoDup (locs (l ++ ml))).
    { rewrite locs_app. eapply NoDup_app_sub; [exact ND| | |intros z Hz; apply in_app_iff; left; exact Hz
        |intros z Hz; apply in_app_iff; left; exact Hz].
      - apply NoDup_app_l in ND. now apply NoDup_app_l in ND.
      - apply NoDup_app_r in ND. now apply NoDup_app_l in ND. }
    assert (NDb : NoDup (concat (map locs ls) ++ concat (map locs mls))).
    { eapply NoDup_app_sub; [exact ND| | |intros z Hz; apply in_app_iff; right; exact Hz
        |intros z Hz; apply in_app_iff; right; exact Hz].
      - apply NoDup_app_l in ND. now apply NoDup_app_r in ND.
      - apply NoDup_app_r in ND. now apply NoDup_app_r in ND. }
    assert (DJ : forall x, In x (locs l) ->
                 ~ In x (concat (map locs ls)) /\ ~ In x (concat (map locs mls)) /\ ~ In x (locs ml)).
    { intros x Hx. repeat split; intros Hy.
      - apply NoDup_app_l in ND. exact (NoDup_app_disj _ _ x ND Hx Hy).
      - refine (NoDup_app_disj _ _ x ND _ _); apply in_app_iff; eauto.
      - refine (NoDup_app_disj _ _ x ND _ _); apply in_app_iff; eauto. }
    destruct (bound_thread_correct fuel h p l m ml) as (h1 & hd & mp & E & K & M & D & F); trivial.
    cbn [bound_all]. rewrite E. cbn [b_heap b_head b_mpi b_lost b_tot b_tracer b_send].
    edestruct (IH fuel h1 pms mls) as (h2 & pms' & E2 & K2 & M2 & D2 & F2); trivial.
    { now injection Hlen. }
    { eapply llists_frame; [|exact H2]. intros x Hx. apply F. intros Hx2. now apply DJ in Hx2. }
    { eapply llists_frame; [|exact G2]. intros x Hx. apply F. intros Hx2. now apply DJ in Hx2. }
    rewrite E2. exists h2, ((hd, mp) :: pms'). split; [|split; [|split; [|split]]].
    + f_equal. f_equal. cbn [zsum fold_right].
      f_equal; [f_equal; [f_equal|]|]; unfold zsum; lia.
    + cbn [map fst]. constructor; trivial. eapply lseg_frame; [|exact K].
      intros x Hx. apply F2. intros Hx2. apply sent_locs in Hx. now apply DJ in Hx.
    + cbn [map combine fst snd]. constructor; trivial. eapply lseg_frame; [|exact M].
      intros x Hx. apply F2. intros Hx2. rewrite locs_app, in_app_iff, locs_rev, <- in_rev in Hx.
      destruct Hx as [Hx|Hx].
      * apply sent_locs in Hx. now apply DJ in Hx.
      * eapply NoDup_app_disj; [exact ND| |]; apply in_app_iff; [right; exact Hx2|left; exact Hx].
    + cbn [map concat]. intros x Hx. rewrite in_app_iff in Hx. destruct Hx as [Hx|Hx]; [|auto].
      rewrite F2; [now apply D|]. intros Hx2. apply sent_locs in Hx. now apply DJ in Hx.
    + cbn [map concat]. intros x Hx. rewrite in_app_iff in Hx.
      rewrite F2 by tauto. apply F; tauto.
Qed.

Lemma merge_mpi_correct mls : forall fuel h ms dst dl,
  Forall (fun l => length l < fuel)%nat mls ->
  llists h ms mls -> llist h dst dl ->
  NoDup (concat (map locs mls) ++ locs dl) ->
  exists h' merged,
    merge_mpi fuel h ms dst =
    Some (h', head_loc merged) /\ llist h' (head_loc merged) merged /\
    Permutation merged (concat mls ++ dl) /\
    agree_off (concat (map locs mls)) h h'.
Proof.
  induction mls as [|ml mls IH]; intros fuel h ms dst dl Hf HM HD ND.
  - inversion HM; subst. cbn. exists h, dl. rewrite <- (llist_head _ _ _ HD).
    repeat split; trivial.
  - inversion HM as [|m ? ms0 ? H1 H2]; subst. inversion Hf; subst. cbn [map concat] in ND.
    cbn [merge_mpi]. destruct (Nat.eqb_spec m null) as [->|Hm].
    + assert (ml = []) as ->.
      { destruct ml as [|[z c] ml]; trivial. cbn in H1. destruct H1 as (E & Hz & _). congruence. }
      cbn in ND. destruct (IH fuel h ms0 dst dl) as (h' & mg & E & L & P & F); trivial.
      exists h', mg; repeat split; trivial.
    + destruct (drain_correct ml fuel h m dst dl) as (h1 & E1 & L1 & F1); trivial.
      { rewrite locs_app. eapply NoDup_app_sub; [exact ND| | |intros z Hz; apply in_app_iff; left; exact Hz|apply incl_refl].
        - apply NoDup_app_l in ND. now apply NoDup_app_l in ND.
        - now apply NoDup_app_r in ND. }
      rewrite E1.
      edestruct (IH fuel h1 ms0) as (h' & mg & E & L & P & F); trivial.
      { eapply llists_frame; [|exact H2]. intros x Hx. apply F1. intros Hx2.
        apply NoDup_app_l in ND. eapply NoDup_app_disj; eauto. }
      { exact L1. }
      { eapply Permutation_NoDup; [|exact ND]. rewrite locs_app, locs_rev, <- Permutation_rev.
        rewrite !app_assoc. apply Permutation_app_tail. apply Permutation_app_comm. }
      exists h', mg. repeat split; trivial.
      * rewrite P. cbn [concat]. rewrite <- Permutation_rev, !app_assoc.
        apply Permutation_app_tail, Permutation_app_comm.
      * cbn [map concat]. intros x Hx. rewrite in_app_iff in Hx.
        rewrite F by tauto. apply F1; tauto.
Qed.

Lemma NoDup_hands ls mls :
  length mls = length ls ->
  NoDup (concat (map locs ls) ++ concat (map locs mls)) ->
  NoDup (concat (map locs (map (fun lm => rev (S Hand (fst lm)) ++ snd lm) (combine ls mls)))) /\
  incl (concat (map locs (map (fun lm => rev (S Hand (fst lm)) ++ snd lm) (combine ls mls))))
       (concat (map locs ls) ++ concat (map locs mls)).
Proof.
  revert mls; induction ls as [|l ls IH]; intros [|ml mls] Hl ND; try discriminate.
  - cbn; split; [constructor|apply incl_nil_l].
  - cbn [map concat combine fst snd] in *.
    assert (NDa : NoDup ((locs l ++ locs ml) ++ (concat (map locs ls) ++ concat (map locs mls)))).
    { eapply Permutation_NoDup; [|exact ND]. rewrite <- !app_assoc. apply Permutation_app_head.
      rewrite !app_assoc. apply Permutation_app_tail, Permutation_app_comm. }
    destruct (IH mls) as [IH1 IH2]; [now injection Hl|now apply NoDup_app_r in NDa|].
    assert (I : incl (locs (rev (S Hand l) ++ ml)) (locs l ++ locs ml)).
    { intros x Hx. rewrite locs_app, !in_app_iff in *. destruct Hx as [Hx|]; [left|auto].
      rewrite locs_rev, <- in_rev in Hx. now apply sent_locs in Hx. }
    split.
    + eapply NoDup_app_sub; [exact NDa| |exact IH1|exact I|exact IH2].
      apply NoDup_sent_hand. rewrite locs_app. now apply NoDup_app_l in NDa.
    + apply incl_app.
      * intros x Hx. apply I in Hx. rewrite !in_app_iff in *. tauto.
      * intros x Hx. apply IH2 in Hx. rewrite !in_app_iff in *. tauto.
Qed.

Lemma hands_perm ls mls :
  length mls = length ls ->
  Permutation (concat (map (fun lm => rev (S Hand (fst lm)) ++ snd lm) (combine ls mls)))
              (concat (map (fun l => S Hand l) ls) ++ concat mls).
Proof.
  revert mls; induction ls as [|l ls IH]; intros [|ml mls] Hl; try discriminate; [constructor|].
  cbn. rewrite IH by (now injection Hl). rewrite <- Permutation_rev, <- !app_assoc.
  apply Permutation_app_head. rewrite !app_assoc. apply Permutation_app_tail, Permutation_app_comm.
Qed.

Lemma concat_sent_perm ls :
  Permutation (concat (map (fun l => S Keep l) ls) ++ concat (map (fun l => S Lose l) ls)
               ++ concat (map (fun l => S Hand l) ls))
              (concat (map (moved move) ls)).
Proof.
  induction ls as [|l ls IH]; [constructor|]. cbn. rewrite <- IH, <- (sent_perm l).
  rewrite <- !app_assoc. apply Permutation_app_head.
  rewrite app_assoc, (Permutation_app_comm _ (S Lose l)), <- !app_assoc.
  apply Permutation_app_head.
  rewrite (app_assoc (concat _) _ (S Hand l ++ _)).
  rewrite (app_assoc _ (S Hand l) (concat (map (fun l => S Hand l) ls))).
  rewrite (Permutation_app_comm (_ ++ _) (S Hand l)), <- !app_assoc.
  reflexivity.
Qed.

Lemma zsum_length (f : list (loc * A) -> list (loc * A)) ls :
  zsum (fun l => Z.of_nat (length (f l))) ls = Z.of_nat (length (concat (map f ls))).
Proof.
  induction ls as [|l ls IH]; [reflexivity|].
  cbn [map concat zsum fold_right]. rewrite app_length. unfold zsum in IH. rewrite IH. lia.
Qed.

Lemma zsum_count (f : list (loc * A) -> list (loc * A)) ls :
  zsum (fun l => count trac (f l)) ls = count trac (concat (map f ls)).
Proof.
  induction ls as [|l ls IH]; [reflexivity|].
  cbn [map concat zsum fold_right]. unfold zsum in IH. rewrite IH. unfold count.
  rewrite filter_app, app_length. lia.
Qed.

Lemma llists_nulls h ms : Forall (eq null) ms -> llists h ms (map (fun _ => []) ms).
Proof. induction 1 as [|m ms <- _ IH]; constructor; [reflexivity|exact IH]. Qed.

(** The complete local pass, starting with empty hand-over lists. *)
Lemma bound_local_correct fuel h heads ls c1 c2 c3 :
  Forall (fun l => length l < fuel)%nat ls ->
  llists h heads ls -> NoDup (concat (map locs ls)) ->
  exists h' heads' kept merged lost,
    bound_local move inactive leaves trac fuel h (map (fun p => (p, null)) heads) c1 c2 c3 =
    Some (h', heads', head_loc merged,
          (c1 + Z.of_nat (length lost), c2 - Z.of_nat (length lost),
           c3 - count trac lost, Z.of_nat (length merged)))%Z /\
    llists h' heads' kept /\
    llist h' (head_loc merged) merged /\
    kept = map (fun l => S Keep l) ls /\
    lost = concat (map (fun l => S Lose l) ls) /\
    Permutation merged (concat (map (fun l => S Hand l) ls)) /\
    Permutation (concat kept ++ lost ++ merged) (concat (map (moved move) ls)) /\
    (forall x, In x (locs lost) -> h' x = None) /\
    agree_off (concat (map locs ls)) h h'.
Proof.
  intros Hf HL ND.
  pose (mls := map (fun _ : list (loc * A) => @nil (loc * A)) ls).
  assert (Hlen : length mls = length ls) by (unfold mls; now rewrite map_length).
  assert (Cm : concat (map locs mls) = []).
  { unfold mls. clear. induction ls; cbn; trivial. }
  assert (Lp : length heads = length ls) by (clear - HL; induction HL; cbn; congruence).
  assert (ND2 : NoDup (concat (map locs ls) ++ concat (map locs mls))) by (now rewrite Cm, app_nil_r).
  destruct (bound_all_correct ls fuel h (map (fun p => (p, null)) heads) mls c1 c2 c3 0)
    as (h1 & pms & E & K & M & D & F); trivial.
  { rewrite map_map. cbn. now rewrite map_id. }
  { rewrite map_map. cbn. unfold mls, llists. clear - Lp.
    revert ls Lp. induction heads as [|p ps IH]; intros [|l ls] H; try discriminate; constructor.
    - reflexivity.
    - apply IH. now injection H. }
  destruct (NoDup_hands ls mls Hlen ND2) as [NH IH_].
  assert (Hf2 : Forall (fun l => length l < fuel)%nat
     (map (fun lm => rev (S Hand (fst lm)) ++ snd lm) (combine ls mls))).
  { unfold mls. clear - Hf. induction Hf as [|l ls H _ IH]; cbn [map combine fst snd]; constructor; trivial.
    rewrite app_nil_r, rev_length. pose proof (sent_length l). lia. }
  destruct (merge_mpi_correct _ fuel h1 (map snd pms) null [] Hf2 M) as (h2 & mg & E2 & L2 & P2 & F2).
  { reflexivity. } { cbn. now rewrite app_nil_r. }
  rewrite app_nil_r, (hands_perm ls mls Hlen) in P2.
  replace (concat mls) with (@nil (loc * A)) in P2 by (unfold mls; clear; induction ls; cbn; trivial).
  rewrite app_nil_r in P2.
  unfold bound_local. rewrite E, E2.
  exists h2, (map fst pms), (map (fun l => S Keep l) ls), mg, (concat (map (fun l => S Lose l) ls)).
  assert (DJ : forall x, In x (concat (map locs (map (fun lm => rev (S Hand (fst lm)) ++ snd lm) (combine ls mls)))) ->
     ~ In x (concat (map locs (map (fun l => S Keep l) ls))) /\ ~ In x (concat (map (fun l => locs (S Lose l)) ls))).
  { (* a location is in at most one of the three groups *)
    assert (P0 : NoDup (locs (concat (map (fun l => S Keep l) ls) ++ concat (map (fun l => S Lose l) ls)
               ++ concat (map (fun l => S Hand l) ls)))).
    { rewrite locs_map. eapply Permutation_NoDup; [apply Permutation_sym, Permutation_map, concat_sent_perm|].
      rewrite <- locs_map, locs_concat, map_map.
      replace (map (fun x => locs (moved move x)) ls) with (map locs ls); [exact ND|].
      apply map_ext. intros l. symmetry. apply moved_locs. }
    assert (CL : forall g : list (loc * A) -> list (loc * A),
        concat (map locs (map g ls)) = locs (concat (map g ls))).
    { intros g. now rewrite locs_concat. }
    intros x Hx. rewrite !CL.
    replace (concat (map (fun l => locs (S Lose l)) ls)) with (locs (concat (map (fun l => S Lose l) ls))).
    2:{ rewrite <- CL, map_map. reflexivity. }
    assert (Hx' : In x (locs (concat (map (fun l => S Hand l) ls)))).
    { eapply Permutation_in; [|exact Hx].
      rewrite <- locs_concat, !locs_map. apply Permutation_map.
      rewrite (hands_perm ls mls Hlen).
      replace (concat mls) with (@nil (loc * A)) by (unfold mls; clear; induction ls; cbn; trivial).
      now rewrite app_nil_r. }
    rewrite !locs_app in P0. split; intros Hy.
    - eapply NoDup_app_disj; [exact P0|exact Hy|]. apply in_app_iff; auto.
    - apply NoDup_app_r in P0. eapply NoDup_app_disj; [exact P0|exact Hy|exact Hx']. }
  split; [|split; [|split; [|split; [|split; [|split; [|split; [|split]]]]]]]; trivial.
  - f_equal. f_equal. rewrite !zsum_length, zsum_count.
    f_equal. rewrite (Permutation_length P2). reflexivity.
  - eapply llists_frame; [|exact K]. intros x Hx. apply F2. intros Hy. now apply DJ in Hy.
  - rewrite P2. apply concat_sent_perm.
  - intros x Hx. assert (Hx' : In x (concat (map (fun l => locs (S Lose l)) ls))).
    { rewrite locs_concat, map_map in Hx. exact Hx. }
    rewrite F2; [now apply D|]. intros Hy. now apply DJ in Hy.
  - intros x Hx. rewrite F2; [now apply F|]. intros Hy. apply IH_ in Hy.
    rewrite Cm, app_nil_r in Hy. tauto.
Qed.
End BoundP.

(** *** prune *)
Section PruneP.
Variable doomed : A -> bool.
Notation keep l := (filter (fun xa => negb (doomed (snd xa))) l).

Lemma prune_loop_correct post : forall fuel h done head,
  (length post < fuel)%nat ->
  lseg h head done (head_loc post) -> llist h (head_loc post) post ->
  NoDup (locs (done ++ post)) ->
  exists h' head',
    prune_loop doomed fuel h (head_loc post) (last_loc done) head = Some (h', head') /\
    llist h' head' (done ++ keep post) /\
    (forall x a, In (x, a) post -> doomed a = true -> h' x = None) /\
    agree_off (locs done ++ locs post) h h'.
Proof.
  induction post as [|[x a] post IH]; intros fuel h done head Hf HD HP ND.
  - destruct fuel as [|f]; [cbn in Hf; lia|]. cbn. exists h, head.
    repeat split; trivial. + rewrite app_nil_r; exact HD. + intros ? ? [].
  - destruct fuel as [|f]; [cbn in Hf; lia|].
    pose proof HP as HP0. cbn in HP. destruct HP as (_ & Hx & n & Hn & HP).
    assert (En : n = head_loc post) by (now apply llist_head in HP). subst n.
    assert (NX : ~ In x (locs done) /\ ~ In x (locs post)).
    { rewrite locs_app in ND; cbn in ND. apply NoDup_remove_2 in ND.
      rewrite in_app_iff in ND; tauto. }
    cbn [prune_loop head_loc]. destruct (Nat.eqb_spec x null); [congruence|].
    rewrite load_nn, Hn by trivial. cbn [filter snd]. destruct (doomed a) eqn:Ed; cbn [negb].
    + destruct (list_remove_correct h head done x a post) as (h2 & head2 & E2 & L2 & S2 & P2 & D2 & F2).
      { apply lseg_app; eauto. } { exact ND. }
      rewrite E2. destruct (IH f h2 done head2) as (h' & head' & E & L & D & F); trivial.
      { cbn in Hf; lia. } { rewrite locs_app in *. cbn in ND. now apply NoDup_remove_1 in ND. }
      exists h', head'. repeat split; trivial.
      * intros y b [Hy|Hy] Hb; [|eapply D; eauto]. injection Hy as <- <-.
        rewrite F; [exact D2|]. rewrite in_app_iff; tauto.
      * intros y Hy. rewrite in_app_iff in Hy; cbn in Hy.
        rewrite F by (rewrite in_app_iff; tauto). apply F2; cbn; tauto.
    + destruct (IH f h (done ++ [(x, a)]) head) as (h' & head' & E & L & D & F); trivial.
      { cbn in Hf; lia. }
      { apply lseg_app. exists x; split; trivial. cbn. repeat split; trivial. eauto. }
      { rewrite <- app_assoc. exact ND. }
      rewrite last_loc_snoc in E. exists h', head'. repeat split; trivial.
      * rewrite <- app_assoc in L. exact L.
      * intros y b [Hy|Hy] Hb; [congruence|eapply D; eauto].
      * intros y Hy. apply F. rewrite locs_app. cbn. rewrite !in_app_iff in *. cbn in *. tauto.
Qed.
Lemma prune_thread_correct l fuel h p :
  (length l < fuel)%nat -> llist h p l -> NoDup (locs l) ->
  exists h' head',
    prune_thread doomed fuel h p = Some (h', head') /\
    llist h' head' (keep l) /\
    (forall x a, In (x, a) l -> doomed a = true -> h' x = None) /\
    agree_off (locs l) h h'.
Proof.
  intros Hf HL ND. pose proof (llist_head _ _ _ HL) as ->.
  destruct (prune_loop_correct l fuel h [] (head_loc l)) as (h' & hd & E & L & D & F); trivial.
  { reflexivity. }
  exists h', hd. repeat split; trivial.
Qed.
End PruneP.
End Proofs.
