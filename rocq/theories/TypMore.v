From Coq Require Import Reals ZArith List Bool Lra Lia Permutation.
From Verif Require Import RLib XLib TypModel TypSpec TypProofs.
Import ListNotations.
Open Scope R_scope.

Lemma printed_list N : (N = 3 \/ N = 4)%nat -> (if Nat.leb 4 N then [0; 1; 2; 3]%nat else [0; 1; 2]%nat) = seq 0 N.
Proof. intros [->| ->]; reflexivity. Qed.

Lemma printed_share N ranks : (N = 3 \/ N = 4)%nat -> Forall (legal N) (concat ranks) -> sumw (radiation (concat ranks)) <> 0 ->
  printed N ranks = Some (map (fun t => Fin (100 * sumw (of_type t (concat ranks)) / sumw (radiation (concat ranks)))) (seq 0 N)).
Proof.
  intros HN HL H0. destruct (reduced_legal N ranks HL) as (c & E & F). unfold printed. rewrite E, printed_list by exact HN. f_equal.
  assert (T : total N c = sumw (radiation (concat ranks))) by (rewrite <- (total_types N _ HL); apply total_ext; exact F).
  apply map_ext. intros t. rewrite share_val by (rewrite T; exact H0). rewrite T, F. f_equal. field. exact H0.
Qed.

Lemma sumw_nonneg l : Forall (fun p => 0 <= pw p) l -> 0 <= sumw l.
Proof. unfold sumw. induction 1; cbn; lra. Qed.
Lemma forall_filter {T} (Q : T -> Prop) f l : Forall Q l -> Forall Q (filter f l).
Proof. intros H. apply Forall_forall. intros x G. apply filter_In in G. eapply Forall_forall in H; [exact H|apply G]. Qed.
Lemma sum_snoc l x : fold_right Rplus 0 (l ++ [x]) = fold_right Rplus 0 l + x.
Proof. induction l; cbn; [lra|]. rewrite IHl. lra. Qed.
Lemma sum_seq N f : fold_right Rplus 0 (map f (seq 0 N)) = total N f.
Proof.
  induction N; [reflexivity|]. rewrite seq_S, map_app, total_S, <- IHN. apply sum_snoc.
Qed.
Lemma total_scale N k c : total N (fun t => k * c t) = k * total N c.
Proof. induction N; [cbn; lra|]. rewrite !total_S, IHN. lra. Qed.
Lemma total_ge N c t : (forall s, 0 <= c s) -> (t < N)%nat -> c t <= total N c.
Proof.
  intros H. assert (G : forall M, 0 <= total M c) by (induction M; [cbn; lra|rewrite total_S; specialize (H M); lra]).
  induction N; intros L; [lia|]. rewrite total_S. destruct (Nat.eq_dec t N) as [->|].
  - specialize (G N). lra.
  - specialize (H N). specialize (IHN ltac:(lia)). lra.
Qed.

Lemma printed_percent N ranks : (N = 3 \/ N = 4)%nat -> Forall (legal N) (concat ranks) ->
  Forall (fun p => 0 <= pw p) (concat ranks) -> 0 < sumw (radiation (concat ranks)) ->
  exists xs, printed N ranks = Some (map Fin xs) /\ length xs = N /\ Forall (fun x => 0 <= x <= 100) xs /\ fold_right Rplus 0 xs = 100.
Proof.
  intros HN HL HW H0. set (A := concat ranks) in *. set (W := sumw (radiation A)) in *.
  exists (map (fun t => 100 * sumw (of_type t A) / W) (seq 0 N)).
  split; [rewrite map_map; apply printed_share; auto; fold A; fold W; lra|].
  split; [rewrite map_length, seq_length; reflexivity|].
  assert (P : forall t, 0 <= sumw (of_type t A)) by (intros t; apply sumw_nonneg, forall_filter, HW).
  pose proof (total_types N A HL) as T. fold W in T. split.
  - apply Forall_forall. intros x G. apply in_map_iff in G. destruct G as (t & <- & G). apply in_seq in G.
    pose proof (total_ge N (fun t => sumw (of_type t A)) t P ltac:(lia)) as L. cbn beta in L. rewrite T in L. specialize (P t).
    pose proof (Rinv_0_lt_compat W H0) as I.
    assert (W * / W = 1) by (field; lra). unfold Rdiv. split; nra.
  - rewrite sum_seq, (total_ext N _ (fun t => (100 / W) * sumw (of_type t A))) by (intros; field; lra).
    rewrite total_scale, T. field. lra.
Qed.

Lemma legal_perm N a b : Permutation a b -> Forall (legal N) a -> Forall (legal N) b.
Proof. intros H G. rewrite Forall_forall in *. intros x Hx. apply G. eapply Permutation_in; [symmetry; exact H|exact Hx]. Qed.
Lemma legal_dec N l : Forall (legal N) l \/ ~ Forall (legal N) l.
Proof.
  destruct (Forall_dec (legal N)) with (l := l) as [D|D]; auto. intros p. unfold legal.
  destruct (Z.eq_dec (ptype p) (-1)); [left; auto|]. destruct (Z_le_dec 0 (ptype p)); [|right; lia].
  destruct (Z_lt_dec (ptype p) (Z.of_nat N)); [left; lia|right; lia].
Qed.

Lemma printed_place N r1 r2 : Permutation (concat r1) (concat r2) -> printed N r1 = printed N r2.
Proof.
  intros H. unfold printed. destruct (legal_dec N (concat r1)) as [D|D].
  - destruct (reduced_legal N r1 D) as (c1 & E1 & F1). destruct (reduced_legal N r2 (legal_perm N _ _ H D)) as (c2 & E2 & F2).
    rewrite E1, E2. f_equal. assert (G : forall t, c1 t = c2 t) by (intros t; rewrite F1, F2; apply sumw_perm, filter_perm, H).
    apply map_ext. intros t. unfold share. rewrite (total_ext N c1 c2 G), G. reflexivity.
  - rewrite (reduced_illegal N r1 D), reduced_illegal; [reflexivity|]. intros G. apply D. exact (legal_perm N _ _ (Permutation_sym H) G).
Qed.

Lemma printed_index N ranks : printed N ranks = None <-> ~ Forall (legal N) (concat ranks).
Proof.
  unfold printed. split.
  - intros H D. destruct (reduced_legal N ranks D) as (c & E & _). rewrite E in H. discriminate.
  - intros D. rewrite (reduced_illegal N ranks D). reflexivity.
Qed.

Lemma printed_empty N ranks : (N = 3 \/ N = 4)%nat -> Forall (fun p => ptype p = (-1)%Z) (concat ranks) ->
  printed N ranks = Some (map (fun _ => NaN) (seq 0 N)).
Proof.
  intros HN H. assert (D : Forall (legal N) (concat ranks)) by (eapply Forall_impl; [|exact H]; intros p; left; assumption).
  destruct (reduced_legal N ranks D) as (c & E & F). unfold printed. rewrite E, printed_list by exact HN. f_equal.
  assert (R0 : sumw (radiation (concat ranks)) = 0).
  { revert H. generalize (concat ranks). induction 1; [reflexivity|]. unfold radiation in *. cbn [filter]. rewrite H. exact IHForall. }
  assert (T0 : forall t, c t = 0).
  { intros t. rewrite F. revert H. generalize (concat ranks). induction 1; [reflexivity|]. unfold of_type in *. cbn [filter].
    destruct (Z.eqb_spec (ptype x) (Z.of_nat t)); [lia|]. exact IHForall. }
  assert (T : total N c = 0) by (rewrite <- R0, <- (total_types N _ D); apply total_ext; exact F).
  apply map_ext. intros t. unfold share. rewrite T, T0. unfold xdiv, inf_by. destruct (Reqb_spec 0 0) as [_|K]; [|destruct K; reflexivity].
  rewrite (Rltb_false 0 0) by lra. reflexivity.
Qed.
