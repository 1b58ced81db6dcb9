From Coq Require Import Reals Bool List Lra Lia.
From Verif Require Import RLib XLib BiasModel BiasSpec.
Import ListNotations.
Open Scope R_scope.

Lemma bound_ge1 l p : In p (bound_all_biases l) -> exists r, snd p = Fin r /\ 1 <= r.
Proof.
  unfold bound_all_biases. intros H. apply in_map_iff in H. destruct H as (q & <- & _). cbn [snd].
  destruct (snd q) as [r| | |]; cbn [is_bad]; try (exists 1; split; [reflexivity|lra]).
  destruct (Rltb_spec r 1); [exists 1|exists r]; split; auto; lra.
Qed.

(** What the bounding computes on finite values. *)
Definition at1 (b : R) : R := if Rltb b 1 then 1 else b.
Definition up (l : list (R * R)) : list (R * R) := map (fun p => (fst p, at1 (snd p))) l.
Definition scale (k : R) (l : list (R * R)) : list (R * R) := map (fun p => (fst p, snd p * k)) l.
Definition nn (l : list (R * R)) := Forall (fun p => 0 <= fst p) l.

Lemma up_fin l : map (fun p => (fst p, if xltb (snd p) (Fin 1) then Fin 1 else snd p)) (fin l) = fin (up l).
Proof. unfold fin, up. rewrite !map_map. apply map_ext. intros (d, b). cbn. unfold at1. destruct (Rltb b 1); reflexivity. Qed.
Lemma scale_fin k l : map (fun p : proc => (fst p, (snd p * Fin k)%X)) (fin l) = fin (scale k l).
Proof. unfold fin, scale. rewrite !map_map. reflexivity. Qed.
Lemma last_fin l : map (fun p => (fst p, if is_bad (snd p) then Fin 1 else snd p)) (fin l) = fin (up l).
Proof. unfold fin, up. rewrite !map_map. apply map_ext. intros (d, b). cbn. unfold at1. destruct (Rltb b 1); reflexivity. Qed.
Lemma sum_fin l : forall a, fold_left (fun s (p : proc) => (s + fst p * snd p)%X) (fin l) (Fin a) = Fin (a + expected l).
Proof. induction l as [|(d, b) l IH]; intros a; cbn [fin map fold_left expected]; [f_equal; lra|]. cbn [fst snd xmul xadd]. fold (fin l). rewrite IH. f_equal. lra. Qed.

Lemma up_ge1 l p : In p (up l) -> 1 <= snd p.
Proof. unfold up. intros H. apply in_map_iff in H. destruct H as ((d, b) & <- & _). cbn. unfold at1. rcases; lra. Qed.
Lemma up_nn l : nn l -> nn (up l).
Proof. unfold nn, up. intros H. induction H; cbn; constructor; auto. Qed.
Lemma up_fst l : map fst (up l) = map fst l.
Proof. unfold up. rewrite map_map. reflexivity. Qed.
Lemma scale_fst k l : map fst (scale k l) = map fst l.
Proof. unfold scale. rewrite map_map. reflexivity. Qed.
Lemma expected_scale k l : expected (scale k l) = k * expected l.
Proof. induction l as [|(d, b) l IH]; cbn; [lra|]. fold (scale k l). rewrite IH. lra. Qed.
Lemma expected_nn l : nn l -> Forall (fun p => 1 <= snd p) l -> 0 <= depth l <= expected l.
Proof.
  intros H B. induction l as [|(d, b) l IH]; cbn; [lra|]. pose proof (Forall_inv H) as H1. pose proof (Forall_inv B) as B1. cbn in H1, B1.
  specialize (IH (Forall_inv_tail H) (Forall_inv_tail B)). assert (d * 1 <= d * b) by (apply Rmult_le_compat_l; auto). lra.
Qed.
Lemma depth_fst l l' : map fst l = map fst l' -> depth l = depth l'.
Proof.
  revert l'. induction l as [|(d, b) l IH]; intros [|(d', b') l'] H; cbn in *; try discriminate; auto. injection H. intros H1 ->. f_equal. auto.
Qed.
(** clipping from below costs at most the optical depth itself *)
Lemma up_cost l : nn l -> Forall (fun p => 0 <= snd p) l -> expected (up l) <= expected l + depth l /\ expected (boosted (up l)) <= expected l.
Proof.
  intros H B. induction l as [|(d, b) l IH]; cbn; [lra|]. pose proof (Forall_inv H) as H1. pose proof (Forall_inv B) as B1. cbn in H1, B1.
  specialize (IH (Forall_inv_tail H) (Forall_inv_tail B)). fold (up l). fold (boosted (up l)). unfold at1.
  assert (0 <= d * b) by (apply Rmult_le_pos; auto).
  destruct (Rltb_spec b 1) as [L|L].
  - destruct (Rltb_spec 1 1); [lra|]. fold (boosted (up l)). lra.
  - destruct (Rltb_spec 1 b); cbn; fold (boosted (up l)); lra.
Qed.
Lemma boosted_le l : nn l -> Forall (fun p => 1 <= snd p) l -> expected (boosted l) <= expected l.
Proof.
  intros H B. induction l as [|(d, b) l IH]; cbn; [lra|]. pose proof (Forall_inv H) as H1. pose proof (Forall_inv B) as B1. cbn in H1, B1.
  specialize (IH (Forall_inv_tail H) (Forall_inv_tail B)). assert (d * 1 <= d * b) by (apply Rmult_le_compat_l; auto).
  destruct (Rltb_spec 1 b); cbn; fold (boosted l); lra.
Qed.
Lemma up_up l : up (up l) = up l.
Proof. unfold up. rewrite map_map. apply map_ext. intros (d, b). cbn. f_equal. unfold at1. rcases; lra. Qed.

Lemma bound_finite l : nn l -> exists l', bound_all_biases (fin l) = fin l' /\ map fst l' = map fst l /\
  expected l' <= 1 / 2 + depth l /\ expected (boosted l') <= 1 / 2.
Proof.
  intros N. unfold bound_all_biases. rewrite up_fin, sum_fin. replace (0 + expected (up l)) with (expected (up l)) by lra.
  assert (U : Forall (fun p => 1 <= snd p) (up l)) by (apply Forall_forall; intros; eapply up_ge1; eauto).
  pose proof (expected_nn (up l) (up_nn l N) U) as E.
  rewrite (depth_fst (up l) l (up_fst l)) in E.
  unfold SCATT_BIAS_SAFETY. destruct (Req_dec (expected (up l)) 0) as [Z|Z].
  - rewrite Z. unfold xdiv. destruct (Reqb_spec 0 0); [|contradiction]. unfold inf_by. destruct (Rltb_spec 0 (1 / 2)); [|lra].
    cbn [xltb]. rewrite last_fin, up_up. exists (up l). split; auto. split; [apply up_fst|]. split; [lra|].
    pose proof (boosted_le (up l) (up_nn l N) U). lra.
  - rewrite xdiv_fin by exact Z. cbn [xltb]. destruct (Rltb_spec (1 / 2 / expected (up l)) 1) as [L|L].
    + rewrite scale_fin, last_fin. set (k := 1 / 2 / expected (up l)) in *.
      assert (K : 0 < k) by (apply Rdiv_lt_0_compat; lra).
      exists (up (scale k (up l))). split; auto. split; [rewrite up_fst, scale_fst, up_fst; auto|].
      assert (N' : nn (scale k (up l))).
      { unfold scale, nn. apply Forall_forall. intros p P. apply in_map_iff in P. destruct P as (q & <- & Q). cbn.
        pose proof (up_nn l N) as M. unfold nn in M. rewrite Forall_forall in M. auto. }
      assert (P' : Forall (fun p => 0 <= snd p) (scale k (up l))).
      { apply Forall_forall. intros p P. apply in_map_iff in P. destruct P as (q & <- & Q). cbn. apply up_ge1 in Q.
        apply Rmult_le_pos; lra. }
      destruct (up_cost _ N' P') as (A & B). rewrite expected_scale in A, B.
      rewrite (depth_fst _ l (eq_trans (scale_fst k (up l)) (up_fst l))) in A.
      replace (k * expected (up l)) with (1 / 2) in A, B by (unfold k; field; exact Z). lra.
    + rewrite last_fin, up_up. exists (up l). split; auto. split; [apply up_fst|].
      assert (expected (up l) <= 1 / 2).
      { apply Rnot_lt_le. intros Q. apply L. apply (Rmult_lt_reg_r (expected (up l))); [lra|].
        unfold Rdiv at 1. rewrite Rmult_assoc, Rinv_l by lra. lra. }
      split; [lra|]. pose proof (boosted_le (up l) (up_nn l N) U). lra.
Qed.

Lemma bound_refuted : exists l l', nn l /\ bound_all_biases (fin l) = fin l' /\ 1 / 2 < expected l'.
Proof.
  exists [(1, 1)]. destruct (bound_finite [(1, 1)]) as (l' & A & B & _).
  { constructor; [cbn; lra|constructor]. }
  exists l'. split; [constructor; [cbn; lra|constructor]|]. split; [exact A|].
  destruct l' as [|(d, b) [|q l']]; try discriminate B. injection B. intros ->.
  assert (I : In (Fin 1, Fin b) (bound_all_biases (fin [(1, 1)]))) by (rewrite A; left; reflexivity).
  apply bound_ge1 in I. destruct I as (r & I & R). cbn in I. injection I. intros ->. cbn. lra.
Qed.

(** Rebalancing. *)
Lemma max_fin l : forall m, exists k, fold_left (fun m p => let prod := (snd p * fst p)%X in if xltb m prod then prod else m) (fin l) (Fin m) = Fin k /\
  (k = m \/ exists p, In p l /\ k = fst p * snd p) /\ m <= k /\ Forall (fun p => fst p * snd p <= k) l.
Proof.
  induction l as [|(d, b) l IH]; intros m; cbn [fin map fold_left].
  - exists m. repeat split; auto; lra.
  - cbn. destruct (Rltb_spec m (b * d)) as [L|L].
    + destruct (IH (b * d)) as (k & A & B & C & D). exists k. split; [exact A|]. split; [|split; [lra|constructor; auto; cbn; lra]].
      right. destruct B as [->|(p & P & Q)]; [exists (d, b); split; [left; auto|cbn; lra]|exists p; split; [right|]; auto].
    + destruct (IH m) as (k & A & B & C & D). exists k. split; [exact A|]. split; [|split; [lra|constructor; auto; cbn; lra]].
      destruct B as [->|(p & P & Q)]; [left; auto|right; exists p; split; [right|]; auto].
Qed.
Lemma rebalance_finite a b l : exists m l', rebalance_biases (fin (a :: b :: l)) = fin l' /\ map fst l' = map fst (a :: b :: l) /\
  (exists p, In p (a :: b :: l) /\ m = fst p * snd p) /\ Forall (fun p => fst p * snd p <= m) (a :: b :: l) /\
  Forall (fun p => (/ 10 ^ 20 <= fst p -> snd p * (fst p + / 10 ^ 20) = m) /\ (fst p < / 10 ^ 20 -> snd p = 1)) l'.
Proof.
  assert (SP : 0 < / 10 ^ 20) by (apply Rinv_0_lt_compat, pow_lt; lra).
  destruct a as (d, c).
  assert (M : exists m, max_prod (fin ((d, c) :: b :: l)) = Fin m /\ (exists p, In p ((d, c) :: b :: l) /\ m = fst p * snd p) /\
     Forall (fun p => fst p * snd p <= m) ((d, c) :: b :: l)).
  { unfold max_prod. cbn [fin map fold_left fst snd]. cbn [xmul]. cbn [xltb]. destruct (max_fin (b :: l) (c * d)) as (k & A & B & C & D).
    exists k. split; [exact A|]. split; [|constructor; [cbn; lra|exact D]].
    destruct B as [->|(p & P & Q)]; [exists (d, c); split; [left; auto|cbn; lra]|exists p; split; [right|]; auto]. }
  destruct M as (m & E & I & F).
  set (L := (d, c) :: b :: l) in *.
  assert (R : rebalance_biases (fin L) = map (fun p => (fst p, if xltb (fst p) SMALL then Fin 1 else (max_prod (fin L) / (fst p + SMALL))%X)) (fin L))
    by reflexivity.
  exists m, (map (fun p => (fst p, if Rltb (fst p) (/ 10 ^ 20) then 1 else m / (fst p + / 10 ^ 20))) L).
  split; [|split; [rewrite map_map; reflexivity|split; [exact I|split; [exact F|]]]].
  - rewrite R, E. unfold fin. rewrite !map_map. apply map_ext. intros (x, y). unfold SMALL. cbn [fst snd xltb xadd].
    destruct (Rltb_spec x (/ 10 ^ 20)); auto. rewrite xdiv_fin by lra. reflexivity.
  - apply Forall_forall. intros p P. apply in_map_iff in P. destruct P as ((x, y) & <- & _). cbn [fst snd].
    destruct (Rltb_spec x (/ 10 ^ 20)); split; intros; try lra. field. lra.
Qed.

Lemma bound_bias_ge1 bias dtau num : 0 < dtau -> 0 < num -> exists r, bound_bias bias (Fin dtau) num = Fin r /\ 1 <= r /\
  (r = 1 \/ (r * (dtau * num) <= 1 /\ (bias = NaN \/ xleb (Fin r) bias = true))).
Proof.
  intros D N. unfold bound_bias. cbn [xmul]. assert (P : 0 < dtau * num) by (apply Rmult_lt_0_compat; auto).
  rewrite xdiv_fin by lra. set (y := 1 / (dtau * num)).
  assert (Y : y * (dtau * num) = 1) by (unfold y; field; split; lra).
  assert (C : forall z, z <= y -> z * (dtau * num) <= 1) by (intros z Z; rewrite <- Y; apply Rmult_le_compat_r; lra).
  destruct bias as [b| | |]; unfold xmin, xmax; cbn [xltb].
  - destruct (Rltb_spec b y) as [L|L]; cbn [xltb].
    + destruct (Rltb_spec 1 b); [exists b|exists 1]; repeat split; try lra; auto. right. split; [apply C; lra|]. right. cbn. destruct (Rleb_spec b b); auto; lra.
    + destruct (Rltb_spec 1 y); [exists y|exists 1]; repeat split; try lra; auto. right. split; [apply C; lra|]. right. cbn. destruct (Rleb_spec y b); auto; lra.
  - destruct (Rltb_spec 1 y); [exists y|exists 1]; repeat split; try lra; auto. right. split; [apply C; lra|]. auto.
  - exists 1. repeat split; auto; lra.
  - destruct (Rltb_spec 1 y); [exists y|exists 1]; repeat split; try lra; auto. right. split; [apply C; lra|]. auto.
Qed.
Lemma two_biases : exists q, In q (bound_all_biases [(Fin 1, NaN); (Fin (1 / 4), Fin 8)]) /\ fst q = Fin (1 / 4).
Proof.
  unfold bound_all_biases. set (l1 := map _ [_; _]). set (r := (_ / _)%X). destruct (xltb r (Fin 1)); cbn; eexists; split; try (right; left; reflexivity); reflexivity.
Qed.
Lemma rebalance_one d b : rebalance_biases (fin [(d, b)]) = fin [(d, b)].
Proof. reflexivity. Qed.
