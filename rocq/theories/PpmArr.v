(** The arrays of parabolic reconstruction, and general bounds (proofs of C119). *)
From Coq Require Import Reals Bool ZArith List Lia Lra Psatz.
From Verif Require Import RLib XLib IntLib ReconSpec PpmModel PpmSpec PpmProofs PpmMore.
Import ListNotations.
Open Scope R_scope.

(** the vocabulary is right: mean q and the values l and r at the ends *)
Lemma parabola_ok q l r : parabola q l r 0 = l /\ parabola q l r 1 = r /\ parabola_primitive q l r 1 - parabola_primitive q l r 0 = q /\
  forall x, derivable_pt_lim (parabola_primitive q l r) x (parabola q l r x).
Proof.
  split; [unfold parabola; field|]. split; [unfold parabola; field|]. split; [unfold parabola_primitive; field|]. intros x.
  unfold parabola_primitive, parabola. set (A := r - l + 6 * (q - (l + r) / 2)). set (B := 6 * (q - (l + r) / 2)).
  replace (l + x * (r - l + B * (1 - x))) with (l * 1 + A / 2 * (INR 2 * x ^ 1) - B / 3 * (INR 3 * x ^ 2)) by (unfold A, B; cbn [INR pow]; field).
  assert (E : forall f g : R -> R, (forall y, f y = g y) -> forall d, derivable_pt_lim g x d -> derivable_pt_lim f x d).
  { intros f g H d D e He. destruct (D e He) as (del & W). exists del. intros h H0 Hh. rewrite !H. now apply W. }
  apply E with (g := fun y => (mult_real_fct l id + mult_real_fct (A / 2) (fun y => y ^ 2))%F y - mult_real_fct (B / 3) (fun y => y ^ 3) y).
  { intros y. unfold plus_fct, mult_real_fct, id. field. }
  apply derivable_pt_lim_minus; [apply derivable_pt_lim_plus|]; apply derivable_pt_lim_scal; [apply derivable_pt_lim_id|apply (derivable_pt_lim_pow x 2)|apply (derivable_pt_lim_pow x 3)].
Qed.

(** limiting moves the edges towards the mean *)
Lemma lim3_ratio qa qb qc qd : qd <> 0 -> 0 <= lim3 qa qb qc qd / qd <= 1.
Proof.
  assert (P : forall a b c d, 0 < d -> 0 <= lim3 a b c d / d <= 1).
  { intros a b c d D. destruct (Rle_dec a 0); [rewrite lim3_mixed by lra; unfold Rdiv; rewrite Rmult_0_l; lra|]. destruct (Rle_dec b 0); [rewrite lim3_mixed by lra; unfold Rdiv; rewrite Rmult_0_l; lra|].
    destruct (Rle_dec c 0); [rewrite lim3_mixed by lra; unfold Rdiv; rewrite Rmult_0_l; lra|]. rewrite lim3_pos by lra.
    assert (0 <= Rmin (Rmin (C_lim * a) (C_lim * b)) (Rmin (C_lim * c) d) <= d).
    { split; [unfold C_lim; apply min_pos; apply min_pos; lra|]. eapply Rle_trans; [apply Rmin_r|apply Rmin_r]. }
    split; [apply Rmult_le_pos; [lra|left; now apply Rinv_0_lt_compat]|]. apply Rmult_le_reg_r with d; [assumption|]. unfold Rdiv. rewrite Rmult_assoc, Rinv_l by lra. lra. }
  intros H. destruct (Rlt_dec 0 qd) as [D|D]; [now apply P|]. specialize (P (- qa) (- qb) (- qc) (- qd) ltac:(lra)). rewrite lim3_neg in P.
  replace (- lim3 qa qb qc qd / - qd) with (lim3 qa qb qc qd / qd) in P by (field; auto). exact P.
Qed.
Lemma ppm_closer x1 x2 x3 x4 x5 l r : ppm x1 x2 x3 x4 x5 = (l, r) ->
  between x3 (dph x1 x2 x3 x4) l /\ between x3 (dph x2 x3 x4 x5) r.
Proof.
  assert (ST : forall t a b, 0 <= t <= 1 -> between a b (a + t * (b - a))).
  { intros t a b T. unfold between. destruct (Rle_dec a b); [rewrite Rmin_left, Rmax_right by lra|rewrite Rmin_right, Rmax_left by lra]; nra. }
  assert (EN : forall a b, between a b b) by (intros a b; unfold between; split; [apply Rmin_r|apply Rmax_r]).
  rewrite ppm_eq. set (l0 := dph x1 x2 x3 x4). set (r0 := dph x2 x3 x4 x5). unfold ppm_end. cbv zeta. destruct (Rleb_spec ((x3 - l0) * (r0 - x3)) 0) as [A|A]; cbn [orb].
  2: destruct (Rleb_spec ((x4 - x3) * (x3 - x2)) 0) as [B|B]; cbn iota.
  1,2: set (M := Rmax _ _); set (rho := if Rleb _ (_ * M) then 0 else _); assert (T : 0 <= rho <= 1);
    [unfold rho; destruct (Rleb_spec (Rabs (6 * (l0 - 2 * x3 + r0))) (/ 10 ^ 12 * M)) as [Q|Q]; [lra|]; apply lim3_ratio; intros E; rewrite E, Rabs_R0 in Q;
      assert (0 <= M) by (unfold M; eapply Rle_trans; [apply (Rabs_pos x2)|]; eapply Rle_trans; [apply Rmax_l|apply Rmax_l]); pose proof eps12; nra
    |destruct (Rleb rho _); intros E; injection E as <- <-; [|split; apply EN]; replace (x3 - rho * (x3 - l0)) with (x3 + rho * (l0 - x3)) by ring; split; apply ST; exact T].
  assert (W : forall a b, 0 < a * b -> 2 * Rabs b <= Rabs a -> exists t, 0 <= t <= 1 /\ 2 * b = t * a).
  { intros a b P Q. exists (2 * b / a). assert (a <> 0) by (intros ->; lra). split; [|field; auto].
    destruct (Rcase_abs a) as [N|N]; [assert (b < 0) by nra|assert (0 < b) by nra; assert (0 < a) by (destruct N; [lra|congruence])].
    - rewrite !Rabs_left in Q by lra. replace (2 * b / a) with (2 * (- b) / (- a)) by (field; auto). split; [apply Rmult_le_pos; [lra|left; apply Rinv_0_lt_compat; lra]|]. apply Rmult_le_reg_r with (- a); [lra|]. unfold Rdiv. rewrite Rmult_assoc, Rinv_l by lra. lra.
    - rewrite !Rabs_right in Q by lra. split; [apply Rmult_le_pos; [lra|left; apply Rinv_0_lt_compat; lra]|]. apply Rmult_le_reg_r with a; [lra|]. unfold Rdiv. rewrite Rmult_assoc, Rinv_l by lra. lra. }
  intros [= <- <-]. split.
  - destruct (Rleb_spec (2 * Rabs (r0 - x3)) (Rabs (x3 - l0))) as [Q|Q]; [|apply EN]. destruct (W (x3 - l0) (r0 - x3) ltac:(lra) Q) as (t & T & E). rewrite E. replace (x3 - t * (x3 - l0)) with (x3 + t * (l0 - x3)) by ring. now apply ST.
  - destruct (Rleb_spec (2 * Rabs (x3 - l0)) (Rabs (r0 - x3))) as [Q|Q]; [|apply EN]. destruct (W (r0 - x3) (x3 - l0) ltac:(lra) Q) as (t & T & E). rewrite E. now apply ST.
Qed.

(** ** Arrays *)
Lemma all_some {A B} (f : A -> option B) l : (forall x, In x l -> exists b, f x = Some b) ->
  exists out, all (map f l) = Some out /\ length out = length l /\ forall n x, nth_error l n = Some x -> nth_error out n = f x.
Proof.
  induction l as [|a l IH]; intros H; [exists []; cbn; repeat split; intros [|n] x; discriminate|].
  destruct (H a (or_introl eq_refl)) as (b & E). destruct IH as (out & O & L & N); [intros x X; apply H; now right|].
  exists (b :: out). cbn [map all]. rewrite E, O. split; [reflexivity|]. split; [cbn; now rewrite L|]. intros [|n] x X; cbn in X |- *; [injection X as <-; now rewrite E|now apply N].
Qed.
Lemma all_none {A B} (f : A -> option B) l x : In x l -> f x = None -> all (map f l) = None.
Proof.
  induction l as [|a l IH]; intros I E; [destruct I|]. cbn [map all]. destruct I as [-> |I]; [now rewrite E|]. destruct (f a); [|reflexivity]. now rewrite (IH I E).
Qed.
Lemma all_each {A B} (f : A -> option B) l out x : all (map f l) = Some out -> In x l -> exists b, f x = Some b.
Proof. intros H I. destruct (f x) as [b|] eqn:E; [eauto|]. rewrite (all_none f l x I E) in H. discriminate. Qed.
Lemma isloop_in NG lo hi i : In i (ISLOOP NG lo hi) <-> (lo + NG <= i <= hi + NG)%Z.
Proof.
  unfold ISLOOP. rewrite in_map_iff. split.
  - intros (k & <- & I). apply in_seq in I. lia.
  - intros I. exists (Z.to_nat (i - lo - NG)). split; [lia|]. apply in_seq. lia.
Qed.
Lemma isloop_nth NG lo hi n i : (n < Z.to_nat (hi + 1 - lo))%nat -> i = (lo + NG + Z.of_nat n)%Z -> nth_error (ISLOOP NG lo hi) n = Some i.
Proof. intros H ->. unfold ISLOOP. rewrite nth_error_map. rewrite (nth_error_nth' _ 0%nat) by (rewrite seq_length; lia). cbn [option_map]. rewrite seq_nth by lia. reflexivity. Qed.
Lemma rd_neg {A} (l : list A) i : (i < 0)%Z -> rd l i = None.
Proof. intros H. destruct (rd l i) eqn:E; [|reflexivity]. apply rd_in in E. lia. Qed.

Lemma zone_some {T} (f : R -> R -> R -> R -> R -> T) (q : list R) i : (2 <= i)%Z -> (i + 2 < Z.of_nat (length q))%Z ->
  exists x1 x2 x3 x4 x5, rd q (i - 2) = Some x1 /\ rd q (i - 1) = Some x2 /\ rd q i = Some x3 /\ rd q (i + 1) = Some x4 /\ rd q (i + 2) = Some x5.
Proof.
  intros A B. destruct (rd_some q (i - 2)) as (x1 & E1); [lia|]. destruct (rd_some q (i - 1)) as (x2 & E2); [lia|]. destruct (rd_some q i) as (x3 & E3); [lia|].
  destruct (rd_some q (i + 1)) as (x4 & E4); [lia|]. destruct (rd_some q (i + 2)) as (x5 & E5); [lia|]. exists x1, x2, x3, x4, x5. auto.
Qed.
Lemma ppm_inside NG N q : (0 <= N)%Z -> (0 <= NG)%Z -> (N + 2 * NG <= Z.of_nat (length q))%Z -> (4 <= NG)%Z ->
  exists out, reconstruct_lr_ppm NG N q = Some out /\ length out = Z.to_nat (N + 2) /\
  forall k, (-1 <= k <= N)%Z -> exists x1 x2 x3 x4 x5, rd q (NG + k - 2) = Some x1 /\ rd q (NG + k - 1) = Some x2 /\ rd q (NG + k) = Some x3 /\
    rd q (NG + k + 1) = Some x4 /\ rd q (NG + k + 2) = Some x5 /\ rd out (k + 1) = Some (ppm x1 x2 x3 x4 x5).
Proof.
  intros HN HG HL H4. unfold reconstruct_lr_ppm. destruct (all_some (interface q) (ISLOOP NG (-2) (N + 1))) as (o1 & E1 & _).
  { intros i I. apply isloop_in in I. unfold interface. destruct (rd_some q (i - 1)) as (x1 & ->); [lia|]. destruct (rd_some q i) as (x2 & ->); [lia|].
    destruct (rd_some q (i + 1)) as (x3 & ->); [lia|]. destruct (rd_some q (i - 2)) as (x4 & ->); [lia|]. eauto. }
  rewrite E1. destruct (all_some (zone ppm q) (ISLOOP NG (-1) N)) as (out & E & L & NT).
  { intros i I. apply isloop_in in I. destruct (zone_some ppm q i) as (x1 & x2 & x3 & x4 & x5 & A1 & A2 & A3 & A4 & A5); try lia. unfold zone. rewrite A1, A2, A3, A4, A5. eauto. }
  exists out. split; [exact E|]. assert (LL : length out = Z.to_nat (N + 2)) by (rewrite L; unfold ISLOOP; rewrite map_length, seq_length; lia). split; [exact LL|].
  intros k K. destruct (zone_some ppm q (NG + k)%Z) as (x1 & x2 & x3 & x4 & x5 & A1 & A2 & A3 & A4 & A5); try lia. exists x1, x2, x3, x4, x5. do 5 (split; [assumption|]).
  specialize (NT (Z.to_nat (k + 1)) (NG + k)%Z ltac:(apply isloop_nth; lia)). unfold zone in NT. rewrite A1, A2, A3, A4, A5 in NT.
  unfold rd. destruct (Z.ltb_spec (k + 1) 0); [lia|]. exact NT.
Qed.
Lemma ppm_outside NG N q : (NG < 4)%Z -> (0 <= N)%Z -> reconstruct_lr_ppm NG N q = None.
Proof.
  intros H HN. unfold reconstruct_lr_ppm. rewrite (all_none _ _ (NG - 2)%Z); [reflexivity|apply isloop_in; lia|].
  unfold interface. rewrite (rd_neg q (NG - 2 - 2)) by lia. now destruct (rd q (NG - 2 - 1)), (rd q (NG - 2)), (rd q (NG - 2 + 1)).
Qed.
Lemma par_inside N q : (0 <= N)%Z -> (N + 6 <= Z.of_nat (length q))%Z -> exists out, reconstruct_lr_par 3 N q = Some out /\ length out = Z.to_nat (N + 2) /\
  forall k, (-1 <= k <= N)%Z -> exists x1 x2 x3 x4 x5, rd q (3 + k - 2) = Some x1 /\ rd q (3 + k - 1) = Some x2 /\ rd q (3 + k) = Some x3 /\
    rd q (3 + k + 1) = Some x4 /\ rd q (3 + k + 2) = Some x5 /\ rd out (k + 1) = Some (para x1 x2 x3 x4 x5).
Proof.
  intros HN HL. unfold reconstruct_lr_par. set (f := fun i : Z => _). destruct (all_some f (ISLOOP 3 (-1) N)) as (out & E & L & NT).
  { intros i I. apply isloop_in in I. destruct (zone_some para q i) as (x1 & x2 & x3 & x4 & x5 & A1 & A2 & A3 & A4 & A5); try lia. unfold f. rewrite A1, A2, A3, A4, A5. eauto. }
  exists out. split; [exact E|]. assert (LL : length out = Z.to_nat (N + 2)) by (rewrite L; unfold ISLOOP; rewrite map_length, seq_length; lia). split; [exact LL|].
  intros k K. destruct (zone_some para q (3 + k)%Z) as (x1 & x2 & x3 & x4 & x5 & A1 & A2 & A3 & A4 & A5); try lia. exists x1, x2, x3, x4, x5. do 5 (split; [assumption|]).
  specialize (NT (Z.to_nat (k + 1)) (3 + k)%Z ltac:(apply isloop_nth; lia)). unfold f in NT. rewrite A1, A2, A3, A4, A5 in NT.
  unfold rd. destruct (Z.ltb_spec (k + 1) 0); [lia|]. exact NT.
Qed.
