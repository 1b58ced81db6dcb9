From Coq Require Import ZArith List Bool QArith Lia Lqa Permutation.
Import ListNotations.
From Verif Require Import SumLib ExchModel ExchProofs HaloModel FixModel FixSpec.
Open Scope Z_scope.

Lemma v3_eqb_spec a b : reflect (a = b) (v3_eqb a b).
Proof.
  unfold v3_eqb. destruct a as [a1 a2 a3], b as [b1 b2 b3]; cbn [v1 v2 v3_].
  destruct (Z.eqb_spec a1 b1); [|constructor; congruence].
  destruct (Z.eqb_spec a2 b2); [|constructor; congruence].
  destruct (Z.eqb_spec a3 b3); constructor; congruence.
Qed.
Lemma setf_same {T} (f : v3 -> T) z x : setf f z x z = x.
Proof. unfold setf. now destruct (v3_eqb_spec z z). Qed.
Lemma setf_other {T} (f : v3 -> T) z x w : w <> z -> setf f z x w = f w.
Proof. intros. unfold setf. now destruct (v3_eqb_spec w z). Qed.

Lemma zones_in n z : In z (zones n) <-> inside n z.
Proof.
  unfold zones, inside. rewrite in_flat_map. split.
  - intros (i & Hi & H). rewrite in_flat_map in H. destruct H as (j & Hj & H).
    rewrite in_map_iff in H. destruct H as (k & <- & Hk).
    apply zrange_in in Hi, Hj, Hk. intros [| |]; cbn; lia.
  - intros H. pose proof (H D1). pose proof (H D2). pose proof (H D3). cbn [get] in *.
    exists (v1 z). split; [apply zrange_in; lia|]. rewrite in_flat_map.
    exists (v2 z). split; [apply zrange_in; lia|]. rewrite in_map_iff.
    exists (v3_ z). split; [now destruct z|apply zrange_in; lia].
Qed.
Lemma zones_nodup n : NoDup (zones n).
Proof.
  unfold zones. apply NoDup_flat_map; [apply zrange_nodup| |].
  - intros i _. apply NoDup_flat_map; [apply zrange_nodup| |].
    + intros j _. apply FinFun.Injective_map_NoDup; [|apply zrange_nodup]. intros a b H; congruence.
    + intros a b z _ _ Ha Hb. rewrite in_map_iff in *. destruct Ha as (? & <- & _), Hb as (? & E & _). congruence.
  - intros a b z _ _ Ha Hb. rewrite in_flat_map in *.
    destruct Ha as (? & _ & Ha), Hb as (? & _ & Hb). rewrite in_map_iff in *.
    destruct Ha as (? & <- & _), Hb as (? & E & _). congruence.
Qed.
Lemma zones_length n : (forall d, 0 < get d n) -> Z.of_nat (length (zones n)) = nzones n.
Proof.
  intros H. pose proof (H D1). pose proof (H D2). pose proof (H D3). cbn [get] in *.
  assert (L : forall m, 0 < m -> Z.of_nat (length (zrange m)) = m).
  { intros. unfold zrange. rewrite map_length, seq_length. lia. }
  assert (F : forall {X Y} (f : X -> list Y) c l, (forall x, length (f x) = c) -> length (flat_map f l) = (length l * c)%nat).
  { intros X Y f c l E. induction l; cbn; [trivial|]. rewrite app_length, E, IHl. lia. }
  unfold zones, nzones. rewrite (F _ _ _ (length (zrange (v2 n)) * length (zrange (v3_ n)))%nat).
  - rewrite !Nat2Z.inj_mul, !L by lia. ring.
  - intros. erewrite F; [reflexivity|]. intros. now rewrite map_length.
Qed.

Lemma offs_in o : In o offs <-> forall d, Z.abs (get d o) <= 1.
Proof.
  split.
  - intros H. cbn in H. intros d. repeat (destruct H as [<-|H]; [destruct d; cbn; lia|]). destruct H.
  - destruct o as [a b c]. intros H. pose proof (H D1). pose proof (H D2). pose proof (H D3). cbn [get v1 v2 v3_] in *.
    assert (A : a = -1 \/ a = 0 \/ a = 1) by lia. assert (B : b = -1 \/ b = 0 \/ b = 1) by lia.
    assert (C : c = -1 \/ c = 0 \/ c = 1) by lia. clear - A B C.
    destruct A as [->|[->| ->]], B as [->|[->| ->]], C as [->|[->| ->]]; cbn; tauto.
Qed.

(** ** Sums *)
Lemma fold_qsum {T} (f : T -> Q) l a :
  (fold_left (fun s o => s + f o) l a == a + qsum f l)%Q.
Proof.
  revert a. induction l as [|x l IH]; intros a; cbn [fold_left qsum fold_right].
  - ring.
  - rewrite IH. change (fold_right (fun a s => (f a + s)%Q) 0%Q l) with (qsum f l). ring.
Qed.
Lemma qsum_cons {T} (f : T -> Q) x l : qsum f (x :: l) = (f x + qsum f l)%Q.
Proof. reflexivity. Qed.
Lemma qsum_ext {T} (f g : T -> Q) l : (forall x, In x l -> (f x == g x)%Q) -> (qsum f l == qsum g l)%Q.
Proof.
  induction l as [|x l IH]; intros H; [reflexivity|]. rewrite !qsum_cons.
  rewrite (H x) by now left. rewrite IH; [reflexivity|]. intros. apply H. now right.
Qed.
Lemma qsum_scale {T} (f : T -> Q) c l : (qsum (fun x => f x * c) l == qsum f l * c)%Q.
Proof. induction l as [|x l IH]; [reflexivity|]. rewrite !qsum_cons, IH. ring. Qed.
Lemma qsum_filter {T} (f : T -> Q) (p : T -> bool) l :
  (forall x, In x l -> p x = false -> (f x == 0)%Q) -> (qsum f (filter p l) == qsum f l)%Q.
Proof.
  induction l as [|x l IH]; intros H; [reflexivity|]. cbn [filter].
  destruct (p x) eqn:E; rewrite !qsum_cons, IH by (intros; apply H; [now right|trivial]).
  - reflexivity.
  - rewrite (H x) by (trivial; now left). ring.
Qed.
Lemma qsum_map {T U} (f : U -> Q) (g : T -> U) l : qsum f (map g l) = qsum (fun x => f (g x)) l.
Proof. induction l as [|x l IH]; [reflexivity|]. cbn [map]. now rewrite !qsum_cons, IH. Qed.
Lemma qsum_nonneg {T} (f : T -> Q) l : (forall x, In x l -> (0 <= f x)%Q) -> (0 <= qsum f l)%Q.
Proof.
  induction l as [|x l IH]; intros H; [cbn; lra|]. rewrite qsum_cons.
  assert (0 <= f x)%Q by (apply H; now left). assert (0 <= qsum f l)%Q by (apply IH; intros; apply H; now right). lra.
Qed.
Lemma qsum_pos {T} (f : T -> Q) l y : (forall x, In x l -> (0 <= f x)%Q) -> In y l -> (f y <= qsum f l)%Q.
Proof.
  induction l as [|x l IH]; intros H []; rewrite qsum_cons.
  - subst. assert (0 <= qsum f l)%Q by (apply qsum_nonneg; intros; apply H; now right). lra.
  - assert (0 <= f x)%Q by (apply H; now left).
    assert (f y <= qsum f l)%Q by (apply IH; [intros; apply H; now right|trivial]). lra.
Qed.
Lemma qsum_le {T} (f : T -> Q) l : (forall x, In x l -> (f x <= 1)%Q) -> (qsum f l <= inject_Z (Z.of_nat (length l)))%Q.
Proof.
  induction l as [|x l IH]; intros H; cbn [qsum fold_right length]; [apply Qle_refl|].
  assert (f x <= 1)%Q by (apply H; now left).
  assert (qsum f l <= inject_Z (Z.of_nat (length l)))%Q by (apply IH; intros; apply H; now right).
  rewrite Nat2Z.inj_succ, <- Z.add_1_r, inject_Z_plus. change (inject_Z 1) with 1%Q.
  change (fold_right (fun a s => (f a + s)%Q) 0%Q l) with (qsum f l). lra.
Qed.
Lemma qsum_low {T} (f : T -> Q) l y c : (forall x, In x l -> (f x <= 1)%Q) -> In y l -> (f y <= c)%Q ->
  (qsum f l <= c + inject_Z (Z.of_nat (length l)))%Q.
Proof.
  induction l as [|x l IH]; intros H [] Hc; cbn [qsum fold_right length].
  all: rewrite Nat2Z.inj_succ, <- Z.add_1_r, inject_Z_plus; change (inject_Z 1) with 1%Q;
       change (fold_right (fun a s => (f a + s)%Q) 0%Q l) with (qsum f l).
  - subst. assert (qsum f l <= inject_Z (Z.of_nat (length l)))%Q by (apply qsum_le; intros; apply H; now right). lra.
  - assert (f x <= 1)%Q by (apply H; now left).
    assert (qsum f l <= c + inject_Z (Z.of_nat (length l)))%Q by (apply IH; [intros; apply H; now right|trivial|trivial]). lra.
Qed.

Definition flags_ok (f : v3 -> Z) : Prop := forall z, f z = 0 \/ f z = 1 \/ f z = -333.

Lemma weight_01 o f : (weight o f == inject_Z f * weight o 1)%Q.
Proof. unfold weight. change (inject_Z 1) with 1%Q. ring. Qed.
Lemma weight_one o : In o offs -> (1 # 4 <= weight o 1 <= 1)%Q.
Proof.
  intros H. cbn in H. repeat (destruct H as [<-|H]; [vm_compute; split; discriminate|]). destruct H.
Qed.
Lemma weight_zero o : (weight o 0 == 0)%Q.
Proof. unfold weight. change (inject_Z 0) with 0%Q. ring. Qed.

Lemma wsum_q f z : (wsum f z == qsum (fun o => weight o (f (zadd z o))) offs)%Q.
Proof.
  unfold wsum. eapply Qeq_trans; [apply (fold_qsum (fun o => weight o (f (zadd z o))))|apply Qplus_0_l].
Qed.
Lemma vsum_q f P z ip :
  (vsum f P z ip == qsum (fun o => weight o (f (zadd z o)) * P (zadd z o) ip) offs)%Q.
Proof.
  unfold vsum. eapply Qeq_trans; [apply (fold_qsum (fun o => weight o (f (zadd z o)) * P (zadd z o) ip)%Q)|apply Qplus_0_l].
Qed.

Lemma qlt_spec a b : reflect (a < b)%Q (qlt a b).
Proof.
  unfold qlt. destruct (Qle_bool b a) eqn:E; constructor.
  - apply Qle_bool_iff in E. lra.
  - apply Qnot_le_lt. intros H. apply Qle_bool_iff in H. congruence.
Qed.

(** A zone next to a failed repair is never repaired. *)
Lemma wsum_bad f z o : flags_ok f -> In o offs -> f (zadd z o) = -333 -> (wsum f z < 1 # 10000000000)%Q.
Proof.
  intros F Ho E. rewrite wsum_q.
  assert (H : (qsum (fun o => weight o (f (zadd z o))) offs <= -(333 # 4) + inject_Z (Z.of_nat (length offs)))%Q).
  { apply qsum_low with (y := o); [|trivial|].
    - intros x Hx. pose proof (weight_one x Hx). rewrite weight_01.
      destruct (F (zadd z x)) as [-> |[-> | ->]]; [change (inject_Z 0) with 0%Q|change (inject_Z 1) with 1%Q|change (inject_Z (-333)) with (-333 # 1)%Q]; lra.
    - rewrite weight_01, E. pose proof (weight_one o Ho). change (inject_Z (-333)) with (-333 # 1)%Q. lra. }
  eapply Qle_lt_trans; [apply H|]. reflexivity.
Qed.
Lemma wsum_nogood f z : (forall o, In o offs -> f (zadd z o) = 0) -> (wsum f z < 1 # 10000000000)%Q.
Proof.
  intros H. rewrite wsum_q. rewrite (qsum_ext _ (fun _ => 0%Q)).
  - vm_compute. reflexivity.
  - intros o Ho. rewrite (H o Ho). apply weight_zero.
Qed.
Lemma wsum_good f z o : (forall o, In o offs -> f (zadd z o) = 0 \/ f (zadd z o) = 1) -> In o offs -> f (zadd z o) = 1 ->
  (1 # 4 <= wsum f z)%Q.
Proof.
  intros F Ho E. rewrite wsum_q.
  assert (H := qsum_pos (fun o => weight o (f (zadd z o))) offs o). cbv beta in H.
  assert (P : forall x, In x offs -> (0 <= weight x (f (zadd z x)))%Q).
  { intros x Hx. pose proof (weight_one x Hx). rewrite weight_01. destruct (F x Hx) as [-> | ->]; [change (inject_Z 0) with 0%Q|change (inject_Z 1) with 1%Q]; lra. }
  specialize (H P Ho). rewrite E in H. pose proof (weight_one o Ho). lra.
Qed.

Lemma adj_offs z w : adjacent z w <-> exists o, In o offs /\ w = zadd z o.
Proof.
  unfold adjacent. split.
  - intros H. exists (V3 (v1 w - v1 z) (v2 w - v2 z) (v3_ w - v3_ z)). split.
    + apply offs_in. intros d. specialize (H d). destruct d; cbn in *; lia.
    + unfold zadd. cbn. destruct w; cbn. f_equal; ring.
  - intros (o & Ho & ->). rewrite offs_in in Ho. intros d. specialize (Ho d). destruct d; cbn in *; lia.
Qed.

(** The average computed in a visit is a convex combination of good neighbours. *)
Lemma average_generic (offs : list v3) (wt : v3 -> Q) (f : v3 -> Z) P z (x : prims) W (V : nat -> Q) :
  (forall w, adjacent z w <-> exists o, In o offs /\ w = zadd z o) ->
  (forall o, In o offs -> (0 < wt o)%Q) ->
  (forall o, In o offs -> f (zadd z o) = 0 \/ f (zadd z o) = 1) ->
  (0 < W)%Q ->
  (W == qsum (fun o => inject_Z (f (zadd z o)) * wt o) offs)%Q ->
  (forall ip, (V ip == qsum (fun o => inject_Z (f (zadd z o)) * wt o * P (zadd z o) ip) offs)%Q) ->
  (forall ip, (ip < 5)%nat -> (x ip == V ip / W)%Q) ->
  convex_of (fun w => f w = 1) P z x.
Proof.
  intros ADJ WT Z01 Wp WE VE X.
  set (good := filter (fun o => f (zadd z o) =? 1) offs).
  exists (map (fun o => (zadd z o, wt o / W)%Q) good).
  assert (Wg : (W == qsum wt good)%Q).
  { rewrite WE. unfold good.
    rewrite <- (qsum_filter _ (fun o => f (zadd z o) =? 1) offs).
    - apply qsum_ext. intros o Ho. apply filter_In in Ho. destruct Ho as [_ E]. apply Z.eqb_eq in E. rewrite E. apply Qmult_1_l.
    - intros o Ho E. destruct (Z01 o Ho) as [-> |E']; [apply Qmult_0_l|]. rewrite E' in E. discriminate. }
  split; [|split; [|split]].
  - intros w q H. apply in_map_iff in H. destruct H as (o & E & Ho). injection E as <- <-.
    apply filter_In in Ho. destruct Ho as [Ho E]. apply Z.eqb_eq in E. split; [|split; [exact E|]].
    + apply ADJ. exists o. split; [exact Ho|reflexivity].
    + apply Qlt_shift_div_l; [trivial|]. pose proof (WT o Ho). lra.
  - intros w A S. apply ADJ in A. destruct A as (o & Ho & ->).
    exists (wt o / W)%Q. apply in_map_iff. exists o. split; [reflexivity|]. apply filter_In. split; [exact Ho|apply Z.eqb_eq; exact S].
  - rewrite qsum_map. cbn [snd]. unfold Qdiv. rewrite qsum_scale, <- Wg. apply Qmult_inv_r. lra.
  - intros ip Hip. rewrite (X ip Hip). rewrite qsum_map. cbn [fst snd].
    rewrite (qsum_ext _ (fun o => (wt o * P (zadd z o) ip) * / W)%Q).
    2:{ intros o _. unfold Qdiv. ring. }
    rewrite qsum_scale. unfold Qdiv. rewrite VE.
    assert (E : (qsum (fun o => inject_Z (f (zadd z o)) * wt o * P (zadd z o) ip) offs ==
                 qsum (fun o => wt o * P (zadd z o) ip) good)%Q).
    { rewrite <- (qsum_filter _ (fun o => f (zadd z o) =? 1) offs).
      - apply qsum_ext. intros o Ho. apply filter_In in Ho. destruct Ho as [_ E]. apply Z.eqb_eq in E. rewrite E.
        change (inject_Z 1) with 1%Q. ring.
      - intros o Ho E. destruct (Z01 o Ho) as [-> |E']; [change (inject_Z 0) with 0%Q; ring|]. rewrite E' in E. discriminate. }
    now rewrite E.
Qed.

Lemma average_convex f P z x : flags_ok f -> ~ (wsum f z < 1 # 10000000000)%Q ->
  (forall ip, (ip < NFLOOP)%nat -> (x ip == vsum f P z ip / wsum f z)%Q) ->
  convex_of (fun w => f w = 1) P z x.
Proof.
  intros F W X. apply (average_generic offs (fun o => weight o 1) f P z x (wsum f z) (vsum f P z)).
  - apply adj_offs.
  - intros o Ho. pose proof (weight_one o Ho) as [H _]. eapply Qlt_le_trans; [|exact H]. reflexivity.
  - intros o Ho. destruct (F (zadd z o)) as [E|[E|E]]; [left; exact E|right; exact E|].
    exfalso. apply W. exact (wsum_bad f z o F Ho E).
  - apply Qnot_lt_le in W. eapply Qlt_le_trans; [|exact W]. reflexivity.
  - eapply Qeq_trans; [apply wsum_q|]. apply qsum_ext. intros o _. apply weight_01.
  - intros ip. eapply Qeq_trans; [apply vsum_q|]. apply qsum_ext. intros o _.
    apply Qmult_comp; [apply weight_01|reflexivity].
  - exact X.
Qed.

(** ** One sweep *)
Lemma vsum_ext f P Q z ip : (forall w, f w <> 0 -> P w = Q w) -> (vsum f P z ip == vsum f Q z ip)%Q.
Proof.
  intros H. eapply Qeq_trans; [apply vsum_q|]. eapply Qeq_trans; [|apply Qeq_sym, vsum_q].
  apply qsum_ext. intros o _. destruct (Z.eq_dec (f (zadd z o)) 0) as [E|E].
  - rewrite E. apply Qeq_trans with 0%Q; [|apply Qeq_sym];
      (eapply Qeq_trans; [apply Qmult_comp; [apply weight_zero|apply Qeq_refl]|apply Qmult_0_l]).
  - rewrite (H _ E). apply Qeq_refl.
Qed.

Section S.
Variable fx : v3 -> prims -> prims * bool.
Variable n : v3.

Definition stuckb (f : v3 -> Z) (z : v3) : bool := (f z =? 0) && qlt (wsum f z) (1 # 10000000000).
Definition fixb (f : v3 -> Z) (z : v3) : bool := (f z =? 0) && negb (qlt (wsum f z) (1 # 10000000000)).

Definition fixed_to (f : v3 -> Z) (P : v3 -> prims) (z : v3) (y : prims) (fl : Z) : Prop :=
  exists x ok, fx z x = (y, ok) /\ fl = (if ok then 1 else -333) /\
    (forall ip, (ip < NFLOOP)%nat -> (x ip == vsum f P z ip / wsum f z)%Q) /\
    (forall ip, (NFLOOP <= ip)%nat -> x ip = P z ip).

Record sweep_inv (f : v3 -> Z) (P : v3 -> prims) (fc0 : Z) (done : list v3) (s : fst_) : Prop := {
  si_same : forall z, ~ (In z done /\ fixb f z = true) -> pv s z = P z /\ pf s z = f z;
  si_fix : forall z, In z done -> fixb f z = true -> fixed_to f P z (pv s z) (pf s z);
  si_tmp : forall z, f z <> 0 -> tmp s z = P z;
  si_bad : bad s = Z.of_nat (length (filter (stuckb f) done));
  si_fc : (filter (fixb f) done = [] /\ fc s = fc0 + bad s) \/
          (filter (fixb f) done <> [] /\ 0 <= fc s <= bad s) }.

Lemma filter_snoc {X} (p : X -> bool) l x : filter p (l ++ [x]) = filter p l ++ (if p x then [x] else []).
Proof. rewrite filter_app. cbn. now destruct (p x). Qed.

Lemma visit_inv f P fc0 done s z : sweep_inv f P fc0 done s -> ~ In z done ->
  sweep_inv f P fc0 (done ++ [z]) (visit fx f s z).
Proof.
  intros [I1 I2 I3 I4 I5] Nz. unfold visit.
  destruct (f z =? 0) eqn:E0; [destruct (qlt (wsum f z) (1 # 10000000000)) eqn:E1|].
  - assert (SB : stuckb f z = true) by (unfold stuckb; now rewrite E0, E1).
    assert (FB : fixb f z = false) by (unfold fixb; now rewrite E0, E1).
    constructor; cbn [pv pf tmp bad fc].
    + intros w Hw. apply I1. intros [A B]. apply Hw. split; [apply in_or_app; now left|trivial].
    + intros w Hw B. apply I2; [|trivial]. apply in_app_or in Hw. destruct Hw as [|[<-|[]]]; [trivial|congruence].
    + intros w Hw. rewrite setf_other; [now apply I3|]. intros ->. apply Z.eqb_eq in E0. congruence.
    + rewrite filter_snoc, SB, app_length, I4. cbn [length]. lia.
    + rewrite filter_snoc, FB, app_nil_r. destruct I5 as [[A B]|[A B]]; [left|right]; (split; [exact A|lia]).
  - assert (SB : stuckb f z = false) by (unfold stuckb; now rewrite E0, E1).
    assert (FB : fixb f z = true) by (unfold fixb; now rewrite E0, E1).
    set (x := fun ip => _). destruct (fx z x) as [y ok] eqn:EX.
    constructor; cbn [pv pf tmp bad fc].
    + intros w Hw. assert (w <> z).
      { intros ->. apply Hw. split; [apply in_or_app; right; now left|trivial]. }
      rewrite !setf_other by trivial. apply I1. intros [A B]. apply Hw. split; [apply in_or_app; now left|trivial].
    + intros w Hw B. destruct (v3_eqb_spec w z) as [->|Nw].
      * rewrite !setf_same. exists x, ok. split; [exact EX|]. split; [reflexivity|]. split.
        -- intros ip Hip. unfold x. apply Nat.ltb_lt in Hip. rewrite Hip.
           apply Qmult_comp; [|apply Qeq_refl]. apply vsum_ext. intros w Hw'. now apply I3.
        -- intros ip Hip. unfold x. apply Nat.ltb_ge in Hip. rewrite Hip.
           destruct (I1 z) as [-> _]; [intros [A _]; contradiction|reflexivity].
      * rewrite !setf_other by trivial. apply I2; [|trivial].
        apply in_app_or in Hw. destruct Hw as [|[<-|[]]]; [trivial|congruence].
    + exact I3.
    + rewrite filter_snoc, SB, app_nil_r. exact I4.
    + right. split; [|lia]. rewrite filter_snoc, FB. destruct (filter (fixb f) done); discriminate.
  - assert (SB : stuckb f z = false) by (unfold stuckb; now rewrite E0).
    assert (FB : fixb f z = false) by (unfold fixb; now rewrite E0).
    constructor.
    + intros w Hw. apply I1. intros [A B]. apply Hw. split; [apply in_or_app; now left|trivial].
    + intros w Hw B. apply I2; [|trivial]. apply in_app_or in Hw. destruct Hw as [|[<-|[]]]; [trivial|congruence].
    + exact I3.
    + rewrite filter_snoc, SB, app_nil_r. exact I4.
    + rewrite filter_snoc, FB, app_nil_r. exact I5.
Qed.

Lemma visits_inv f P fc0 l : forall done s, sweep_inv f P fc0 done s -> NoDup (done ++ l) ->
  sweep_inv f P fc0 (done ++ l) (fold_left (visit fx f) l s).
Proof.
  induction l as [|z l IH]; intros done s I N; cbn [fold_left].
  - now rewrite app_nil_r.
  - replace (done ++ z :: l) with ((done ++ [z]) ++ l) by (rewrite <- app_assoc; reflexivity).
    apply IH; [|rewrite <- app_assoc; exact N].
    apply visit_inv; [trivial|]. intros H. apply NoDup_remove_2 in N. apply N. apply in_or_app. now left.
Qed.

Lemma sweep_ok s : sweep_inv (pf s) (pv s) (fc s) (zones n) (sweep fx n s).
Proof.
  unfold sweep. change (zones n) with ([] ++ zones n) at 1.
  apply visits_inv; [|apply zones_nodup].
  constructor; cbn [pv pf tmp bad fc filter length].
  - intros; split; reflexivity.
  - intros z [].
  - reflexivity.
  - reflexivity.
  - left. split; [reflexivity|lia].
Qed.

Definition stucks (f : v3 -> Z) := Z.of_nat (length (filter (stuckb f) (zones n))).
Definition zeros (f : v3 -> Z) := length (filter (fun z => f z =? 0) (zones n)).

Lemma filter_split {X} (p a : X -> bool) l :
  length (filter p l) = (length (filter (fun x => p x && a x) l) + length (filter (fun x => p x && negb (a x)) l))%nat.
Proof.
  induction l as [|x l IH]; [reflexivity|]. cbn [filter].
  destruct (p x), (a x); cbn [andb negb]; cbn [length]; lia.
Qed.
Lemma filter_le {X} (p q : X -> bool) l : (forall x, In x l -> p x = true -> q x = true) ->
  (length (filter p l) <= length (filter q l))%nat.
Proof.
  induction l as [|x l IH]; intros H; [trivial|]. cbn [filter].
  assert (length (filter p l) <= length (filter q l))%nat by (apply IH; intros; apply H; [now right|trivial]).
  destruct (p x) eqn:E; [rewrite (H x) by (trivial; now left); cbn [length]; lia|].
  destruct (q x); cbn [length]; lia.
Qed.
Lemma filter_lt {X} (p q : X -> bool) l y : (forall x, In x l -> p x = true -> q x = true) ->
  In y l -> p y = false -> q y = true -> (length (filter p l) < length (filter q l))%nat.
Proof.
  induction l as [|x l IH]; intros H [] Py Qy; cbn [filter].
  - subst. rewrite Py, Qy. cbn [length].
    assert (length (filter p l) <= length (filter q l))%nat by (apply filter_le; intros; apply H; [now right|trivial]). lia.
  - assert (length (filter p l) < length (filter q l))%nat by (apply IH; trivial; intros; apply H; [now right|trivial]).
    destruct (p x) eqn:E; [rewrite (H x) by (trivial; now left); cbn [length]; lia|].
    destruct (q x); cbn [length]; lia.
Qed.

(** When nothing can be repaired the sweep only counts. *)
Definition no_fix (f : v3 -> Z) := filter (fixb f) (zones n) = [].
Lemma no_fix_in f z : no_fix f -> In z (zones n) -> fixb f z = false.
Proof.
  intros H Hz. destruct (fixb f z) eqn:E; [|trivial].
  assert (In z (filter (fixb f) (zones n))) by now apply filter_In. rewrite H in H0. destruct H0.
Qed.

Lemma sweep_shrinks s : ~ no_fix (pf s) -> (zeros (pf (sweep fx n s)) < zeros (pf s))%nat.
Proof.
  intros H. pose proof (sweep_ok s) as [I1 I2 _ _ _].
  destruct (filter (fixb (pf s)) (zones n)) as [|y l] eqn:E; [contradiction|].
  assert (Hy : In y (filter (fixb (pf s)) (zones n))) by (rewrite E; now left).
  apply filter_In in Hy. destruct Hy as [Hy Fy].
  apply filter_lt with y; [|trivial| |].
  - intros x Hx Ex. destruct (fixb (pf s) x) eqn:F.
    + unfold fixb in F. now destruct (pf s x =? 0).
    + destruct (I1 x) as [_ Q]; [intros []; congruence|]. now rewrite <- Q.
  - destruct (I2 y Hy Fy) as (x & ok & _ & -> & _). now destruct ok.
  - unfold fixb in Fy. now destruct (pf s y =? 0).
Qed.
Lemma sweep_same s : no_fix (pf s) ->
  (forall z, pv (sweep fx n s) z = pv s z /\ pf (sweep fx n s) z = pf s z) /\
  fc (sweep fx n s) = fc s + bad (sweep fx n s) /\ bad (sweep fx n s) = stucks (pf s).
Proof.
  intros H. pose proof (sweep_ok s) as [I1 I2 _ I4 I5]. split; [|split].
  - intros z. apply I1. intros [A B]. rewrite (no_fix_in _ _ H A) in B. discriminate.
  - destruct I5 as [[_ B]|[A _]]; [trivial|contradiction].
  - exact I4.
Qed.

Lemma stuckb_ext f g z : (forall w, f w = g w) -> stuckb f z = stuckb g z /\ fixb f z = fixb g z.
Proof.
  intros H. assert (E : wsum f z = wsum g z).
  { unfold wsum. generalize (0%Q). induction offs as [|o l IH]; intros q; cbn [fold_left]; [trivial|]. now rewrite H, IH. }
  unfold stuckb, fixb. rewrite H, E. split; reflexivity.
Qed.
Lemma no_fix_ext f g : (forall w, f w = g w) -> no_fix f -> no_fix g.
Proof.
  intros H. unfold no_fix. intros N. rewrite <- N. apply filter_ext. intros z. symmetry. now apply stuckb_ext.
Qed.

(** ** Termination *)
Lemma repair_stuck_terminates m : forall s, no_fix (pf s) -> nzones n - fc s <= Z.of_nat m ->
  exists fuel s', repair fx n fuel s = Some s'.
Proof.
  induction m as [|m IH]; intros s N H; destruct (sweep_same s N) as (S1 & S2 & S3).
  - exists 1%nat. cbn [repair]. replace (fc (sweep fx n s) <? nzones n) with false.
    + rewrite andb_false_r. eauto.
    + symmetry. apply Z.ltb_ge. unfold stucks in S3. lia.
  - destruct ((bad (sweep fx n s) >? 0) && (fc (sweep fx n s) <? nzones n)) eqn:E.
    + apply andb_true_iff in E. destruct E as [E1 E2]. apply Z.gtb_lt in E1.
      destruct (IH (sweep fx n s)) as (fuel & s' & R).
      * apply no_fix_ext with (pf s); [|trivial]. intros w. symmetry. apply S1.
      * lia.
      * exists (S fuel), s'. cbn [repair]. replace (bad (sweep fx n s) >? 0) with true by (symmetry; now apply Z.gtb_lt).
        now rewrite E2.
    + exists 1%nat, (sweep fx n s). cbn [repair]. now rewrite E.
Qed.
Lemma repair_terminates m : forall s, (zeros (pf s) <= m)%nat -> exists fuel s', repair fx n fuel s = Some s'.
Proof.
  induction m as [|m IH]; intros s H.
  - apply (repair_stuck_terminates (Z.to_nat (nzones n - fc s))); [|lia].
    unfold no_fix. destruct (filter (fixb (pf s)) (zones n)) as [|y l] eqn:E; [trivial|].
    assert (~ no_fix (pf s)) by (unfold no_fix; rewrite E; discriminate).
    apply sweep_shrinks in H0. lia.
  - destruct (filter (fixb (pf s)) (zones n)) as [|y l] eqn:E.
    + apply (repair_stuck_terminates (Z.to_nat (nzones n - fc s))); [exact E|lia].
    + assert (N : ~ no_fix (pf s)) by (unfold no_fix; rewrite E; discriminate).
      apply sweep_shrinks in N. destruct (IH (sweep fx n s)) as (fuel & s' & R); [lia|].
      destruct ((bad (sweep fx n s) >? 0) && (fc (sweep fx n s) <? nzones n)) eqn:E'.
      * exists (S fuel), s'. cbn [repair]. now rewrite E'.
      * exists 1%nat, (sweep fx n s). cbn [repair]. now rewrite E'.
Qed.
Lemma repair_mono fuel : forall s s', repair fx n fuel s = Some s' -> forall fuel', (fuel <= fuel')%nat -> repair fx n fuel' s = Some s'.
Proof.
  induction fuel as [|fuel IH]; intros s s' H fuel' L; [discriminate|].
  destruct fuel' as [|fuel']; [lia|]. cbn [repair] in *.
  destruct (_ && _); [|trivial]. apply IH; [trivial|lia].
Qed.

(** ** What holds at the end *)
Lemma repair_ind (I : fst_ -> Prop) fuel : forall s s', repair fx n fuel s = Some s' -> I s ->
  (forall s, I s -> bad (sweep fx n s) > 0 -> I (sweep fx n s)) ->
  exists s1, I s1 /\ s' = sweep fx n s1 /\ (bad s' <= 0 \/ nzones n <= fc s').
Proof.
  induction fuel as [|fuel IH]; intros s s' R Is St; [discriminate|]. cbn [repair] in R.
  destruct (bad (sweep fx n s) >? 0) eqn:E1; cbn [andb] in R.
  - destruct (fc (sweep fx n s) <? nzones n) eqn:E2.
    + apply IH in R; [trivial| |trivial]. apply St; [trivial|]. apply Z.gtb_lt in E1. lia.
    + injection R as <-. exists s. split; [trivial|]. split; [trivial|]. right. now apply Z.ltb_ge.
  - injection R as <-. exists s. split; [trivial|]. split; [trivial|]. left.
    rewrite Z.gtb_ltb in E1. apply Z.ltb_ge in E1. lia.
Qed.

Hypothesis npos : forall d, 0 < get d n.

Lemma stucks_lt f : ~ no_fix f -> stucks f < nzones n.
Proof.
  intros N. unfold stucks. rewrite <- (zones_length n npos).
  destruct (filter (fixb f) (zones n)) as [|y l] eqn:E; [contradiction|].
  assert (Hy : In y (filter (fixb f) (zones n))) by (rewrite E; now left).
  apply filter_In in Hy. destruct Hy as [Hy Fy]. apply inj_lt.
  rewrite <- (map_id (zones n)) at 2. rewrite map_length.
  replace (length (zones n)) with (length (filter (fun _ => true) (zones n))).
  - apply filter_lt with y; trivial. unfold fixb in Fy. unfold stuckb.
    destruct (f y =? 0); [|trivial]. now destruct (qlt _ _).
  - clear. induction (zones n) as [|a l IH]; cbn; congruence.
Qed.

Lemma zero_cases f z : f z = 0 -> fixb f z = negb (stuckb f z).
Proof. intros E. unfold fixb, stuckb. rewrite E. generalize (qlt (wsum f z) (1 # 10000000000)). intros []; reflexivity. Qed.
Lemma final_stuck s1 : let s' := sweep fx n s1 in (bad s' <= 0 \/ nzones n <= fc s') ->
  forall z, inside n z -> pf s' z = 0 -> no_fix (pf s1) /\ stuckb (pf s') z = true.
Proof.
  cbn zeta. intros X z Hz E. pose proof (sweep_ok s1) as [I1 I2 _ I4 I5].
  apply zones_in in Hz.
  assert (F : fixb (pf s1) z = false).
  { destruct (fixb (pf s1) z) eqn:F; [|trivial]. destruct (I2 z Hz F) as (x & ok & _ & Q & _).
    rewrite E in Q. now destruct ok. }
  destruct (I1 z) as [_ Q]; [intros []; congruence|]. rewrite E in Q.
  assert (SB : stuckb (pf s1) z = true).
  { rewrite (zero_cases (pf s1) z (eq_sym Q)) in F. destruct (stuckb (pf s1) z); [reflexivity|discriminate]. }
  assert (B : 0 < bad (sweep fx n s1)).
  { rewrite I4. assert (In z (filter (stuckb (pf s1)) (zones n))) by now apply filter_In.
    destruct (filter (stuckb (pf s1)) (zones n)); [destruct H|cbn [length]; lia]. }
  assert (N : no_fix (pf s1)).
  { destruct (filter (fixb (pf s1)) (zones n)) eqn:EF; [exact EF|]. exfalso.
    assert (N : ~ no_fix (pf s1)) by (unfold no_fix; rewrite EF; discriminate).
    apply stucks_lt in N. unfold stucks in N. rewrite <- I4 in N.
    destruct I5 as [[A _]|[_ A]]; [congruence|]. lia. }
  split; [trivial|]. destruct (sweep_same s1 N) as (S1 & _).
  rewrite <- SB. apply stuckb_ext. intros w. apply S1.
Qed.

(** ** Where repaired values come from *)
Definition source_ok (P0 : v3 -> prims) (s : fst_) (lvl : v3 -> nat) (z : v3) : Prop :=
  exists x ok, fx z x = (pv s z, ok) /\ pf s z = (if ok then 1 else -333) /\
    convex_of (fun w => pf s w = 1 /\ (lvl w < lvl z)%nat) (pv s) z x /\
    (forall ip, (5 <= ip)%nat -> x ip = P0 z ip).

Record prov (P0 : v3 -> prims) (f0 : v3 -> Z) (k : nat) (lvl : v3 -> nat) (s : fst_) : Prop := {
  pr_good : forall z, f0 z <> 0 -> lvl z = 0%nat /\ pv s z = P0 z /\ pf s z = f0 z;
  pr_bad : forall z, f0 z = 0 -> pf s z = 0 -> pv s z = P0 z;
  pr_fix : forall z, f0 z = 0 -> pf s z <> 0 -> inside n z /\ (0 < lvl z)%nat /\ source_ok P0 s lvl z;
  pr_lvl : forall z, (lvl z <= k)%nat }.

Lemma prov_flags P0 f0 k lvl s : (forall z, f0 z = 0 \/ f0 z = 1) -> prov P0 f0 k lvl s -> flags_ok (pf s).
Proof.
  intros F [A B C _] z. destruct (F z) as [E|E].
  - destruct (Z.eq_dec (pf s z) 0) as [->|N]; [now left|].
    destruct (C z E N) as (_ & _ & x & ok & _ & -> & _). destruct ok; auto.
  - destruct (A z) as (_ & _ & ->); [lia|]. rewrite E. auto.
Qed.

Lemma convex_ext (S S' : v3 -> Prop) P P' z x : (forall w, S w <-> S' w) -> (forall w, S w -> P w = P' w) ->
  convex_of S P z x -> convex_of S' P' z x.
Proof.
  intros HS HP (ws & A & B & C & D). exists ws. split; [|split; [|split]].
  - intros w q H. destruct (A w q H) as (A1 & A2 & A3). split; [trivial|]. split; [now apply HS|trivial].
  - intros w H1 H2. apply B; [trivial|]. now apply HS.
  - exact C.
  - intros ip Hip. rewrite (D ip Hip). apply qsum_ext. intros [w q] H. cbn [fst snd].
    destruct (A w q H) as (_ & A2 & _). rewrite (HP w A2). reflexivity.
Qed.

Lemma prov_sweep P0 f0 k lvl s : (forall z, f0 z = 0 \/ f0 z = 1) -> prov P0 f0 k lvl s ->
  exists lvl', prov P0 f0 (S k) lvl' (sweep fx n s).
Proof.
  intros F0 PR. pose proof (prov_flags _ _ _ _ _ F0 PR) as FO. destruct PR as [A B C D].
  pose proof (sweep_ok s) as [I1 I2 _ _ _]. set (s' := sweep fx n s) in *.
  set (new := fun z => existsb (v3_eqb z) (zones n) && fixb (pf s) z).
  assert (NEW : forall z, new z = true <-> In z (zones n) /\ fixb (pf s) z = true).
  { intros z. unfold new. rewrite andb_true_iff, existsb_exists. split.
    - intros ((y & Hy & E) & H). destruct (v3_eqb_spec z y); [subst; now split|discriminate].
    - intros (H1 & H2). split; [|trivial]. exists z. split; [trivial|]. now destruct (v3_eqb_spec z z). }
  assert (OLD : forall z, new z = false -> pv s' z = pv s z /\ pf s' z = pf s z).
  { intros z H. apply I1. intros H'. apply NEW in H'. congruence. }
  assert (NZ : forall z, new z = true -> pf s z = 0).
  { intros z H. apply NEW in H. destruct H as [_ H]. unfold fixb in H. destruct (Z.eqb_spec (pf s z) 0); [trivial|discriminate]. }
  exists (fun z => if new z then S k else lvl z).
  constructor.
  - intros z Hz. destruct (A z Hz) as (A1 & A2 & A3). destruct (new z) eqn:E.
    + apply NZ in E. congruence.
    + destruct (OLD z E) as [-> ->]. auto.
  - intros z Hz Hp. destruct (new z) eqn:E.
    + apply NEW in E. destruct E as [E1 E2]. destruct (I2 z E1 E2) as (x & ok & _ & Q & _). rewrite Hp in Q. now destruct ok.
    + destruct (OLD z E) as [-> Q]. apply B; [trivial|congruence].
  - intros z Hz Hp. destruct (new z) eqn:E.
    + pose proof E as E'. apply NEW in E. destruct E as [E1 E2]. split; [now apply zones_in|]. split; [lia|].
      destruct (I2 z E1 E2) as (x & ok & X1 & X2 & X3 & X4).
      exists x, ok. split; [trivial|]. split; [trivial|]. split.
      * assert (W : ~ (wsum (pf s) z < 1 # 10000000000)%Q).
        { unfold fixb in E2. destruct (qlt_spec (wsum (pf s) z) (1 # 10000000000)); [|trivial].
          rewrite andb_false_r in E2. discriminate. }
        apply convex_ext with (S := fun w => pf s w = 1) (P := pv s).
        -- intros w. rewrite E'. destruct (new w) eqn:Ew.
           ++ pose proof (NZ w Ew). split; [lia|]. intros [_ ?]; lia.
           ++ destruct (OLD w Ew) as [_ ->]. pose proof (D w). split; [intros; split; [trivial|lia]|tauto].
        -- intros w Hw. destruct (new w) eqn:Ew; [pose proof (NZ w Ew); lia|]. now destruct (OLD w Ew).
        -- now apply average_convex.
      * intros ip Hip. rewrite X4 by exact Hip. f_equal. rewrite B; [trivial|trivial|]. now apply NZ.
    + destruct (OLD z E) as [Q1 Q2]. rewrite Q2 in Hp. destruct (C z Hz Hp) as (C1 & C2 & x & ok & C3 & C4 & C5 & C6).
      split; [trivial|]. split; [trivial|]. exists x, ok. rewrite Q1, Q2. split; [trivial|]. split; [trivial|]. split; [|trivial].
      apply convex_ext with (3 := C5).
      * intros w. rewrite E. pose proof (D z). destruct (new w) eqn:Ew.
        -- pose proof (NZ w Ew). split; [lia|]. intros [_ ?]; lia.
        -- destruct (OLD w Ew) as [_ ->]. tauto.
      * intros w [Hw _]. destruct (new w) eqn:Ew; [pose proof (NZ w Ew); lia|]. now destruct (OLD w Ew).
  - intros z. destruct (new z); [lia|]. pose proof (D z). lia.
Qed.

Lemma prov_repair P0 f0 fuel s' : (forall z, f0 z = 0 \/ f0 z = 1) ->
  repair fx n fuel (FSt P0 f0 P0 0 0) = Some s' -> exists k lvl, prov P0 f0 k lvl s'.
Proof.
  intros F0 R. apply (repair_ind (fun s => exists k lvl, prov P0 f0 k lvl s)) in R.
  - destruct R as (s1 & (k & lvl & H) & -> & _). destruct (prov_sweep P0 f0 k lvl s1 F0 H) as (lvl' & H').
    eauto.
  - exists 0%nat, (fun _ => 0%nat). constructor; cbn [pv pf]; auto. contradiction.
  - intros s (k & lvl & H) _. destruct (prov_sweep P0 f0 k lvl s F0 H) as (lvl' & H'). eauto.
Qed.

(** ** Leftover zones *)
Lemma repair_final f0 P0 fuel s' : (forall z, f0 z = 0 \/ f0 z = 1) ->
  repair fx n fuel (FSt P0 f0 P0 0 0) = Some s' ->
  forall z, inside n z -> pf s' z = 0 ->
  (forall w, adjacent z w -> pf s' w <> 1) \/ (exists w, adjacent z w /\ pf s' w = -333).
Proof.
  intros F0 R z Hz E. destruct (prov_repair _ _ _ _ F0 R) as (k & lvl & PR).
  pose proof (prov_flags _ _ _ _ _ F0 PR) as FO.
  apply (repair_ind (fun _ => True)) in R; [|trivial|trivial].
  destruct R as (s1 & _ & -> & X). destruct (final_stuck s1 X z Hz E) as [_ SB].
  set (f := pf (sweep fx n s1)) in *.
  destruct (existsb (fun o => f (zadd z o) =? -333) offs) eqn:EX.
  - right. apply existsb_exists in EX. destruct EX as (o & Ho & Eo). exists (zadd z o). split.
    + apply adj_offs. exists o. split; [exact Ho|reflexivity].
    + now apply Z.eqb_eq.
  - left. intros w Hw E1. apply adj_offs in Hw. destruct Hw as (o & Ho & ->).
    assert (G : (1 # 4 <= wsum f z)%Q).
    { apply wsum_good with o; [|exact Ho|exact E1]. intros o' Ho'.
      destruct (FO (zadd z o')) as [Q|[Q|Q]]; [left; exact Q|right; exact Q|]. exfalso.
      assert (existsb (fun o => f (zadd z o) =? -333) offs = true).
      { apply existsb_exists. exists o'. split; [exact Ho'|]. apply Z.eqb_eq. exact Q. }
      congruence. }
    unfold stuckb in SB. apply andb_true_iff in SB. destruct SB as [_ SB].
    destruct (qlt_spec (wsum f z) (1 # 10000000000)) as [L|]; [|discriminate].
    apply (Qlt_not_le _ _ L). eapply Qle_trans; [|exact G]. discriminate.
Qed.

(** ** Connectivity of the block *)
Definition toward (a b : Z) : Z := if a <? b then a + 1 else if b <? a then a - 1 else a.
Definition step_to (z g : v3) : v3 := V3 (toward (v1 z) (v1 g)) (toward (v2 z) (v2 g)) (toward (v3_ z) (v3_ g)).
Definition far (z g : v3) : nat := Z.to_nat (Z.abs (v1 z - v1 g) + Z.abs (v2 z - v2 g) + Z.abs (v3_ z - v3_ g)).
Definition clip (m x : Z) : Z := Z.max 0 (Z.min (m - 1) x).
Lemma clip_in m x : 0 < m -> 0 <= clip m x < m.
Proof. unfold clip. lia. Qed.
Lemma clip_near m x : 0 < m -> -1 <= x <= m -> -1 <= x - clip m x <= 1.
Proof. unfold clip. lia. Qed.
Lemma toward_in m a b : 0 <= a < m -> 0 <= b < m -> 0 <= toward a b < m.
Proof. unfold toward. destruct (Z.ltb_spec a b); [lia|]. destruct (Z.ltb_spec b a); lia. Qed.
Lemma toward_near a b : -1 <= toward a b - a <= 1.
Proof. unfold toward. destruct (Z.ltb_spec a b); [lia|]. destruct (Z.ltb_spec b a); lia. Qed.
Lemma toward_lt a b : a <> b -> Z.abs (toward a b - b) + 1 <= Z.abs (a - b).
Proof. unfold toward. destruct (Z.ltb_spec a b); [lia|]. destruct (Z.ltb_spec b a); lia. Qed.
Lemma toward_le a b : Z.abs (toward a b - b) <= Z.abs (a - b).
Proof. unfold toward. destruct (Z.ltb_spec a b); [lia|]. destruct (Z.ltb_spec b a); lia. Qed.
Lemma sum3_lt a b c a' b' c' m : (Z.to_nat (a + b + c) <= S m)%nat -> 0 <= a' -> 0 <= b' -> 0 <= c' ->
  a' <= a -> b' <= b -> c' <= c -> a' + 1 <= a \/ b' + 1 <= b \/ c' + 1 <= c -> (Z.to_nat (a' + b' + c') <= m)%nat.
Proof. lia. Qed.
Lemma far_step z c m : z <> c -> (far z c <= S m)%nat -> (far (step_to z c) c <= m)%nat.
Proof.
  intros N L. unfold far, step_to in *. cbn [v1 v2 v3_].
  eapply sum3_lt; [exact L|apply Z.abs_nonneg|apply Z.abs_nonneg|apply Z.abs_nonneg|apply toward_le|apply toward_le|apply toward_le|].
  destruct (Z.eq_dec (v1 z) (v1 c)) as [E1|E1]; [|left; apply toward_lt, E1].
  destruct (Z.eq_dec (v2 z) (v2 c)) as [E2|E2]; [|right; left; apply toward_lt, E2].
  destruct (Z.eq_dec (v3_ z) (v3_ c)) as [E3|E3]; [|right; right; apply toward_lt, E3].
  exfalso. apply N. apply v3_ext; intros [| |]; assumption.
Qed.
Lemma abs_sum_zero a b c : (Z.to_nat (Z.abs a + Z.abs b + Z.abs c) <= 0)%nat -> a = 0 /\ b = 0 /\ c = 0.
Proof. lia. Qed.
Lemma far_zero z c : (far z c <= 0)%nat -> z = c.
Proof.
  intros L. apply abs_sum_zero in L. destruct L as (A & B & C).
  apply v3_ext; intros [| |]; cbn [get]; apply Zminus_eq; assumption.
Qed.

Lemma spread (G : v3 -> Prop) g : (forall z, {G z} + {~ G z}) ->
  (forall z, inside n z -> ~ G z -> forall w, adjacent z w -> ~ G w) ->
  near n g -> G g -> forall z, inside n z -> G z.
Proof.
  intros dec St Hg Gg.
  pose (c := V3 (clip (v1 n) (v1 g)) (clip (v2 n) (v2 g)) (clip (v3_ n) (v3_ g))).
  assert (Hc : inside n c).
  { intros [| |]; [pose proof (clip_in (v1 n) (v1 g) (npos D1)) as H|pose proof (clip_in (v2 n) (v2 g) (npos D2)) as H|
      pose proof (clip_in (v3_ n) (v3_ g) (npos D3)) as H]; exact H. }
  assert (Gc : G c).
  { destruct (dec c) as [|N]; [assumption|]. exfalso. apply (St c Hc N g); [|assumption].
    intros [| |]; [pose proof (clip_near (v1 n) (v1 g) (npos D1) (Hg D1)) as H|pose proof (clip_near (v2 n) (v2 g) (npos D2) (Hg D2)) as H|
      pose proof (clip_near (v3_ n) (v3_ g) (npos D3) (Hg D3)) as H]; clear - H; cbn in *; lia. }
  assert (M : forall m z, (far z c <= m)%nat -> inside n z -> G z).
  { induction m as [|m IH]; intros z L Hz.
    - rewrite (far_zero z c L). assumption.
    - destruct (dec z) as [|N]; [assumption|]. exfalso.
      assert (Nzc : z <> c) by (intros ->; contradiction).
      apply (St z Hz N (step_to z c)).
      + intros [| |]; [pose proof (toward_near (v1 z) (v1 c)) as H|pose proof (toward_near (v2 z) (v2 c)) as H|
          pose proof (toward_near (v3_ z) (v3_ c)) as H]; clear - H; unfold step_to; cbn [get v1 v2 v3_]; lia.
      + apply IH; [now apply far_step|].
        intros [| |]; [exact (toward_in _ _ _ (Hz D1) (Hc D1))|exact (toward_in _ _ _ (Hz D2) (Hc D2))|exact (toward_in _ _ _ (Hz D3) (Hc D3))]. }
  intros z Hz. now apply (M (far z c)).
Qed.

(** ** The routine *)
Lemma flip_01 pflag z : flip n pflag z = 0 \/ flip n pflag z = 1.
Proof. unfold flip. destruct (corner n z); [now left|]. destruct (pflag z =? 0); auto. Qed.
Lemma flip_usable pflag z : near n z -> flip n pflag z = 1 <-> usable n pflag z.
Proof.
  intros H. pose proof (H D1). pose proof (H D2). pose proof (H D3). cbn [get] in *.
  unfold flip, usable, corner, corner1, in_left, in_right, NG.
  destruct (_ && _) eqn:E.
  - split; [lia|]. intros (_ & d & Hd). destruct d; cbn [get] in Hd; lia.
  - destruct (Z.eqb_spec (pflag z) 0) as [E0|E0]; [|split; [lia|tauto]]. split; [|trivial]. intros _. split; [trivial|].
    assert (0 <= v1 z < v1 n \/ 0 <= v2 z < v2 n \/ 0 <= v3_ z < v3_ n) as [Q|[Q|Q]] by lia.
    + now exists D1. + now exists D2. + now exists D3.
Qed.
Lemma inside_near z : inside n z -> near n z.
Proof. intros H d. specialize (H d). lia. Qed.

Lemma terminates P pflag : exists fuel r, forall fuel', (fuel <= fuel')%nat ->
  fixup_utoprim fx n fuel' P pflag = Some r.
Proof.
  destruct (repair_terminates (zeros (flip n pflag)) (FSt P (flip n pflag) P 0 0)) as (fuel & s' & R); [cbn [pf]; lia|].
  exists fuel. eexists. intros fuel' L. unfold fixup_utoprim. rewrite (repair_mono _ _ _ R _ L). reflexivity.
Qed.

Lemma sources fuel P pflag P' f' called : fixup_utoprim fx n fuel P pflag = Some (P', f', called) ->
  exists lvl : v3 -> nat,
  (forall z, near n z -> usable n pflag z -> lvl z = 0%nat /\ f' z = 1 /\ P' z = P z) /\
  (forall z, near n z -> ~ usable n pflag z -> f' z = 0 -> P' z = P z) /\
  (forall z, near n z -> ~ usable n pflag z -> f' z <> 0 ->
     inside n z /\ (0 < lvl z)%nat /\
     exists x ok, fx z x = (P' z, ok) /\ f' z = (if ok then 1 else -333) /\
       convex_of (fun w => f' w = 1 /\ (lvl w < lvl z)%nat) P' z x /\
       (forall ip, (5 <= ip)%nat -> x ip = P z ip)).
Proof.
  unfold fixup_utoprim. destruct (repair _ _ _ _) as [s'|] eqn:R; [|discriminate]. intros E. injection E as <- <- <-.
  destruct (prov_repair _ _ _ _ (flip_01 pflag) R) as (k & lvl & [A B C D]). exists lvl. split; [|split].
  - intros z Hz U. apply flip_usable in U; [|trivial]. destruct (A z) as (A1 & A2 & A3); [lia|]. rewrite A3. auto.
  - intros z Hz U F. apply B; [|trivial]. destruct (flip_01 pflag z) as [|Q]; [trivial|]. apply flip_usable in Q; tauto.
  - intros z Hz U F. apply C; [|trivial]. destruct (flip_01 pflag z) as [|Q]; [trivial|]. apply flip_usable in Q; tauto.
Qed.

Lemma leftover fuel P pflag P' f' called : fixup_utoprim fx n fuel P pflag = Some (P', f', called) ->
  forall z, inside n z -> f' z = 0 ->
  (forall w, adjacent z w -> f' w <> 1) \/ (exists w, adjacent z w /\ f' w = -333).
Proof.
  unfold fixup_utoprim. destruct (repair _ _ _ _) as [s'|] eqn:R; [|discriminate]. intros E. injection E as <- <- <-.
  exact (repair_final _ _ _ _ (flip_01 pflag) R).
Qed.

Lemma nofail_final fuel P pflag s' : (forall z x, snd (fx z x) = true) ->
  repair fx n fuel (FSt P (flip n pflag) P 0 0) = Some s' -> forall z, pf s' z = 0 \/ pf s' z = 1.
Proof.
  intros NF R z. destruct (prov_repair _ _ _ _ (flip_01 pflag) R) as (k & lvl & [A B C D]).
  destruct (flip_01 pflag z) as [E|E].
  - destruct (Z.eq_dec (pf s' z) 0) as [|N]; [now left|]. right.
    destruct (C z E N) as (_ & _ & x & ok & X & -> & _). pose proof (NF z x) as Q. rewrite X in Q. cbn in Q. now subst.
  - destruct (A z) as (_ & _ & ->); [lia|]. now right.
Qed.

Lemma complete fuel P pflag P' f' called g : (forall z x, snd (fx z x) = true) ->
  fixup_utoprim fx n fuel P pflag = Some (P', f', called) ->
  near n g -> usable n pflag g ->
  (forall z, inside n z -> f' z = 1) /\ called = false.
Proof.
  intros NF R0 Hg U. pose proof R0 as R1. pose proof (leftover _ _ _ _ _ _ R0) as R2. clear R0. rename R2 into R0. destruct (sources _ _ _ _ _ _ R1) as (lvl & S1 & _).
  destruct (S1 g Hg U) as (_ & Gg & _).
  unfold fixup_utoprim in R1. destruct (repair _ _ _ _) as [s'|] eqn:R; [|discriminate]. injection R1 as <- <- <-.
  pose proof (nofail_final _ _ _ _ NF R) as F01.
  assert (ALL : forall z, inside n z -> pf s' z = 1).
  { apply spread with g; trivial.
    - intros z. apply Z.eq_dec.
    - intros z Hz Nz w Hw. destruct (R0 z Hz) as [Q|(w' & _ & Q)].
      + destruct (F01 z); tauto.
      + now apply Q.
      + destruct (F01 w') as [Q'|Q']; rewrite Q' in Q; discriminate. }
  split; [exact ALL|].
  apply (repair_ind (fun s => fc s = 0 \/ exists z, inside n z /\ pf s z = 0)) in R.
  - destruct R as (s1 & I & -> & X). pose proof (sweep_ok s1) as [I1 I2 _ I4 I5].
    set (s' := sweep fx n s1) in *.
    assert (N0 : 0 < nzones n).
    { pose proof (npos D1). pose proof (npos D2). pose proof (npos D3). unfold nzones. cbn [get] in *. nia. }
    assert (NS : filter (stuckb (pf s1)) (zones n) = []).
    { destruct (filter (stuckb (pf s1)) (zones n)) as [|y l] eqn:EF; [trivial|]. exfalso.
      assert (Hy : In y (filter (stuckb (pf s1)) (zones n))) by (rewrite EF; now left).
      apply filter_In in Hy. destruct Hy as [Hy Sy].
      assert (Z0 : pf s1 y = 0). { unfold stuckb in Sy. destruct (Z.eqb_spec (pf s1 y) 0); [trivial|discriminate]. }
      destruct (I1 y) as [_ Q]. { intros [_ Q]. rewrite (zero_cases _ _ Z0), Sy in Q. discriminate. }
      pose proof (ALL y (proj1 (zones_in n y) Hy)). congruence. }
    assert (B0 : bad s' = 0) by (rewrite I4, NS; reflexivity).
    apply Z.eqb_neq. destruct I5 as [[NF1 E]|[_ E]]; [|lia].
    destruct I as [I|(z & Hz & Ez)]; [lia|]. exfalso.
    pose proof (zero_cases _ _ Ez) as Q. apply zones_in in Hz.
    rewrite (no_fix_in _ _ NF1 Hz) in Q.
    assert (In z (filter (stuckb (pf s1)) (zones n))).
    { apply filter_In. split; [trivial|]. destruct (stuckb (pf s1) z); [reflexivity|discriminate]. }
    rewrite NS in H. destruct H.
  - left. reflexivity.
  - intros s I Bs. right. pose proof (sweep_ok s) as [I1 I2 _ I4 I5]. rewrite I4 in Bs.
    destruct (filter (stuckb (pf s)) (zones n)) as [|y l] eqn:EF; [cbn in Bs; lia|].
    assert (Hy : In y (filter (stuckb (pf s)) (zones n))) by (rewrite EF; now left).
    apply filter_In in Hy. destruct Hy as [Hy Sy].
    assert (Z0 : pf s y = 0). { unfold stuckb in Sy. destruct (Z.eqb_spec (pf s y) 0); [trivial|discriminate]. }
    exists y. split; [now apply zones_in|].
    destruct (I1 y) as [_ Q]. { intros [_ Q]. rewrite (zero_cases _ _ Z0), Sy in Q. discriminate. } congruence.
Qed.

Lemma hopeless fuel P pflag P' f' called :
  fixup_utoprim fx n fuel P pflag = Some (P', f', called) ->
  (forall z, near n z -> ~ usable n pflag z) ->
  called = true /\ (forall z, P' z = P z) /\ (forall z, inside n z -> f' z = 0).
Proof.
  intros R H.
  assert (F0 : forall z, near n z -> flip n pflag z = 0).
  { intros z Hz. destruct (flip_01 pflag z) as [|E]; [trivial|]. apply flip_usable in E; [|trivial]. exfalso. exact (H z Hz E). }
  assert (ST : forall z, In z (zones n) -> stuckb (flip n pflag) z = true).
  { intros z Hz. apply zones_in in Hz. unfold stuckb. rewrite F0 by now apply inside_near. cbn [andb Z.eqb].
    destruct (qlt_spec (wsum (flip n pflag) z) (1 # 10000000000)) as [|Q]; [trivial|]. exfalso. apply Q.
    apply wsum_nogood. intros o Ho. apply F0. rewrite offs_in in Ho. intros d. specialize (Ho d). specialize (Hz d).
    destruct d; cbn [get zadd v1 v2 v3_] in *; lia. }
  assert (NF : no_fix (flip n pflag)).
  { unfold no_fix. destruct (filter (fixb (flip n pflag)) (zones n)) as [|y l] eqn:EF; [trivial|]. exfalso.
    assert (Hy : In y (filter (fixb (flip n pflag)) (zones n))) by (rewrite EF; now left).
    apply filter_In in Hy. destruct Hy as [Hy Fy]. pose proof (ST y Hy) as Sy.
    unfold fixb, stuckb in *. destruct (flip n pflag y =? 0); [|discriminate]. destruct (qlt _ _); discriminate. }
  set (s0 := FSt P (flip n pflag) P 0 0) in *.
  destruct (sweep_same s0 NF) as (S1 & S2 & S3). cbn [pv pf fc s0] in S1, S2, S3.
  assert (B : bad (sweep fx n s0) = nzones n).
  { rewrite S3. unfold stucks. rewrite <- (zones_length n npos). do 2 f_equal.
    clear - ST. revert ST. induction (zones n) as [|a l IH]; intros ST; [trivial|]. cbn [filter].
    rewrite (ST a) by now left. f_equal. apply IH. intros. apply ST. now right. }
  unfold fixup_utoprim in R. destruct fuel as [|fuel]; [discriminate|]. cbn [repair] in R.
  fold s0 in R. rewrite S2, B in R. cbn [Z.add] in R. rewrite Z.ltb_irrefl, andb_false_r in R.
  injection R as <- <- <-. rewrite S2, B. split; [apply Z.eqb_refl|]. split.
  - intros z. apply S1.
  - intros z Hz. destruct (S1 z) as [_ ->]. apply F0. now apply inside_near.
Qed.
End S.

(** A repair that fails its own check poisons its neighbours: they are left as
    they were although they touch usable zones, and the fallback is not called. *)
Definition ex_pflag (z : v3) : Z := if v3_eqb z (V3 (-1) 0 0) then 0 else 1.
Definition ex_fx (z : v3) (x : prims) : prims * bool := (x, negb (v3_eqb z (V3 0 0 0))).
Lemma poisoned : exists fx n P pflag fuel P' f' called g,
  (forall d, 0 < get d n) /\ near n g /\ usable n pflag g /\
  fixup_utoprim fx n fuel P pflag = Some (P', f', called) /\
  called = false /\ exists z, inside n z /\ f' z = 0.
Proof.
  assert (C : match fixup_utoprim ex_fx (V3 3 1 1) 4 (fun z ip => inject_Z (v1 z)) ex_pflag with
              | Some (_, f', called) => negb called && (f' (V3 1 0 0) =? 0) | None => false end = true)
    by (vm_compute; reflexivity).
  destruct (fixup_utoprim ex_fx (V3 3 1 1) 4 (fun z ip => inject_Z (v1 z)) ex_pflag) as [[[P' f'] called]|] eqn:E; [|discriminate].
  apply andb_true_iff in C. destruct C as [C1 C2].
  exists ex_fx, (V3 3 1 1), (fun z ip => inject_Z (v1 z)), ex_pflag, 4%nat, P', f', called, (V3 (-1) 0 0).
  split; [intros [| |]; reflexivity|]. split; [intros [| |]; cbn; lia|].
  split; [split; [reflexivity|exists D2; cbn; lia]|]. split; [exact E|].
  split; [now destruct called|]. exists (V3 1 0 0). split; [intros [| |]; cbn; lia|]. now apply Z.eqb_eq.
Qed.
