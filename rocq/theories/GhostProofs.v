From Coq Require Import ZArith List Bool Lia.
Import ListNotations.
From Verif Require Import SumLib ExchModel ExchProofs HaloModel HaloSpec HaloProofs GhostModel.
Open Scope Z_scope.

Definition inside (g : hcfg) (z : v3) : Prop := forall d, 0 <= get d z < get d (nloc g).
Definition stored (g : hcfg) (z : v3) : Prop := forall d, - NG <= get d z < get d (nloc g) + NG.

Section P.
Context {M : Type} (zero : M) (plus : M -> M -> M).
Hypothesis plus_comm : forall a b, plus a b = plus b a.
Hypothesis plus_assoc : forall a b c, plus a (plus b c) = plus (plus a b) c.
Hypothesis plus_zero : forall a, plus zero a = a.
Notation sync := (sync_Jrad zero plus).

Lemma others_ok g d z : stored g z -> others g d z = true.
Proof.
  intros S. pose proof (S D1). pose proof (S D2). pose proof (S D3). unfold others, padded.
  destruct d; cbn [get] in *; lia.
Qed.

Lemma sync_inside g st c z : inside g z -> sync g st c z = sync_radG zero plus g st c z.
Proof.
  intros I. unfold sync_Jrad, clear_high, clear_low, in_left, in_right.
  pose proof (I D1). pose proof (I D2). pose proof (I D3).
  repeat match goal with |- context [if ?b && ?c then _ else _] => replace (b && c) with false by lia end.
  reflexivity.
Qed.

Lemma sync_ghost g st c z : stored g z -> ~ inside g z -> sync g st c z = zero.
Proof.
  intros S N. unfold sync_Jrad, clear_high, clear_low. rewrite !others_ok by trivial.
  rewrite !andb_true_r. unfold in_left, in_right.
  pose proof (S D1). pose proof (S D2). pose proof (S D3).
  repeat match goal with |- context [if ?b then zero else _] => destruct b eqn:?; [reflexivity|] end.
  exfalso. apply N. intros [| |]; lia.
Qed.

Definition clean g (J : rank -> v3 -> M) := forall c z, stored g z -> ~ inside g z -> J c z = zero.

Lemma buf_clean g d J c z : clean g J -> 0 <= get d (nloc g) -> radG_buf zero g d J c z = zero.
Proof.
  intros C P. unfold radG_buf. destruct (in_box g z) eqn:B; [|trivial].
  rewrite (in_box_spec zero plus plus_comm plus_assoc plus_zero) in B.
  assert (K : forall b x, x = -1 \/ x = get d (nloc g) -> J b (set d x z) = zero).
  { intros b x Hx. apply C.
    - intros e. unfold NG. pose proof (B e). destruct d, e; cbn [get set v1 v2 v3_] in *; lia.
    - intros I. specialize (I d). destruct d; cbn [get set v1 v2 v3_] in *; lia. }
  unfold NGR.
  destruct (get d z =? get d (nloc g) - 1).
  - destruct (nbr g d 1 c); [apply K; lia|]. destruct (get d z =? 0); [|trivial].
    destruct (nbr g d (-1) c); [apply K; lia|trivial].
  - destruct (get d z =? 0); [|trivial]. destruct (nbr g d (-1) c); [apply K; lia|trivial].
Qed.

Lemma reduce_clean g d J c z : clean g J -> 0 <= get d (nloc g) -> reduce_dir zero plus g d J c z = J c z.
Proof.
  intros C P. unfold reduce_dir. rewrite buf_clean by trivial. rewrite plus_comm, plus_zero.
  now destruct (in_box g z).
Qed.
Lemma clean_ext g J K : (forall c z, J c z = K c z) -> clean g J -> clean g K.
Proof. intros E C c z S N. rewrite <- E. now apply C. Qed.

Lemma sync_clean g J c z : clean g J -> (forall d, 0 <= get d (nloc g)) -> sync_radG zero plus g J c z = J c z.
Proof.
  intros C P. unfold sync_radG.
  assert (C1 : clean g (reduce_dir zero plus g D1 J))
    by (apply (clean_ext g J); trivial; intros; symmetry; now apply reduce_clean).
  assert (C2 : clean g (reduce_dir zero plus g D2 (reduce_dir zero plus g D1 J)))
    by (apply (clean_ext g _ _ (fun c z => eq_sym (reduce_clean g D2 _ c z C1 (P D2)))); trivial).
  now rewrite !reduce_clean.
Qed.

Lemma deposited_plus g J K G :
  deposited zero plus g (fun c z => plus (J c z) (K c z)) G
  = plus (deposited zero plus g J G) (deposited zero plus g K G).
Proof.
  unfold deposited, sum3. rewrite <- gsum_plus by trivial. apply gsum_ext. intros.
  rewrite <- gsum_plus by trivial. apply gsum_ext. intros.
  rewrite <- gsum_plus by trivial. apply gsum_ext. reflexivity.
Qed.

Lemma gather_inside g J dep c z : (forall d, 2 <= get d (nloc g)) -> on_grid g c -> inside g z -> clean g J ->
  gather zero plus g J dep c z = plus (J c z) (deposited zero plus g dep (gz g c z)).
Proof.
  intros N O I C. unfold gather. rewrite sync_inside by trivial. rewrite sync_radG_ok by trivial.
  rewrite deposited_plus. f_equal.
  rewrite <- sync_radG_ok by trivial. apply sync_clean; [exact C|]. intros d. specialize (N d). lia.
Qed.

Lemma since_from g deps : (forall d, 2 <= get d (nloc g)) -> forall J, clean g J ->
  clean g (fold_left (gather zero plus g) deps J) /\
  forall c z, on_grid g c -> inside g z ->
  fold_left (gather zero plus g) deps J c z
  = plus (J c z) (gsum zero plus (fun dep => deposited zero plus g dep (gz g c z)) deps).
Proof.
  intros N. induction deps as [|dep l IH]; intros J C.
  - split; [exact C|]. intros c z O I. cbn. now rewrite plus_comm, plus_zero.
  - cbn [fold_left]. assert (C' : clean g (gather zero plus g J dep)) by (intros c z S Q; now apply sync_ghost).
    destruct (IH _ C') as [A B]. split; [exact A|]. intros c z O I. rewrite B by trivial.
    rewrite gather_inside by trivial. rewrite gsum_cons. symmetry. apply plus_assoc.
Qed.

Lemma since_ok g deps : (forall d, 2 <= get d (nloc g)) ->
  (forall c z, on_grid g c -> inside g z ->
   since_dump zero plus g deps c z = gsum zero plus (fun dep => deposited zero plus g dep (gz g c z)) deps) /\
  (forall c z, stored g z -> ~ inside g z -> since_dump zero plus g deps c z = zero).
Proof.
  intros N. destruct (since_from g deps N (fun _ _ => zero)) as [A B]; [intros ? ? ? ?; reflexivity|].
  split; [|exact A]. intros c z O I. unfold since_dump. rewrite B by trivial. apply plus_zero.
Qed.

Lemma sync_again g st c z : (forall d, 2 <= get d (nloc g)) -> stored g z ->
  sync g (sync g st) c z = sync g st c z.
Proof.
  intros N S.
  assert (D : {inside g z} + {~ inside g z}).
  { destruct (in_dec Bool.bool_dec true [(0 <=? v1 z) && (v1 z <? v1 (nloc g)) && ((0 <=? v2 z) && (v2 z <? v2 (nloc g)))
       && ((0 <=? v3_ z) && (v3_ z <? v3_ (nloc g)))]) as [E|E].
    - left. destruct E as [E|[]]. intros [| |]; cbn [get]; lia.
    - right. intros I. apply E. left. pose proof (I D1). pose proof (I D2). pose proof (I D3). cbn [get] in *. lia. }
  destruct D as [I|I].
  - rewrite sync_inside by trivial. apply sync_clean; [|intros d; specialize (N d); lia].
    intros b x S' I'. now apply sync_ghost.
  - now rewrite !sync_ghost.
Qed.

(** Totals: the interior of all processes holds everything deposited with an owner. *)
Lemma sum3_ext (f h : rank -> v3 -> M) l1 l2 l3 :
  (forall p1 p2 p3, In p1 l1 -> In p2 l2 -> In p3 l3 ->
     f (V3 (fst p1) (fst p2) (fst p3)) (V3 (snd p1) (snd p2) (snd p3))
     = h (V3 (fst p1) (fst p2) (fst p3)) (V3 (snd p1) (snd p2) (snd p3))) ->
  sum3 zero plus f l1 l2 l3 = sum3 zero plus h l1 l2 l3.
Proof.
  intros E. unfold sum3. apply gsum_ext. intros p3 H3. apply gsum_ext. intros p2 H2. apply gsum_ext. intros p1 H1. auto.
Qed.
Lemma sum3_plus (f h : rank -> v3 -> M) l1 l2 l3 :
  sum3 zero plus (fun c z => plus (f c z) (h c z)) l1 l2 l3
  = plus (sum3 zero plus f l1 l2 l3) (sum3 zero plus h l1 l2 l3).
Proof.
  unfold sum3. rewrite <- gsum_plus by trivial. apply gsum_ext. intros.
  rewrite <- gsum_plus by trivial. apply gsum_ext. intros.
  rewrite <- gsum_plus by trivial. apply gsum_ext. reflexivity.
Qed.
Lemma owned_in g d p : In p (owned g d) -> 0 <= fst p < get d (nproc g) /\ 0 <= snd p < get d (nloc g).
Proof.
  unfold owned. rewrite in_flat_map. intros (a & A & B). rewrite in_map_iff in B. destruct B as (x & <- & X).
  apply zrange_in in A, X. cbn. lia.
Qed.

Lemma since_total g deps : (forall d, 2 <= get d (nloc g)) -> (forall d, 0 < get d (nproc g)) ->
  interior_total zero plus g (since_dump zero plus g deps) = gsum zero plus (deposit_total zero plus g) deps.
Proof.
  intros N P.
  assert (Z0 : interior_total zero plus g (fun _ _ => zero) = zero).
  { unfold interior_total, sum3. rewrite (gsum_ext zero plus _ (fun _ => zero)); [now apply gsum_zero|].
    intros. rewrite (gsum_ext zero plus _ (fun _ => zero)); [now apply gsum_zero|]. intros. now apply gsum_zero. }
  assert (G : forall J dep, clean g J ->
     interior_total zero plus g (gather zero plus g J dep)
     = plus (interior_total zero plus g J) (deposit_total zero plus g dep)).
  { intros J dep C. rewrite <- sync_radG_total by trivial. unfold interior_total. rewrite <- sum3_plus. apply sum3_ext.
    intros p1 p2 p3 H1 H2 H3. apply owned_in in H1, H2, H3.
    assert (O : on_grid g (V3 (fst p1) (fst p2) (fst p3))) by (intros [| |]; cbn [get v1 v2 v3_]; tauto).
    assert (I : inside g (V3 (snd p1) (snd p2) (snd p3))) by (intros [| |]; cbn [get v1 v2 v3_]; tauto).
    rewrite gather_inside by trivial. f_equal. now rewrite sync_radG_ok. }
  unfold since_dump.
  enough (H : forall J, clean g J -> interior_total zero plus g (fold_left (gather zero plus g) deps J)
     = plus (interior_total zero plus g J) (gsum zero plus (deposit_total zero plus g) deps)).
  { rewrite H by (intros ? ? ? ?; reflexivity). rewrite Z0. apply plus_zero. }
  induction deps as [|dep l IH]; intros J C; cbn [fold_left].
  - cbn. now rewrite plus_comm, plus_zero.
  - rewrite IH by (intros c z S Q; now apply sync_ghost). rewrite G by trivial. rewrite gsum_cons. symmetry. apply plus_assoc.
Qed.
End P.

(** The force array has no such clearing: a second synchronisation without the
    reset of step.c:118 counts a ghost deposit again. *)
Definition two_procs : hcfg :=
  HCfg (V3 2 2 2) (V3 2 1 1) (fun _ => Outflow) (fun _ => Outflow).
Definition one_ghost : rank -> v3 -> Z := fun c z =>
  match c, z with V3 0 0 0, V3 2 0 0 => 1 | _, _ => 0 end.
Lemma radG_again : exists g (st : rank -> v3 -> Z) c z, (forall d, 2 <= get d (nloc g)) /\ on_grid g c /\ inside g z /\
  sync_radG 0 Z.add g st c z = 1 /\ sync_radG 0 Z.add g (sync_radG 0 Z.add g st) c z = 2.
Proof.
  exists two_procs, one_ghost, (V3 1 0 0), (V3 0 0 0). split; [|split; [|split; [|split]]].
  - intros [| |]; cbn; lia.
  - intros [| |]; cbn; lia.
  - intros [| |]; cbn; lia.
  - reflexivity.
  - reflexivity.
Qed.
