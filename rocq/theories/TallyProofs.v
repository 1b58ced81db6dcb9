(** The radiation's stress tensor: proofs. *)
From Coq Require Import Reals Bool ZArith List Permutation Lia Lra.
From Verif Require Import GeomModel GeomSpec GeomProofs SpaceProofs TallyModel TallySpec.
Import ListNotations.
Open Scope R_scope.

Lemma zone_eqb_spec a b : reflect (a = b) (zone_eqb a b).
Proof.
  destruct a as [[i j] k], b as [[i' j'] k']. cbn. destruct (Z.eqb_spec i i'), (Z.eqb_spec j j'), (Z.eqb_spec k k'); cbn; constructor; congruence.
Qed.
Lemma zone_refl a : zone_eqb a a = true.
Proof. destruct (zone_eqb_spec a a); congruence. Qed.
Definition counted (p : packet) : bool := negb (Z.eqb (ptype p) TYPE_TRACER).
Definition here (z : zone) (p : packet) : bool := zone_eqb z (pz p) && counted p.
Section Run.
Variables (k L : R) (dx : nat -> R) (gdet : Z -> Z -> R).
Let vol := volume dx gdet.
Let gather := gather1 k L dx gdet.
(** what the arrays hold *)
Lemma gather_all l : forall a z,
  Nsph (fold_left gather l a) z = (Nsph a z + Z.of_nat (length (filter (here z) l)))%Z /\
  nph (fold_left gather l a) z = nph a z + total (fun p => pw p / (vol z * L ^ 3)) (filter (here z) l) /\
  (forall mu nu, Rmunu (fold_left gather l a) z mu nu = Rmunu a z mu nu + total (fun p => k * pKcon p mu * pKcov p nu * pw p / (pKcon p 0%nat * vol z)) (filter (here z) l)).
Proof.
  induction l as [|p l IH]; intros a z.
  - cbn. repeat split; try lia; intros; lra.
  - cbn [fold_left filter]. destruct (IH (gather a p) z) as (A & B & C). rewrite A, B.
    assert (HZ : here z p = zone_eqb z (pz p) && negb (Z.eqb (ptype p) TYPE_TRACER)) by reflexivity.
    unfold gather, gather1 in C |- *. destruct (Z.eqb_spec (ptype p) TYPE_TRACER) as [T|T]; cbn [negb] in HZ.
    { rewrite andb_false_r in HZ. rewrite HZ. repeat split; intros; try lia; rewrite ?C; reflexivity. }
    rewrite andb_true_r in HZ. rewrite HZ. cbn [Nsph nph Rmunu] in *. unfold upd in *. destruct (zone_eqb_spec z (pz p)) as [->|N].
    + cbn [length total fold_right]. repeat split; intros; rewrite ?C; cbn [total fold_right]; fold vol; unfold total; try lra. lia.
    + repeat split; intros; rewrite ?C; auto.
Qed.
Lemma total_perm {A} (f : A -> R) l l' : Permutation l l' -> total f l = total f l'.
Proof. intros P. unfold total. induction P; cbn [fold_right] in *; lra. Qed.
Lemma total_app {A} (f : A -> R) l l' : total f (l ++ l') = total f l + total f l'.
Proof. unfold total. induction l; cbn [fold_right app] in *; lra. Qed.
Lemma total_ext {A} (f g : A -> R) l : (forall a, In a l -> f a = g a) -> total f l = total g l.
Proof. intros H. induction l as [|a l IH]; [reflexivity|]. cbn. rewrite (H a (or_introl eq_refl)). f_equal. apply IH. intros b I. apply H. now right. Qed.
Lemma total_scal {A} c (f : A -> R) l : total (fun a => c * f a) l = c * total f l.
Proof. unfold total. induction l; cbn [fold_right app] in *; lra. Qed.
Lemma total_plus {A} (f g : A -> R) l : total (fun a => f a + g a) l = total f l + total g l.
Proof. unfold total. induction l; cbn [fold_right app] in *; lra. Qed.
Lemma total_nonneg {A} (f : A -> R) l : (forall a, In a l -> 0 <= f a) -> 0 <= total f l.
Proof. intros H. induction l as [|a l IH]; [cbn; lra|]. cbn. specialize (H a (or_introl eq_refl)) as H0. assert (0 <= total f l) by (apply IH; intros; apply H; now right). unfold total in *. lra. Qed.
Lemma filter_perm {A} (f : A -> bool) l l' : Permutation l l' -> Permutation (filter f l) (filter f l').
Proof.
  induction 1 as [|x l l' P IH|x y l|l l2 l3 P1 IH1 P2 IH2]; [constructor| | |eapply perm_trans; eassumption]; cbn.
  - destruct (f x); [now constructor|exact IH].
  - destruct (f x), (f y); try apply Permutation_refl. apply perm_swap.
Qed.
(** any distribution over threads, any order *)
Lemma order_all ts ts' : Permutation (concat ts) (concat ts') -> forall z,
  let a := set_Rmunu k L dx gdet ts in let b := set_Rmunu k L dx gdet ts' in
  Nsph a z = Nsph b z /\ nph a z = nph b z /\ forall mu nu, Rmunu a z mu nu = Rmunu b z mu nu.
Proof.
  intros P z a b. destruct (gather_all (concat ts) cleared z) as (A1 & A2 & A3). destruct (gather_all (concat ts') cleared z) as (B1 & B2 & B3).
  unfold a, b, set_Rmunu. fold gather. rewrite A1, A2, B1, B2. pose proof (filter_perm (here z) _ _ P) as F. repeat split.
  - f_equal. f_equal. apply Permutation_length, F.
  - f_equal. apply total_perm, F.
  - intros mu nu. rewrite A3, B3. f_equal. apply total_perm, F.
Qed.
(** *** sums over zones *)
Lemma total_filter_zone (f : packet -> R) z p l : total f (filter (here z) (p :: l)) = (if here z p then f p else 0) + total f (filter (here z) l).
Proof. cbn [filter]. destruct (here z p); unfold total; cbn [fold_right]; lra. Qed.
Lemma one_zone (f : packet -> R) zs p : NoDup zs -> In (pz p) zs -> total (fun z => if here z p then f p else 0) zs = if counted p then f p else 0.
Proof.
  intros N I. induction zs as [|z zs IH]; [destruct I|]. cbn [total fold_right]. apply NoDup_cons_iff in N. destruct N as [NI N]. destruct (zone_eqb_spec z (pz p)) as [E|NE].
  - unfold here at 1. rewrite E, zone_refl. cbn [andb].
    assert (Z0 : total (fun z => if here z p then f p else 0) zs = 0).
    { rewrite (total_ext _ (fun _ => 0 * 0)); [rewrite total_scal; lra|]. intros y Iy. unfold here. destruct (zone_eqb_spec y (pz p)) as [E2|]; [exfalso; apply NI; congruence|]. cbn. lra. }
    change (fold_right _ 0 zs) with (total (fun z => if here z p then f p else 0) zs). rewrite Z0. lra.
  - unfold here at 1. destruct (zone_eqb_spec z (pz p)); [contradiction|]. cbn [andb]. rewrite Rplus_0_l. apply IH; [exact N|]. destruct I as [E|I]; [contradiction|exact I].
Qed.
Lemma over_zones (f : packet -> R) zs l : NoDup zs -> (forall p, In p l -> In (pz p) zs) -> total (fun z => total f (filter (here z) l)) zs = total f (filter counted l).
Proof.
  intros N. induction l as [|p l IH]; intros H.
  - cbn [filter]. clear. unfold total. cbn [fold_right]. induction zs; cbn [fold_right]; lra.
  - rewrite (total_ext _ (fun z => (if here z p then f p else 0) + total f (filter (here z) l))) by (intros; apply total_filter_zone).
    rewrite total_plus, IH by (intros; apply H; now right). rewrite one_zone by (try exact N; apply H; now left). cbn [filter]. destruct (counted p); unfold total; cbn [fold_right]; lra.
Qed.
Lemma length_total {A} (l : list A) : IZR (Z.of_nat (length l)) = total (fun _ => 1) l.
Proof. induction l; [reflexivity|]. cbn [length total fold_right]. rewrite Nat2Z.inj_succ, succ_IZR. unfold total in *. lra. Qed.
Lemma totalZ_R {A} (f : A -> Z) l : IZR (totalZ f l) = total (fun a => IZR (f a)) l.
Proof. induction l; [reflexivity|]. cbn. rewrite plus_IZR. unfold total, totalZ in *. lra. Qed.
Lemma numbers ts zs : NoDup zs -> (forall p, In p (concat ts) -> In (pz p) zs) ->
  totalZ (Nsph (set_Rmunu k L dx gdet ts)) zs = Z.of_nat (length (filter counted (concat ts))).
Proof.
  intros N I. apply eq_IZR. rewrite totalZ_R, length_total. rewrite <- (over_zones _ zs) by assumption. apply total_ext. intros z _.
  destruct (gather_all (concat ts) cleared z) as (A & _). unfold set_Rmunu. fold gather. rewrite A. cbn [cleared Nsph]. rewrite Z.add_0_l. apply length_total.
Qed.
Lemma particles ts zs : NoDup zs -> (forall p, In p (concat ts) -> In (pz p) zs) -> (forall z, In z zs -> vol z <> 0) -> L <> 0 ->
  total (fun z => nph (set_Rmunu k L dx gdet ts) z * (vol z * L ^ 3)) zs = total pw (filter counted (concat ts)).
Proof.
  intros N I V L0. rewrite <- (over_zones _ zs) by assumption. apply total_ext. intros z Iz. destruct (gather_all (concat ts) cleared z) as (_ & B & _). unfold set_Rmunu. fold gather. rewrite B. cbn [cleared nph].
  rewrite Rplus_0_l, Rmult_comm, <- total_scal. apply total_ext. intros p _. field. split; [exact L0|apply V, Iz].
Qed.
Lemma momentum ts zs nu : NoDup zs -> (forall p, In p (concat ts) -> In (pz p) zs /\ (counted p = true -> pKcon p 0%nat <> 0)) -> (forall z, In z zs -> vol z <> 0) ->
  total (fun z => Rmunu (set_Rmunu k L dx gdet ts) z 0%nat nu * vol z) zs = k * total (fun p => pw p * pKcov p nu) (filter counted (concat ts)).
Proof.
  intros N I V. rewrite <- total_scal. rewrite <- (over_zones _ zs); [|exact N|intros p Ip; apply (I p Ip)]. apply total_ext. intros z Iz. destruct (gather_all (concat ts) cleared z) as (_ & _ & C). unfold set_Rmunu. fold gather. rewrite C. cbn [cleared Rmunu].
  rewrite Rplus_0_l, Rmult_comm, <- total_scal. apply total_ext. intros p Ip. apply filter_In in Ip. destruct Ip as [Ip H]. unfold here in H. apply andb_prop in H. destruct H as [_ H]. field. split; [apply V, Iz|apply (I p Ip), H].
Qed.
(** *** one zone *)
Variables (G : mat) (alpha : R) (beta : vec).
Hypothesis ST : spacetime G alpha beta.
Variables (ts : list (list packet)) (z : zone).
Hypothesis Hk : 0 < k.
Hypothesis Hv : 0 < vol z.
Hypothesis Hp : forall p, In p (concat ts) -> here z p = true -> 0 <= pw p /\ 0 < pKcon p 0%nat /\ inner G (pKcon p) (pKcon p) = 0 /\ same4 (pKcov p) (lower (pKcon p) G).
Let T := Rmunu (set_Rmunu k L dx gdet ts) z.
Let ps := filter (here z) (concat ts).
Let c (p : packet) := k * pw p / (pKcon p 0%nat * vol z).
Lemma c_nonneg p : In p ps -> 0 <= c p.
Proof using Hk Hv Hp.
  intros I. apply filter_In in I. destruct I as [I H]. destruct (Hp p I H) as (W & K & _). unfold c, Rdiv. apply Rmult_le_pos; [apply Rmult_le_pos; lra|]. left. apply Rinv_0_lt_compat, Rmult_lt_0_compat; assumption.
Qed.
Lemma T_sum mu nu : (nu < 4)%nat -> T mu nu = total (fun p => c p * (pKcon p mu * lower (pKcon p) G nu)) ps.
Proof using Hp Hv.
  intros Hn. unfold T, set_Rmunu. fold gather. destruct (gather_all (concat ts) cleared z) as (_ & _ & C). rewrite C. cbn [cleared Rmunu]. rewrite Rplus_0_l. fold ps. apply total_ext. intros p I. unfold ps in I. apply filter_In in I. destruct I as [I H].
  destruct (Hp p I H) as (_ & K & _ & S). rewrite (S nu Hn). unfold c. field. lra.
Qed.
Lemma act_sum u mu : act T u mu = total (fun p => c p * inner G (pKcon p) u * pKcon p mu) ps.
Proof using Hp Hv ST.
  unfold act, sigma4. rewrite !T_sum by lia. rewrite !(Rmult_comm (total _ _)), <- !total_scal, <- !total_plus. apply total_ext. intros p _.
  rewrite (inner_sym G _ u (st_sym G alpha beta ST)), inner_lower. unfold sigma4. ring.
Qed.
Lemma inner_total {A} (f : A -> R) (v : A -> vec) (l : list A) (w : vec) (x : vec) : same4 x (fun mu => total (fun a => f a * v a mu) l) -> inner G x w = total (fun a => f a * inner G (v a) w) l.
Proof.
  intros E. transitivity (inner G (fun mu => total (fun a => f a * v a mu) l) w); [unfold inner, sigma4; rewrite !E by lia; reflexivity|]. clear E.
  induction l as [|a l IH]; [unfold inner, sigma4; cbn; lra|]. transitivity (f a * inner G (v a) w + total (fun a => f a * inner G (v a) w) l); [|reflexivity]. rewrite <- IH. unfold inner, sigma4, total. cbn [fold_right]. ring.
Qed.
Lemma act_inner u w : inner G (act T u) w = total (fun p => c p * inner G (pKcon p) u * inner G (pKcon p) w) ps.
Proof using Hp Hv ST. apply (inner_total (fun p => c p * inner G (pKcon p) u) pKcon). intros mu _. apply act_sum. Qed.
Lemma traceless : sigma4 (fun mu => T mu mu) = 0.
Proof using Hp Hv.
  unfold sigma4. rewrite !T_sum by lia. rewrite <- !total_plus. rewrite (total_ext _ (fun _ => 0 * 0)); [rewrite total_scal; lra|]. intros p I. unfold ps in I. apply filter_In in I. destruct I as [I H].
  destruct (Hp p I H) as (_ & _ & N & _). rewrite inner_lower in N. unfold sigma4 in N. rewrite Rmult_0_l. rewrite <- (Rmult_0_r (c p)), <- N. ring.
Qed.
Lemma adjoint : self_adjoint G T.
Proof using Hp Hv ST.
  intros x y. rewrite (inner_sym G x _ (st_sym G alpha beta ST)), !act_inner. apply total_ext. intros p _. ring.
Qed.
(** the cone of causal vectors is convex *)
Lemma causal_form v : causal G v -> exists a q, 0 <= a /\ a = alpha * v 0%nat /\ q = shifted beta v /\ spatial G q q <= a * a.
Proof using ST.
  intros [I P]. rewrite (st_split G alpha beta ST) in I. pose proof (st_alpha G alpha beta ST). exists (alpha * v 0%nat), (shifted beta v). repeat split; [apply Rmult_le_pos; lra|]. lra.
Qed.
Lemma causal_pair v w : causal G v -> causal G w -> inner G v w <= 0.
Proof using ST.
  intros V W. destruct (causal_form v V) as (a & p & A & Ea & Ep & SP). destruct (causal_form w W) as (b & q & B & Eb & Eq & SQ). rewrite (st_split G alpha beta ST). rewrite <- Ep, <- Eq.
  replace (alpha * alpha * v 0%nat * w 0%nat) with (a * b) by (rewrite Ea, Eb; ring). pose proof (sp_cs G alpha beta ST p q) as CS. pose proof (sp_nonneg G alpha beta ST p) as P0. pose proof (sp_nonneg G alpha beta ST q) as Q0.
  assert (AB : 0 <= a * b) by (apply Rmult_le_pos; assumption). assert (M : spatial G p p * spatial G q q <= a * a * (b * b)) by (apply Rmult_le_compat; assumption).
  destruct (Rle_lt_dec (spatial G p q) (a * b)) as [|X]; [lra|exfalso]. assert (a * b * (a * b) < spatial G p q * spatial G p q) by (apply Rmult_le_0_lt_compat; lra). lra.
Qed.
Lemma causal_sum {A} (f : A -> R) (v : A -> vec) (l : list A) : (forall a, In a l -> 0 <= f a /\ causal G (v a)) -> forall x, same4 x (fun mu => total (fun a => f a * v a mu) l) -> causal G x.
Proof using ST.
  intros H x E. split.
  - rewrite (inner_total f v l x x E). assert (D : forall a, In a l -> 0 <= - (f a * inner G (v a) x)).
    { intros a Ia. destruct (H a Ia) as [F V]. rewrite (inner_sym G _ _ (st_sym G alpha beta ST)), (inner_total f v l (v a) x E).
      assert (0 <= total (fun b => - (f b * inner G (v b) (v a))) l). { apply total_nonneg. intros b Ib. destruct (H b Ib) as [Fb Vb]. pose proof (causal_pair _ _ Vb V). rewrite <- Ropp_mult_distr_r_reverse. apply Rmult_le_pos; lra. }
      rewrite (total_ext _ (fun b => -1 * (f b * inner G (v b) (v a)))), total_scal in H0 by (intros; ring). rewrite <- Ropp_mult_distr_r_reverse. apply Rmult_le_pos; lra. }
    apply total_nonneg in D. rewrite (total_ext _ (fun a => -1 * (f a * inner G (v a) x))), total_scal in D by (intros; ring). lra.
  - rewrite (E 0%nat) by lia. apply total_nonneg. intros a Ia. destruct (H a Ia) as [F [_ V]]. apply Rmult_le_pos; assumption.
Qed.
(** energy density and flux for any observer *)
Lemma dominant u : causal G u -> 0 <= inner G (act T u) u /\ causal G (fun mu => - act T u mu).
Proof using Hk Hp Hv ST.
  intros U. assert (KC : forall p, In p ps -> causal G (pKcon p)).
  { intros p I. unfold ps in I. apply filter_In in I. destruct I as [I H]. destruct (Hp p I H) as (_ & K & N & _). split; lra. }
  split.
  - rewrite act_inner. apply total_nonneg. intros p I. rewrite Rmult_assoc. apply Rmult_le_pos; [apply c_nonneg, I|apply Rle_0_sqr].
  - apply (causal_sum (fun p => - (c p * inner G (pKcon p) u)) pKcon ps).
    + intros p I. split; [|apply KC, I]. pose proof (causal_pair _ _ (KC p I) U). rewrite <- Ropp_mult_distr_r_reverse. apply Rmult_le_pos; [apply c_nonneg, I|lra].
    + intros mu _. rewrite act_sum, <- (Rmult_1_l (total _ ps)), Ropp_mult_distr_l, <- total_scal. apply total_ext. intros; ring.
Qed.
End Run.
