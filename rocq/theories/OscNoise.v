From Coq Require Import Reals Bool ZArith List Lia Lra.
From Verif Require Import RLib OscModel OscSpec OscProofs.
Import ListNotations.
Open Scope R_scope.

(** ** The bin of a zone and direction *)
Lemma here_bin b z imu p : neutrino (ty p) \/ ty p = (-1)%Z -> here b z imu p = in_bin b z imu p.
Proof.
  intros H. unfold here, in_bin, ceqb, neutrino, TYPE_TRACER in *. rewrite <- !andb_assoc. f_equal.
  destruct (Z.leb_spec 0 (ty p)), (Z.eqb_spec (ty p) (-1)); cbn; auto; lia.
Qed.
Lemma sum_if_bin f b z imu l : Forall (fun p => neutrino (ty p) \/ ty p = (-1)%Z) l ->
  sum_if f (in_bin b z imu) l = rsum f (filter (here b z imu) l).
Proof.
  induction l as [|p l IH]; intros H; cbn [sum_if filter rsum]; [reflexivity|].
  rewrite (here_bin b z imu p (Forall_inv H)), IH by exact (Forall_inv_tail H). destruct (in_bin b z imu p); cbn [rsum]; lra.
Qed.
Lemma sum_if_type b z imu t l : Forall (fun p => neutrino (ty p) \/ ty p = (-1)%Z) l ->
  local_angles l b z t imu = rsum (fun p => if Z.eqb (ty p) t then wt p else 0) (filter (here b z imu) l).
Proof.
  unfold local_angles. induction l as [|p l IH]; intros H; cbn [sum_if filter rsum]; [reflexivity|].
  rewrite (here_bin b z imu p (Forall_inv H)), IH by exact (Forall_inv_tail H). destruct (in_bin b z imu p); cbn [rsum andb]; lra.
Qed.
Lemma rsum_ext f g l : (forall p, In p l -> f p = g p) -> rsum f l = rsum g l.
Proof. induction l as [|p l IH]; intros H; cbn; [reflexivity|]. rewrite H, IH; auto; cbn; auto. intros q I. apply H. cbn. auto. Qed.
Lemma rsum_plus f g l : rsum (fun p => f p + g p) l = rsum f l + rsum g l.
Proof. induction l as [|p l IH]; cbn; lra. Qed.
Lemma rsum_scale c f l : rsum (fun p => c * f p) l = c * rsum f l.
Proof. induction l as [|p l IH]; cbn; lra. Qed.
Lemma rsum_pos f l : (forall p, In p l -> 0 <= f p) -> 0 <= rsum f l.
Proof. induction l as [|p l IH]; intros H; cbn; [lra|]. pose proof (H p (or_introl eq_refl)). assert (0 <= rsum f l) by (apply IH; intros; apply H; cbn; auto). lra. Qed.
Lemma rsum_one l : rsum (fun _ => 1) l = INR (length l).
Proof. induction l as [|p l IH]; [reflexivity|]. cbn [rsum length]. rewrite IH, S_INR. lra. Qed.
Lemma here_neutrino b z imu l p : Forall (fun p => neutrino (ty p) \/ ty p = (-1)%Z) l -> In p (filter (here b z imu) l) -> In p l /\ neutrino (ty p).
Proof.
  intros H I. apply filter_In in I. destruct I as (I & J). split; [exact I|]. rewrite Forall_forall in H. destruct (H p I) as [N|N]; [exact N|].
  exfalso. unfold here in J. rewrite N in J. discriminate J.
Qed.
Lemma four_types p : neutrino (ty p) -> (ty p = 0 \/ ty p = 1 \/ ty p = 2 \/ ty p = 3)%Z.
Proof. unfold neutrino. lia. Qed.
Lemma weights_sum b z imu l : Forall (fun p => (neutrino (ty p) \/ ty p = (-1)%Z) /\ 0 <= wt p) l ->
  Rabs (local_angles l b z 0 imu) + Rabs (local_angles l b z 1 imu) + Rabs (local_angles l b z 2 imu) + Rabs (local_angles l b z 3 imu) =
  rsum wt (filter (here b z imu) l).
Proof.
  intros H. assert (T : Forall (fun p => neutrino (ty p) \/ ty p = (-1)%Z) l) by (eapply Forall_impl; [|exact H]; cbn; tauto).
  rewrite !sum_if_type by exact T.
  assert (P : forall t, 0 <= rsum (fun p => if Z.eqb (ty p) t then wt p else 0) (filter (here b z imu) l)).
  { intros t. apply rsum_pos. intros p I. apply here_neutrino in I; [|exact T]. rewrite Forall_forall in H. destruct (H p (proj1 I)) as (_ & W). destruct (Z.eqb _ _); lra. }
  rewrite !Rabs_right by (apply Rle_ge; auto). rewrite <- !rsum_plus. apply rsum_ext. intros p I.
  apply here_neutrino in I; [|exact T]. destruct (four_types p (proj2 I)) as [E|[E|[E|E]]]; rewrite E; cbn; lra.
Qed.
Lemma excess_sum b z imu l : Forall (fun p => neutrino (ty p) \/ ty p = (-1)%Z) l ->
  (local_angles l b z 0 imu - local_angles l b z 1 imu) - 1 / 2 * (local_angles l b z 2 imu - local_angles l b z 3 imu) =
  rsum (fun p => lepton (ty p) * wt p) (filter (here b z imu) l).
Proof.
  intros T. rewrite !sum_if_type by exact T.
  transitivity (rsum (fun p => (if Z.eqb (ty p) 0 then wt p else 0) + ((-1) * (if Z.eqb (ty p) 1 then wt p else 0) +
     ((- (1 / 2)) * (if Z.eqb (ty p) 2 then wt p else 0) + (1 / 2) * (if Z.eqb (ty p) 3 then wt p else 0)))) (filter (here b z imu) l)).
  - rewrite !rsum_plus, !rsum_scale. lra.
  - apply rsum_ext. intros p I. apply here_neutrino in I; [|exact T]. unfold lepton. destruct (four_types p (proj2 I)) as [E|[E|[E|E]]]; rewrite E; cbn; lra.
Qed.
(** Cauchy-Schwarz *)
Lemma squares l : rsum wt l * rsum wt l <= INR (length l) * rsum (fun p => wt p * wt p) l.
Proof.
  induction l as [|p l IH]; [cbn; lra|]. cbn [rsum length]. rewrite S_INR. set (W := rsum wt l) in *. set (Q := rsum (fun p => wt p * wt p) l) in *. set (x := wt p).
  pose proof (pos_INR (length l)) as N. set (n := INR (length l)) in *.
  assert (2 * x * W <= n * (x * x) + Q); [|lra].
  destruct (Req_dec n 0) as [Z|Z].
  - assert (W0 : W = 0).
    { unfold W, n in *. destruct l as [|q l]; [reflexivity|]. exfalso. cbn [length] in Z. rewrite S_INR in Z. pose proof (pos_INR (length l)). lra. }
    assert (0 <= Q) by (apply rsum_pos; intros; apply Rle_0_sqr). rewrite W0, Z. lra.
  - assert (0 < n) by lra. apply (Rmult_le_reg_l n); [lra|]. pose proof (Rle_0_sqr (n * x - W)) as S. unfold Rsqr in S. lra.
Qed.
Lemma spread l : INR (length l) * mean l * mean l <= rsum (fun p => wt p * wt p) l.
Proof.
  pose proof (squares l) as C. pose proof SMALL_pos as SP. pose proof (pos_INR (length l)) as N. unfold mean.
  assert (Q : 0 <= rsum (fun p => wt p * wt p) l) by (apply rsum_pos; intros; apply Rle_0_sqr).
  change (/ 10 ^ 20) with SMALL. set (n := INR (length l)) in *. set (W := rsum wt l) in *. set (q := rsum (fun p => wt p * wt p) l) in *.
  apply (Rmult_le_reg_r ((n + SMALL) * (n + SMALL))); [apply Rmult_lt_0_compat; lra|].
  replace (n * (W / (n + SMALL)) * (W / (n + SMALL)) * ((n + SMALL) * (n + SMALL))) with (n * (W * W)) by (field; lra).
  assert (n * (W * W) <= n * (n * q)) by (apply Rmult_le_compat_l; auto).
  assert (0 <= n * q) by (apply Rmult_le_pos; auto). assert (0 <= q * SMALL) by (apply Rmult_le_pos; lra).
  assert (0 <= q * SMALL * SMALL) by (apply Rmult_le_pos; lra). assert (0 <= n * q * SMALL) by (apply Rmult_le_pos; lra). lra.
Qed.
Lemma noise_pos l : 0 <= noise2 l.
Proof.
  unfold noise2. pose proof (spread l) as S. pose proof SMALL_pos as SP. change (/ 10 ^ 20) with SMALL. pose proof (pos_INR (length l)) as N. pose proof (Rabs_pos (INR (length l) - 1)).
  assert (0 <= INR (length l) * mean l * mean l) by (rewrite Rmult_assoc; apply Rmult_le_pos; [lra|apply Rle_0_sqr]).
  assert (0 <= INR (length l) * (rsum (fun p => wt p * wt p) l - INR (length l) * mean l * mean l) / (Rabs (INR (length l) - 1) + SMALL)).
  { apply Rmult_le_pos; [apply Rmult_le_pos; lra|left; apply Rinv_0_lt_compat; lra]. }
  lra.
Qed.
Lemma gnu_bin b z imu l : Forall (fun p => (neutrino (ty p) \/ ty p = (-1)%Z) /\ 0 <= wt p) l ->
  let B := filter (here b z imu) l in let g := rsum (fun p => lepton (ty p) * wt p) B in
  0 <= noise2 B /\ (sqrt (noise2 B) < Rabs g -> Gnu l b z imu = g) /\ (Rabs g <= sqrt (noise2 B) -> Gnu l b z imu = 0).
Proof.
  intros H B g. assert (T : Forall (fun p => neutrino (ty p) \/ ty p = (-1)%Z) l) by (eapply Forall_impl; [|exact H]; cbn; tauto).
  split; [apply noise_pos|].
  assert (E : Gnu l b z imu = if Rltb (sqrt (noise2 B)) (Rabs g) then g else 0).
  { unfold Gnu, compute_gnu, NU_ELECTRON, ANTINU_ELECTRON, NU_HEAVY, ANTINU_HEAVY. cbv zeta. rewrite (weights_sum b z imu l H), (excess_sum b z imu l T).
    unfold local_Ns, local_wsqr. rewrite !(sum_if_bin _ b z imu l T), rsum_one. reflexivity. }
  rewrite E. split; intros L; [rewrite Rltb_true by exact L|rewrite Rltb_false by lra]; reflexivity.
Qed.
(** ** Alone, and in company *)
Lemma gnu_lone b z imu l p : Forall (fun p => (neutrino (ty p) \/ ty p = (-1)%Z) /\ 0 <= wt p) l ->
  filter (here b z imu) l = [p] -> Gnu l b z imu = 0.
Proof.
  intros H E. destruct (gnu_bin b z imu l H) as (_ & _ & G). rewrite E in G. apply G. clear G.
  assert (I : In p (filter (here b z imu) l)) by (rewrite E; left; reflexivity).
  assert (T : Forall (fun p => neutrino (ty p) \/ ty p = (-1)%Z) l) by (eapply Forall_impl; [|exact H]; cbn; tauto).
  apply here_neutrino in I; [|exact T]. destruct I as (I & N). rewrite Forall_forall in H. destruct (H p I) as (_ & W).
  cbn [rsum]. rewrite Rplus_0_r. unfold noise2, mean. cbn [length rsum]. rewrite !Rplus_0_r. change (INR 1) with 1. change (/ 10 ^ 20) with SMALL.
  replace (1 - 1) with 0 by lra. rewrite Rabs_R0, Rplus_0_l, !Rmult_1_l. pose proof SMALL_pos as SP. pose proof SMALL_1 as S1.
  set (m := wt p / (1 + SMALL)). set (x := wt p) in *.
  assert (M : 0 <= m <= x).
  { unfold m. split; [apply Rmult_le_pos; [lra|left; apply Rinv_0_lt_compat; lra]|]. apply (Rmult_le_reg_r (1 + SMALL)); [lra|].
    unfold Rdiv. rewrite Rmult_assoc, Rinv_l by lra. assert (0 <= x * SMALL) by (apply Rmult_le_pos; lra). lra. }
  assert (M2 : m * m <= x * x) by (apply Rmult_le_compat; lra).
  assert (D : x * x - m * m <= (x * x - m * m) / SMALL).
  { apply (Rmult_le_reg_r SMALL); [lra|]. replace ((x * x - m * m) / SMALL * SMALL) with (x * x - m * m) by (field; lra).
    assert (0 <= (x * x - m * m) * (1 - SMALL)) by (apply Rmult_le_pos; lra). lra. }
  apply Rle_trans with x.
  - rewrite Rabs_mult, (Rabs_right x) by lra. assert (Rabs (lepton (ty p)) <= 1).
    { unfold lepton. destruct (four_types p N) as [-> |[-> |[-> | ->]]]; cbn; unfold Rabs; destruct (Rcase_abs _); lra. }
    assert (0 <= (1 - Rabs (lepton (ty p))) * x) by (apply Rmult_le_pos; lra). lra.
  - rewrite <- (sqrt_square x) at 1 by lra. apply sqrt_le_1_alt. lra.
Qed.
Lemma rsum_const f c l : (forall p, In p l -> f p = c) -> rsum f l = INR (length l) * c.
Proof. induction l as [|p l IH]; intros H; [cbn; lra|]. cbn [rsum length]. rewrite S_INR, (H p (or_introl eq_refl)), IH by (intros q I; apply H; right; exact I). lra. Qed.
Lemma gnu_equal b z imu l t w : Forall (fun p => (neutrino (ty p) \/ ty p = (-1)%Z) /\ 0 <= wt p) l -> (t = 0 \/ t = 1)%Z -> 0 < w ->
  (2 <= length (filter (here b z imu) l))%nat -> (forall p, In p (filter (here b z imu) l) -> ty p = t /\ wt p = w) ->
  Gnu l b z imu = lepton t * (INR (length (filter (here b z imu) l)) * w).
Proof.
  intros H T W L A. destruct (gnu_bin b z imu l H) as (_ & G & _). set (B := filter _ l) in *.
  assert (E : rsum (fun p => lepton (ty p) * wt p) B = lepton t * (INR (length B) * w)).
  { rewrite (rsum_const _ (lepton t * w)); [ring|]. intros p I. destruct (A p I) as (-> & ->). reflexivity. }
  rewrite E in G. apply G. clear G E.
  assert (N : 2 <= INR (length B)) by (change 2 with (INR 2); apply le_INR, L).
  unfold noise2, mean. rewrite (rsum_const wt w B) by (intros p I; apply A, I). rewrite (rsum_const (fun p => wt p * wt p) (w * w) B) by (intros p I; destruct (A p I) as (_ & ->); reflexivity).
  change (/ 10 ^ 20) with SMALL. pose proof SMALL_pos as SP. pose proof SMALL_1 as S1. set (n := INR (length B)) in *.
  assert (NW : 0 < n * w) by (apply Rmult_lt_0_compat; lra).
  replace (Rabs (lepton t * (n * w))) with (n * w).
  2:{ rewrite Rabs_mult, (Rabs_right (n * w)) by lra. unfold lepton. destruct T as [-> | ->]; cbn; [rewrite Rabs_R1|rewrite Rabs_left by lra]; lra. }
  set (m := n * w / (n + SMALL)). rewrite <- (sqrt_square (n * w)) by lra. rewrite (Rabs_right (n - 1)) by lra. apply sqrt_lt_1_alt.
  assert (M : m * (n + SMALL) = n * w) by (unfold m; field; lra).
  assert (M0 : 0 <= m) by (unfold m; apply Rmult_le_pos; [lra|left; apply Rinv_0_lt_compat; lra]).
  assert (M1 : m <= w). { apply (Rmult_le_reg_r (n + SMALL)); [lra|]. rewrite M. assert (0 <= w * SMALL) by (apply Rmult_le_pos; lra). lra. }
  assert (M2 : w - m <= w * SMALL / n).
  { apply (Rmult_le_reg_r n); [lra|]. replace (w * SMALL / n * n) with (w * SMALL) by (field; lra).
    assert (m * SMALL <= w * SMALL) by (apply Rmult_le_compat_r; lra). lra. }
  assert (WS : w * SMALL / n <= w / 8).
  { apply (Rmult_le_reg_r n); [lra|]. replace (w * SMALL / n * n) with (w * SMALL) by (field; lra).
    assert (SMALL <= 1 / 8). { unfold SMALL. apply (Rmult_le_reg_r (10 ^ 20)); [apply pow_lt; lra|]. rewrite Rinv_l by (apply pow_nonzero; lra). lra. }
    assert (w * SMALL <= w * (1 / 8)) by (apply Rmult_le_compat_l; lra). assert (0 <= w * (n - 2)) by (apply Rmult_le_pos; lra). lra. }
  assert (MM : 0 <= m * m <= w * w) by (split; [apply Rmult_le_pos; lra|apply Rmult_le_compat; lra]).
  assert (WW : 0 < w * w) by (apply Rmult_lt_0_compat; lra).
  assert (MW : w * w - m * m <= w * w / 4).
  { assert ((w - m) * (w + m) <= w / 8 * (2 * w)) by (apply Rmult_le_compat; lra). lra. }
  assert (Q : n * (n * (w * w) - n * m * m) / (n - 1 + SMALL) <= n * (w * w) / 2).
  { apply (Rmult_le_reg_r (n - 1 + SMALL)); [lra|]. unfold Rdiv at 1. rewrite (Rmult_assoc (n * _)), Rinv_l, Rmult_1_r by lra.
    assert (n * (n * (w * w - m * m)) <= n * (n * (w * w / 4))) by (apply Rmult_le_compat_l; [lra|]; apply Rmult_le_compat_l; lra).
    assert (n * (w * w) / 2 * (n / 2) <= n * (w * w) / 2 * (n - 1 + SMALL)).
    { apply Rmult_le_compat_l; [|lra]. assert (0 <= n * (w * w)) by (apply Rmult_le_pos; lra). lra. }
    lra. }
  assert (Q0 : 0 <= n * (n * (w * w) - n * m * m) / (n - 1 + SMALL)).
  { apply Rmult_le_pos; [apply Rmult_le_pos; [lra|]|left; apply Rinv_0_lt_compat; lra].
    assert (0 <= n * (w * w - m * m)) by (apply Rmult_le_pos; lra). lra. }
  assert (NM : 0 <= n * m * m <= n * (w * w)).
  { rewrite Rmult_assoc. split; [apply Rmult_le_pos; lra|apply Rmult_le_compat_l; lra]. }
  split; [lra|]. assert (n * (w * w) * 2 <= n * (w * w) * n) by (apply Rmult_le_compat_l; [|lra]; apply Rmult_le_pos; lra). 
  assert (0 < n * (w * w)) by (apply Rmult_lt_0_compat; lra). lra.
Qed.
(** ** The basis *)
Lemma basis_largest m z b' : Rabs (snd (m b' z) - fst (m b' z)) <= Rabs (snd (m (b_osc m z) z) - fst (m (b_osc m z) z)).
Proof.
  unfold b_osc. destruct (Rltb_spec (Rabs (snd (m false z) - fst (m false z))) (Rabs (snd (m true z) - fst (m true z)))); destruct b'; lra.
Qed.
(** two packets of a bin, a third elsewhere and a tracer *)
Definition crowd : list pk := [mkpk 1 3 false (0, 0)%nat (fun _ => 1%nat); mkpk 0 9 false (1, 0)%nat (fun _ => 1%nat); mkpk (-1) 7 false (0, 0)%nat (fun _ => 1%nat); mkpk 1 3 true (0, 0)%nat (fun _ => 1%nat)].
Lemma crowd_ok : Forall (fun p => (neutrino (ty p) \/ ty p = (-1)%Z) /\ 0 <= wt p) crowd.
Proof. unfold crowd, neutrino. repeat constructor; cbn [ty wt]; lra || lia || (left; lia) || (right; reflexivity). Qed.
Lemma crowd_bin : Gnu crowd true (0, 0)%nat 1 = - 6 /\ Gnu crowd true (1, 0)%nat 1 = 0.
Proof.
  split.
  - rewrite (gnu_equal true (0, 0)%nat 1 crowd 1 3 crowd_ok); [cbn; lra|auto|lra|cbn; lia|]. cbn. intros p [<-|[<-|[]]]; auto.
  - eapply gnu_lone; [exact crowd_ok|reflexivity].
Qed.
