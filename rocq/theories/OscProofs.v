From Coq Require Import Reals Bool ZArith List Lia Lra.
From Verif Require Import RLib OscModel OscSpec.
Import ListNotations.
Open Scope R_scope.

Lemma SMALL_pos : 0 < SMALL.
Proof. unfold SMALL. apply Rinv_0_lt_compat, pow_lt. lra. Qed.
Lemma SMALL_1 : SMALL < 1.
Proof. unfold SMALL. rewrite <- Rinv_1. apply Rinv_lt_contravar; [rewrite Rmult_1_l; apply pow_lt; lra|]. apply Rlt_pow_R1; [lra|lia]. Qed.

(** ** Types *)
Lemma flip_cases t : neutrino t -> (t = 0 /\ flip t = 2 \/ t = 1 /\ flip t = 3 \/ t = 2 /\ flip t = 0 \/ t = 3 /\ flip t = 1)%Z.
Proof.
  unfold neutrino. intros H. assert (C : (t = 0 \/ t = 1 \/ t = 2 \/ t = 3)%Z) by lia.
  destruct C as [->|[->|[->| ->]]]; cbn; auto.
Qed.
Lemma flip_spec t : neutrino t -> neutrino (flip t) /\ particle (flip t) = particle t /\
  nu_is_heavy (flip t) = negb (nu_is_heavy t) /\ flip (flip t) = t.
Proof.
  intros H. destruct (flip_cases t H) as [(-> & ->)|[(-> & ->)|[(-> & ->)|(-> & ->)]]]; unfold neutrino; repeat split; reflexivity || lia.
Qed.
Lemma one_spec NMU FORCE h l p r : let m := history NMU h in let q := oscillate1 FORCE m l p r in
  wt q = wt p /\ cell q = cell p /\ mub q = mub p /\ (ty p = TYPE_TRACER -> q = p) /\
  (neutrino (ty p) -> neutrino (ty q) /\ particle (ty q) = particle (ty p) /\ (ty q = ty p \/ ty q = flip (ty p))).
Proof.
  cbv zeta. unfold oscillate1. destruct (Z.eqb_spec (ty p) TYPE_TRACER) as [E|E].
  - intuition auto.
  - destruct (survival _ _ _ _) as [ps|]; [|intuition auto].
    destruct (Rltb r (1 - ps)); cbn [wt cell mub ty with_type]; [|intuition auto].
    repeat (split; [reflexivity|]). split; [intros; contradiction|]. intros H. destruct (flip_spec _ H) as (A & B & _). auto.
Qed.
(** the list keeps its length and its total weight of particles and of antiparticles *)
Lemma list_spec FORCE m l ps c : Forall (fun p => neutrino (ty (fst p)) \/ ty (fst p) = TYPE_TRACER) ps ->
  length (oscillate FORCE m l ps) = length ps /\
  total (fun p => Bool.eqb (particle (ty p)) c && negb (Z.eqb (ty p) TYPE_TRACER)) (oscillate FORCE m l ps) =
  total (fun p => Bool.eqb (particle (ty p)) c && negb (Z.eqb (ty p) TYPE_TRACER)) (map fst ps).
Proof.
  induction ps as [|(p, r) ps IH]; intros H; cbn [oscillate length map fst total]; [auto|].
  destruct (IH (Forall_inv_tail H)) as (A & B). apply Forall_inv in H. cbn [fst] in H. rewrite A, B. split; auto. apply (f_equal (fun x => x + _)).
  unfold oscillate1. destruct (Z.eqb (ty p) TYPE_TRACER) eqn:E; [rewrite E; reflexivity|].
  destruct H as [H|H]; [|apply Z.eqb_neq in E; contradiction].
  destruct (survival _ _ _ _) as [q|]; [|rewrite E; reflexivity]. destruct (Rltb r (1 - q)); [|rewrite E; reflexivity].
  cbn [ty wt with_type]. destruct (flip_spec _ H) as (N & -> & _).
  assert (T : Z.eqb (flip (ty p)) TYPE_TRACER = false) by (apply Z.eqb_neq; unfold neutrino, TYPE_TRACER in *; lia).
  rewrite T. reflexivity.
Qed.

(** ** Moments *)
Section M.
Variable NMU : nat.
Lemma add_moment_spec g a : add_moment g a = (fst a + Rmax 0 (- g), snd a + Rmax 0 g).
Proof.
  unfold add_moment. destruct a as (x, y). cbn [fst snd]. destruct (Rltb_spec g 0), (Rltb_spec 0 g); try lra; cbn [fst snd].
  - rewrite Rabs_left by lra. rewrite Rmax_right, Rmax_left by lra. f_equal; lra.
  - rewrite Rabs_right by lra. rewrite Rmax_left, Rmax_right by lra. f_equal; lra.
  - assert (g = 0) by lra. subst. rewrite !Rmax_left by lra. f_equal; lra.
Qed.
Lemma fold_moments (G : nat -> R) l : forall a, fold_left (fun a imu => add_moment (G imu) a) l a =
  (fst a + fold_right (fun imu s => Rmax 0 (- G imu) + s) 0 l, snd a + fold_right (fun imu s => Rmax 0 (G imu) + s) 0 l).
Proof.
  induction l as [|i l IH]; intros (x, y); cbn [fold_left fold_right fst snd]; [f_equal; lra|].
  rewrite IH, add_moment_spec. cbn [fst snd]. f_equal; lra.
Qed.
Lemma compute_spec l m b z : compute_moments NMU l m b z = (fst (m b z) + negative NMU l b z, snd (m b z) + positive NMU l b z).
Proof. unfold compute_moments. rewrite fold_moments. reflexivity. Qed.
Lemma fold_history h b z : forall m, fold_left (fun m l => compute_moments NMU l m) h m b z =
  (fst (m b z) + over (fun l => negative NMU l b z) h, snd (m b z) + over (fun l => positive NMU l b z) h).
Proof.
  induction h as [|l h IH]; intros m; cbn [fold_left over]; [rewrite !Rplus_0_r; destruct (m b z); reflexivity|].
  rewrite IH, compute_spec. cbn [fst snd]. f_equal; lra.
Qed.
Lemma history_spec h b z : history NMU h b z = (over (fun l => negative NMU l b z) h, over (fun l => positive NMU l b z) h).
Proof. unfold history. rewrite fold_history. cbn. f_equal; lra. Qed.
Lemma sum_pos (f : nat -> R) l : (forall i, 0 <= f i) -> 0 <= fold_right (fun i s => f i + s) 0 l.
Proof. intros H. induction l as [|i l IH]; cbn; [lra|]. pose proof (H i). lra. Qed.
Lemma over_pos f h : (forall l, 0 <= f l) -> 0 <= over f h.
Proof. intros H. induction h as [|l h IH]; cbn; [lra|]. pose proof (H l). lra. Qed.
Lemma history_pos h b z : 0 <= fst (history NMU h b z) /\ 0 <= snd (history NMU h b z).
Proof.
  rewrite history_spec. cbn [fst snd]. split; apply over_pos; intros l;
    [apply (sum_pos (fun i => Rmax 0 (- Gnu l b z i)))|apply (sum_pos (fun i => Rmax 0 (Gnu l b z i)))]; intros; apply Rmax_l.
Qed.
End M.

(** ** Probabilities *)
Lemma p_range FORCE heavy A B G p : 0 <= A -> 0 <= B -> p_survival FORCE heavy A B G = Some p ->
  (if heavy then 2 / 3 else 1 / 3) <= p <= 1.
Proof.
  intros PA PB. unfold p_survival. destruct (_ && _); [|discriminate]. intros H. injection H. clear H. intros <-.
  pose proof SMALL_pos as SP. set (peq := if heavy then 2 / 3 else 1 / 3).
  assert (Q : 0 < peq < 1) by (unfold peq; destruct heavy; lra).
  destruct FORCE; [lra|]. destruct (_ || _); [lra|].
  assert (R : forall s d, 0 <= s <= d -> peq <= 1 - (1 - peq) * s / (d + SMALL) <= 1).
  { intros s d (S1 & S2). assert (0 <= s / (d + SMALL) <= 1).
    { split; [apply Rmult_le_pos; [lra|left; apply Rinv_0_lt_compat; lra]|].
      apply (Rmult_le_reg_r (d + SMALL)); [lra|]. unfold Rdiv. rewrite Rmult_assoc, Rinv_l by lra. lra. }
    unfold Rdiv in *. rewrite Rmult_assoc. assert (0 <= (1 - peq) * (s * / (d + SMALL))) by (apply Rmult_le_pos; lra).
    assert ((1 - peq) * (s * / (d + SMALL)) <= (1 - peq) * 1) by (apply Rmult_le_compat_l; lra). lra. }
  destruct (Rltb_spec A B); apply R; lra.
Qed.
Lemma survival_range NMU FORCE h l p ps : survival FORCE (history NMU h) l p = Some ps ->
  (if nu_is_heavy (ty p) then 2 / 3 else 1 / 3) <= ps <= 1.
Proof. unfold survival. apply p_range; apply history_pos. Qed.
(** Where the survival probabilities are the equilibrium ones, one step gives one third of
    electron and two thirds of heavy neutrinos on average, from any mixture. *)
Lemma equipartition we wx : we * (1 / 3) + wx * (1 - 2 / 3) = (we + wx) / 3 /\ wx * (2 / 3) + we * (1 - 1 / 3) = 2 * (we + wx) / 3.
Proof. lra. Qed.
Lemma shallow_force A B G : 0 < A -> 0 < B -> p_survival true false A B G = Some (1 / 3) /\ p_survival true true A B G = Some (2 / 3).
Proof.
  intros PA PB. unfold p_survival. destruct (Reqb_spec A 0); [lra|]. destruct (Reqb_spec B 0); [lra|].
  rewrite orb_true_r. cbn. auto.
Qed.
(** In the deep region as much weight leaves equilibrium as there is in the shallow one. *)
Lemma deep_weight heavy A B G p : 0 < A -> A < B -> 0 < G -> p_survival false heavy A B G = Some p ->
  (1 - p) * (B + SMALL) = (1 - (if heavy then 2 / 3 else 1 / 3)) * A.
Proof.
  intros PA L PG. unfold p_survival. destruct (Reqb_spec A 0); [lra|]. destruct (Reqb_spec B 0); [lra|]. destruct (Reqb_spec G 0); [lra|].
  cbn [negb orb andb]. destruct (Rltb_spec A B); [|lra]. destruct (Rltb_spec G 0); [lra|]. cbn [andb orb negb].
  intros H. injection H. intros <-. pose proof SMALL_pos. field. lra.
Qed.

(** ** Moments carried over *)
(** four packets of weight w make a bin that passes the noise test *)
Lemma gnu_four f Ns w2 w : 0 < w -> Ns = 4 -> w2 = 4 * (w * w) ->
  Rabs (f 0%Z) + Rabs (f 1%Z) + Rabs (f 2%Z) + Rabs (f 3%Z) = 4 * w ->
  Rabs (f 0%Z - f 1%Z - 1 / 2 * (f 2%Z - f 3%Z)) = 4 * w -> compute_gnu f Ns w2 = f 0%Z - f 1%Z - 1 / 2 * (f 2%Z - f 3%Z).
Proof.
  intros P -> -> S E. unfold compute_gnu, NU_ELECTRON, ANTINU_ELECTRON, NU_HEAVY, ANTINU_HEAVY. rewrite S, E.
  pose proof SMALL_pos as SP. set (m := 4 * w / (4 + SMALL)).
  assert (M : 0 <= m <= w).
  { unfold m. split; [apply Rmult_le_pos; [lra|left; apply Rinv_0_lt_compat; lra]|].
    apply (Rmult_le_reg_r (4 + SMALL)); [lra|]. unfold Rdiv. rewrite Rmult_assoc, Rinv_l by lra.
    assert (0 <= w * SMALL) by (apply Rmult_le_pos; lra). lra. }
  assert (M2 : 0 <= m * m <= w * w) by (split; [apply Rmult_le_pos; lra|apply Rmult_le_compat; lra]).
  assert (WW : 0 < w * w) by (apply Rmult_lt_0_compat; auto).
  replace (Rabs (4 - 1)) with 3 by (rewrite Rabs_right; lra).
  assert (Q : 4 * (4 * (w * w) - 4 * m * m) / (3 + SMALL) <= 16 / 3 * (w * w)).
  { apply (Rmult_le_reg_r (3 + SMALL)); [lra|]. unfold Rdiv at 1. rewrite Rmult_assoc, Rinv_l by lra.
    assert (0 <= w * w * SMALL) by (apply Rmult_le_pos; lra). lra. }
  assert (Q0 : 0 <= 4 * (4 * (w * w) - 4 * m * m) / (3 + SMALL)).
  { apply Rmult_le_pos; [lra|left; apply Rinv_0_lt_compat; lra]. }
  set (q := 4 * (4 * (w * w) - 4 * m * m) / (3 + SMALL)) in *.
  destruct (Rltb_spec (sqrt (4 * m * m + q)) (4 * w)) as [_|N]; [reflexivity|].
  exfalso. apply N. rewrite <- (sqrt_square (4 * w)) by lra. apply sqrt_lt_1; lra.
Qed.
(** four equal packets *)
Definition four (t : Z) (w : R) (imu : nat) : list pk := repeat (mkpk t w false (0, 0)%nat (fun _ => imu)) 4.
Definition mix (wn wa : R) : list pk := (four 0 wn 0 ++ four 1 wa 1)%list.
Ltac rabs := repeat match goal with |- context [Rabs ?x] => first [rewrite (Rabs_right x) by lra | rewrite (Rabs_left1 x) by lra] end.
Lemma mix_gnu wn wa b : 0 < wn -> 0 < wa -> Gnu (mix wn wa) b (0, 0)%nat 0 = 4 * wn /\ Gnu (mix wn wa) b (0, 0)%nat 1 = - (4 * wa).
Proof.
  intros Pn Pa. unfold Gnu. split.
  - rewrite (gnu_four _ _ _ wn); [..|]; try (unfold local_angles, local_Ns, local_wsqr; cbn; rabs; lra).
  - rewrite (gnu_four _ _ _ wa); [..|]; try (unfold local_angles, local_Ns, local_wsqr; cbn; rabs; lra).
Qed.
Lemma mix_moments wn wa b : 0 < wn -> 0 < wa -> negative 2 (mix wn wa) b (0, 0)%nat = 4 * wa /\ positive 2 (mix wn wa) b (0, 0)%nat = 4 * wn.
Proof.
  intros Pn Pa. destruct (mix_gnu wn wa b Pn Pa) as (G0 & G1). unfold negative, positive. cbn [seq fold_right]. rewrite G0, G1.
  split; unfold Rmax; repeat destruct (Rle_dec _ _); lra.
Qed.
(** The same packets, an antineutrino among them, with and without an earlier call. *)
Definition now : list pk := mix 1 2.
Definition before : list pk := mix 1 1.
Definition anti : pk := mkpk 1 2 false (0, 0)%nat (fun _ => 1%nat).
Lemma carried_refuted : exists h h' l p ps ps', In p l /\
  survival false (history 2 (h ++ [l])) l p = Some ps /\ survival false (history 2 (h' ++ [l])) l p = Some ps' /\ ps <> ps'.
Proof.
  pose proof SMALL_pos as SP. pose proof SMALL_1 as S1.
  assert (M1 : forall b, history 2 ([] ++ [now]) b (0, 0)%nat = (8, 4)).
  { intros b. rewrite history_spec. cbn [app over]. destruct (mix_moments 1 2 b) as (A & B); try lra. unfold now. rewrite A, B. f_equal; lra. }
  assert (M2 : forall b, history 2 ([before] ++ [now]) b (0, 0)%nat = (12, 8)).
  { intros b. rewrite history_spec. cbn [app over]. destruct (mix_moments 1 2 b) as (A & B); try lra. destruct (mix_moments 1 1 b) as (C & D); try lra.
    unfold now, before. rewrite A, B, C, D. f_equal; lra. }
  assert (G : forall b, Gnu now b (0, 0)%nat 1 = - 8) by (intros b; unfold now; destruct (mix_gnu 1 2 b) as (_ & ->); lra).
  exists [], [before], now, anti, (1 - (1 - 1 / 3) * 4 / (8 + SMALL)), (1 - (1 - 1 / 3) * 8 / (12 + SMALL)).
  split; [unfold now, mix, four, anti; cbn; auto 10|].
  assert (P : forall m A B, (forall b, m b (0, 0)%nat = (A, B)) -> 0 < B < A -> survival false m now anti = Some (1 - (1 - 1 / 3) * B / (A + SMALL))).
  { intros m A B E L. unfold survival. cbn [anti cell mub ty]. rewrite E, G. cbn [fst snd]. unfold p_survival.
    destruct (Reqb_spec A 0); [lra|]. destruct (Reqb_spec B 0); [lra|]. destruct (Reqb_spec (-8) 0); [lra|]. cbn [negb orb andb].
    destruct (Rltb_spec A B); [lra|]. destruct (Rltb_spec 0 (-8)); [lra|]. cbn. reflexivity. }
  rewrite (P _ 8 4 M1), (P _ 12 8 M2) by lra. split; [reflexivity|]. split; [reflexivity|].
  intros Q. assert (Z : 4 / (8 + SMALL) = 8 / (12 + SMALL)) by lra.
  apply (f_equal (fun x => x * ((8 + SMALL) * (12 + SMALL)))) in Z.
  replace (4 / (8 + SMALL) * ((8 + SMALL) * (12 + SMALL))) with (4 * (12 + SMALL)) in Z by (field; lra).
  replace (8 / (12 + SMALL) * ((8 + SMALL) * (12 + SMALL))) with (8 * (8 + SMALL)) in Z by (field; lra). lra.
Qed.

(** ** Statements for the properties *)
Lemma flip_partner t : neutrino t -> partner t (flip t).
Proof. intros H. destruct (flip_cases t H) as [(-> & ->)|[(-> & ->)|[(-> & ->)|(-> & ->)]]]; constructor. Qed.
Lemma step_spec FORCE m l p r : let q := oscillate1 FORCE m l p r in
  wt q = wt p /\ cell q = cell p /\ mub q = mub p /\ (ty p = (-1)%Z -> q = p) /\
  (neutrino (ty p) -> q = p \/ (partner (ty p) (ty q) /\ osc q = true /\ exists ps, survival FORCE m l p = Some ps /\ r < 1 - ps)) /\
  (forall ps, neutrino (ty p) -> survival FORCE m l p = Some ps -> r < 1 - ps -> partner (ty p) (ty q)).
Proof.
  cbv zeta. unfold oscillate1. destruct (Z.eqb_spec (ty p) TYPE_TRACER) as [E|E].
  - split; [reflexivity|]. split; [reflexivity|]. split; [reflexivity|]. split; [reflexivity|]. split; [auto|].
    intros ps H. exfalso. rewrite E in H. unfold neutrino, TYPE_TRACER in H. lia.
  - destruct (survival _ _ _ _) as [ps|].
    + destruct (Rltb_spec r (1 - ps)) as [L|L]; cbn [wt cell mub ty osc with_type].
      * split; [reflexivity|]. split; [reflexivity|]. split; [reflexivity|]. split; [intros; contradiction|]. split.
        -- intros H. right. split; [apply flip_partner, H|]. split; [reflexivity|]. exists ps. auto.
        -- intros ps' H _ _. apply flip_partner, H.
      * split; [reflexivity|]. split; [reflexivity|]. split; [reflexivity|]. split; [reflexivity|]. split; [auto|].
        intros ps' _ J K. injection J. intros ->. contradiction.
    + split; [reflexivity|]. split; [reflexivity|]. split; [reflexivity|]. split; [reflexivity|]. split; [auto|]. discriminate.
Qed.
Lemma involution t : neutrino t -> neutrino (flip t) /\ partner t (flip t) /\ flip (flip t) = t.
Proof. intros H. destruct (flip_spec t H) as (A & _ & _ & B). pose proof (flip_partner t H). auto. Qed.
Lemma heavy_share t : neutrino t -> (if nu_is_heavy t then 2 / 3 else 1 / 3) = share t.
Proof. unfold neutrino. intros H. assert (C : (t = 0 \/ t = 1 \/ t = 2 \/ t = 3)%Z) by lia. destruct C as [->|[->|[->| ->]]]; reflexivity. Qed.
Lemma range NMU FORCE h l p ps : neutrino (ty p) -> survival FORCE (history NMU h) l p = Some ps -> share (ty p) <= ps <= 1.
Proof. intros H S. rewrite <- (heavy_share _ H). eapply survival_range; eauto. Qed.
(** The weight leaving: with the lepton number of the other sign at least as large, a
    direction bin goes to equilibrium; otherwise only as much as on the other side. *)
Lemma value FORCE m l p ps : neutrino (ty p) -> let b := b_osc m (cell p) in
  let A := fst (m b (cell p)) in let B := snd (m b (cell p)) in let G := Gnu l b (cell p) (mub p b) in
  0 <= A -> 0 <= B -> survival FORCE m l p = Some ps ->
  0 < A /\ 0 < B /\
  (FORCE = true -> ps = share (ty p)) /\
  (FORCE = false -> (G < 0 -> A < B -> ps = share (ty p)) /\ (0 < G -> B <= A -> ps = share (ty p)) /\
                    (G < 0 -> B <= A -> (1 - ps) * (A + / 10 ^ 20) = (1 - share (ty p)) * B) /\
                    (0 < G -> A < B -> (1 - ps) * (B + / 10 ^ 20) = (1 - share (ty p)) * A) /\ G <> 0).
Proof.
  intros N b A B G PA PB. unfold survival. fold b. fold A. fold B. fold G. unfold p_survival. rewrite (heavy_share _ N).
  change (/ 10 ^ 20) with SMALL. pose proof SMALL_pos as SP. clearbody A B G.
  destruct (Reqb_spec A 0); [rewrite andb_false_r, andb_false_l; discriminate|].
  destruct (Reqb_spec B 0); [rewrite andb_false_r; discriminate|]. cbn [negb andb]. rewrite !andb_true_r.
  destruct (Reqb_spec G 0) as [Z|Z]; cbn [negb orb].
  - destruct FORCE; [|discriminate]. intros H. injection H. intros <-. split; [lra|]. split; [lra|]. split; [reflexivity|discriminate].
  - intros H. injection H. clear H. intros <-. split; [lra|]. split; [lra|]. split; [intros ->; reflexivity|]. intros ->.
    destruct (Rltb_spec A B), (Rltb_spec G 0), (Rltb_spec 0 G); cbn [andb orb negb]; try lra;
      repeat split; intros; try lra; try (field; lra).
Qed.
Lemma first NMU l b z : history NMU [l] b z = (negative NMU l b z, positive NMU l b z).
Proof. rewrite history_spec. cbn [over]. f_equal; lra. Qed.
(** A dump in between is enough: the same steps with the same packets, and one more call
    for the dump. *)
Lemma dump_refuted : exists l0 l p ps ps', In p l /\
  survival false (history 2 [l0; l]) l p = Some ps /\ survival false (history 2 [l0; l0; l]) l p = Some ps' /\ ps <> ps'.
Proof.
  pose proof SMALL_pos as SP. pose proof SMALL_1 as S1.
  destruct (mix_moments 1 2 false) as (A & B); try lra. destruct (mix_moments 1 1 false) as (C & D); try lra.
  destruct (mix_moments 1 2 true) as (A' & B'); try lra. destruct (mix_moments 1 1 true) as (C' & D'); try lra.
  assert (M1 : forall b, history 2 [before; now] b (0, 0)%nat = (12, 8)).
  { intros b. rewrite history_spec. cbn [over]. unfold now, before. destruct b; rewrite ?A, ?B, ?C, ?D, ?A', ?B', ?C', ?D'; f_equal; lra. }
  assert (M2 : forall b, history 2 [before; before; now] b (0, 0)%nat = (16, 12)).
  { intros b. rewrite history_spec. cbn [over]. unfold now, before. destruct b; rewrite ?A, ?B, ?C, ?D, ?A', ?B', ?C', ?D'; f_equal; lra. }
  assert (G : forall b, Gnu now b (0, 0)%nat 1 = - 8) by (intros b; unfold now; destruct (mix_gnu 1 2 b) as (_ & ->); lra).
  exists before, now, anti, (1 - (1 - 1 / 3) * 8 / (12 + SMALL)), (1 - (1 - 1 / 3) * 12 / (16 + SMALL)).
  split; [unfold now, mix, four, anti; cbn; auto 10|].
  assert (P : forall m A B, (forall b, m b (0, 0)%nat = (A, B)) -> 0 < B < A -> survival false m now anti = Some (1 - (1 - 1 / 3) * B / (A + SMALL))).
  { clear. intros m A B E L. assert (G : forall b, Gnu now b (0, 0)%nat 1 = - 8) by (intros b; unfold now; destruct (mix_gnu 1 2 b) as (_ & ->); lra).
    unfold survival. cbn [anti cell mub ty]. rewrite E, G. cbn [fst snd]. unfold p_survival.
    destruct (Reqb_spec A 0); [lra|]. destruct (Reqb_spec B 0); [lra|]. destruct (Reqb_spec (-8) 0); [lra|]. cbn [negb orb andb].
    destruct (Rltb_spec A B); [lra|]. destruct (Rltb_spec 0 (-8)); [lra|]. cbn. reflexivity. }
  rewrite (P _ 12 8 M1), (P _ 16 12 M2) by lra. split; [reflexivity|]. split; [reflexivity|].
  intros Q. assert (Z : 8 / (12 + SMALL) = 12 / (16 + SMALL)) by lra.
  apply (f_equal (fun x => x * ((12 + SMALL) * (16 + SMALL)))) in Z.
  replace (8 / (12 + SMALL) * ((12 + SMALL) * (16 + SMALL))) with (8 * (16 + SMALL)) in Z by (field; lra).
  replace (12 / (16 + SMALL) * ((12 + SMALL) * (16 + SMALL))) with (12 * (12 + SMALL)) in Z by (field; lra). lra.
Qed.
(** the bins of the example *)
Lemma anti_oscillates r : r < 1 / 4 -> ty (oscillate1 false (history 2 [now]) now anti r) = 3%Z.
Proof.
  intros L. pose proof SMALL_pos as SP. pose proof SMALL_1 as S1.
  assert (M1 : forall b, history 2 [now] b (0, 0)%nat = (8, 4)).
  { intros b. rewrite history_spec. cbn [over]. destruct (mix_moments 1 2 b) as (A & B); try lra. unfold now. rewrite A, B. f_equal; lra. }
  assert (G : forall b, Gnu now b (0, 0)%nat 1 = - 8) by (intros b; unfold now; destruct (mix_gnu 1 2 b) as (_ & ->); lra).
  unfold oscillate1. cbn [ty anti Z.eqb TYPE_TRACER]. unfold survival. cbn [anti cell mub ty]. rewrite M1, G. cbn [fst snd]. unfold p_survival.
  destruct (Reqb_spec 8 0); [lra|]. destruct (Reqb_spec 4 0); [lra|]. destruct (Reqb_spec (-8) 0); [lra|]. cbn [negb orb andb].
  destruct (Rltb_spec 8 4); [lra|]. destruct (Rltb_spec 0 (-8)); [lra|]. cbn -[Rltb Rplus Rmult Rdiv Rminus].
  match goal with |- ty (if Rltb r ?x then _ else _) = _ => assert (Q : 1 / 4 < x) end.
  { replace (1 - (1 - (1 - 1 / 3) * 4 / (8 + SMALL))) with (8 / 3 / (8 + SMALL)) by (field; lra).
    apply (Rmult_lt_reg_r (8 + SMALL)); [lra|]. replace (8 / 3 / (8 + SMALL) * (8 + SMALL)) with (8 / 3) by (field; lra). lra. }
  destruct (Rltb_spec r (1 - (1 - (1 - 1 / 3) * 4 / (8 + SMALL)))); [reflexivity|lra].
Qed.
Lemma anti_survives : exists ps, survival false (history 2 ([] ++ [now])) now anti = Some ps.
Proof.
  assert (M1 : forall b, history 2 ([] ++ [now]) b (0, 0)%nat = (8, 4)).
  { intros b. rewrite history_spec. cbn [app over]. destruct (mix_moments 1 2 b) as (A & B); try lra. unfold now. rewrite A, B. f_equal; lra. }
  assert (G : forall b, Gnu now b (0, 0)%nat 1 = - 8) by (intros b; unfold now; destruct (mix_gnu 1 2 b) as (_ & ->); lra).
  unfold survival. cbn [anti cell mub ty]. rewrite M1, G. cbn [fst snd]. unfold p_survival.
  destruct (Reqb_spec 8 0); [lra|]. destruct (Reqb_spec 4 0); [lra|]. destruct (Reqb_spec (-8) 0); [lra|]. cbn [negb orb andb]. eauto.
Qed.
