(** Lemmas about parabolic reconstruction (proofs of C119). *)
From Coq Require Import Reals Bool ZArith List Lia Lra Psatz.
From Verif Require Import RLib XLib IntLib ReconSpec PpmModel PpmSpec.
Import ListNotations.
Open Scope R_scope.

Ltac cs :=
  repeat (match goal with
  | |- context [Rltb ?a ?b] => destruct (Rltb_spec a b)
  | |- context [Rleb ?a ?b] => destruct (Rleb_spec a b)
  | |- context [Reqb ?a ?b] => destruct (Reqb_spec a b)
  | |- context [Rabs ?a] => destruct (Rcase_abs a); [rewrite (Rabs_left a) by assumption | rewrite (Rabs_right a) by assumption]
  | H : context [Rabs ?a] |- _ => destruct (Rcase_abs a); [rewrite (Rabs_left a) in H by assumption | rewrite (Rabs_right a) in H by assumption]
  end; cbn [andb orb negb]; try (exfalso; lra)).

(** ** The limited second differences *)
Definition lim2 (qa qb qc : R) : R :=
  if Reqb (MY_SIGN qa) (MY_SIGN qb) && Reqb (MY_SIGN qa) (MY_SIGN qc)
  then MY_SIGN qa * MY_MIN (C_lim * Rabs qb) (MY_MIN (C_lim * Rabs qc) (Rabs qa)) else 0.
Definition lim3 (qa qb qc qd : R) : R :=
  if Reqb (MY_SIGN qa) (MY_SIGN qb) && Reqb (MY_SIGN qa) (MY_SIGN qc) && Reqb (MY_SIGN qa) (MY_SIGN qd)
  then MY_SIGN qd * MY_MIN (MY_MIN (C_lim * Rabs qa) (C_lim * Rabs qb)) (MY_MIN (C_lim * Rabs qc) (Rabs qd)) else 0.


Lemma sgn_eq a b : Reqb (MY_SIGN a) (MY_SIGN b) = Bool.eqb (Rltb a 0) (Rltb b 0).
Proof.
  unfold MY_SIGN. destruct (Rltb_spec a 0), (Rltb_spec b 0); cbn [Bool.eqb].
  - destruct (Reqb_spec (-1) (-1)); congruence.
  - destruct (Reqb_spec (-1) 1); [lra|reflexivity].
  - destruct (Reqb_spec 1 (-1)); [lra|reflexivity].
  - destruct (Reqb_spec 1 1); congruence.
Qed.
Lemma Rltb_opp a : a <> 0 -> Rltb (- a) 0 = negb (Rltb a 0).
Proof. intros H. destruct (Rltb_spec (- a) 0), (Rltb_spec a 0); try reflexivity; exfalso; lra. Qed.
Lemma sgn_opp a : a <> 0 -> MY_SIGN (- a) = - MY_SIGN a.
Proof. intros H. unfold MY_SIGN. rewrite Rltb_opp by auto. destruct (Rltb a 0); cbn [negb]; ring. Qed.
Lemma eqb_opp a b : a <> 0 -> b <> 0 -> Bool.eqb (Rltb (- a) 0) (Rltb (- b) 0) = Bool.eqb (Rltb a 0) (Rltb b 0).
Proof. intros A B. rewrite !Rltb_opp by auto. now destruct (Rltb a 0), (Rltb b 0). Qed.
Lemma min0_l x y : 0 <= y -> x = 0 -> Rmin x y = 0.
Proof. intros H ->. now apply Rmin_left. Qed.
Lemma min0_r x y : 0 <= x -> y = 0 -> Rmin x y = 0.
Proof. intros H ->. now apply Rmin_right. Qed.
Lemma C_abs x : 0 <= C_lim * Rabs x.
Proof. unfold C_lim. pose proof (Rabs_pos x). lra. Qed.
Lemma C_zero : C_lim * Rabs 0 = 0.
Proof. rewrite Rabs_R0. ring. Qed.
Lemma min_pos x y : 0 <= x -> 0 <= y -> 0 <= Rmin x y.
Proof. intros. now apply Rmin_glb. Qed.

Lemma lim2_0 qa qb qc : qa = 0 \/ qb = 0 \/ qc = 0 -> lim2 qa qb qc = 0.
Proof.
  intros H. unfold lim2. rewrite !MY_MIN_min. destruct (_ && _); [|reflexivity].
  pose proof (C_abs qb). pose proof (C_abs qc). pose proof (Rabs_pos qa).
  replace (Rmin _ _) with 0; [ring|]. symmetry. destruct H as [-> | [-> | ->]].
  - apply min0_r; [assumption|]. apply min0_r; [assumption|]. apply Rabs_R0.
  - apply min0_l; [now apply min_pos|apply C_zero].
  - apply min0_r; [assumption|]. apply min0_l; [assumption|apply C_zero].
Qed.
Lemma lim2_neg qa qb qc : lim2 (- qa) (- qb) (- qc) = - lim2 qa qb qc.
Proof.
  destruct (Req_dec qa 0) as [A|A]; [rewrite !lim2_0 by (repeat split; lra); ring|].
  destruct (Req_dec qb 0) as [B|B]; [rewrite !lim2_0 by (repeat split; lra); ring|].
  destruct (Req_dec qc 0) as [D|D]; [rewrite !lim2_0 by (repeat split; lra); ring|].
  unfold lim2. rewrite !sgn_eq, !eqb_opp, !Rabs_Ropp, sgn_opp by auto. destruct (_ && _); ring.
Qed.
Lemma lim2_pos qa qb qc : 0 < qa -> 0 < qb -> 0 < qc -> lim2 qa qb qc = Rmin (C_lim * qb) (Rmin (C_lim * qc) qa).
Proof.
  intros A B D. unfold lim2. rewrite !sgn_eq, !MY_MIN_min. unfold MY_SIGN. rewrite !Rltb_false by lra. cbn [Bool.eqb andb].
  rewrite !Rabs_right by lra. ring.
Qed.
(** between 0 and either neighbour's second difference *)
Lemma lim2_bounds qa qb qc : 0 <= qa -> 0 <= lim2 qa qb qc /\ (0 < lim2 qa qb qc -> 0 < qb /\ 0 < qc /\ lim2 qa qb qc <= C_lim * qb /\ lim2 qa qb qc <= C_lim * qc).
Proof.
  intros A. destruct (Req_dec qa 0) as [->|A0]; [rewrite lim2_0 by auto; lra|].
  destruct (Rle_dec qb 0) as [B|B].
  { destruct (Req_dec qb 0) as [->|B0]; [rewrite lim2_0 by auto; lra|]. unfold lim2. rewrite !sgn_eq. rewrite (Rltb_false qa), (Rltb_true qb) by lra. cbn [Bool.eqb andb]. lra. }
  destruct (Rle_dec qc 0) as [D|D].
  { destruct (Req_dec qc 0) as [->|D0]; [rewrite lim2_0 by auto; lra|]. unfold lim2. rewrite !sgn_eq. rewrite (Rltb_false qa), (Rltb_true qc) by lra. rewrite andb_comm. cbn [Bool.eqb andb]. lra. }
  rewrite lim2_pos by lra. pose proof (Rmin_l (C_lim * qb) (Rmin (C_lim * qc) qa)). pose proof (Rmin_r (C_lim * qb) (Rmin (C_lim * qc) qa)). pose proof (Rmin_l (C_lim * qc) qa).
  assert (0 <= Rmin (C_lim * qb) (Rmin (C_lim * qc) qa)) by (unfold C_lim; apply min_pos; [lra|]; apply min_pos; lra). lra.
Qed.

Lemma lim3_0 qa qb qc qd : qa = 0 \/ qb = 0 \/ qc = 0 \/ qd = 0 -> lim3 qa qb qc qd = 0.
Proof.
  intros H. unfold lim3. rewrite !MY_MIN_min. destruct (_ && _); [|reflexivity].
  pose proof (C_abs qa). pose proof (C_abs qb). pose proof (C_abs qc). pose proof (Rabs_pos qd).
  replace (Rmin _ _) with 0; [ring|]. symmetry. destruct H as [-> | [-> | [-> | ->]]].
  - apply min0_l; [now apply min_pos|]. apply min0_l; [assumption|apply C_zero].
  - apply min0_l; [now apply min_pos|]. apply min0_r; [assumption|apply C_zero].
  - apply min0_r; [now apply min_pos|]. apply min0_l; [assumption|apply C_zero].
  - apply min0_r; [now apply min_pos|]. apply min0_r; [assumption|apply Rabs_R0].
Qed.
Lemma lim3_neg qa qb qc qd : lim3 (- qa) (- qb) (- qc) (- qd) = - lim3 qa qb qc qd.
Proof.
  destruct (Req_dec qa 0) as [A|A]; [rewrite !lim3_0 by lra; ring|]. destruct (Req_dec qb 0) as [B|B]; [rewrite !lim3_0 by lra; ring|].
  destruct (Req_dec qc 0) as [D|D]; [rewrite !lim3_0 by lra; ring|]. destruct (Req_dec qd 0) as [E|E]; [rewrite !lim3_0 by lra; ring|].
  unfold lim3. rewrite !sgn_eq, !eqb_opp, !Rabs_Ropp, sgn_opp by auto. destruct (_ && _); ring.
Qed.
(** nothing is left unless all four have one sign *)
Lemma lim3_mixed qa qb qc qd : qa <= 0 \/ qb <= 0 \/ qc <= 0 \/ qd <= 0 -> 0 <= qa \/ 0 <= qb \/ 0 <= qc \/ 0 <= qd -> lim3 qa qb qc qd = 0.
Proof.
  intros P N. destruct (Req_dec qa 0) as [A|A]; [now apply lim3_0; auto|]. destruct (Req_dec qb 0) as [B|B]; [now apply lim3_0; auto|].
  destruct (Req_dec qc 0) as [D|D]; [now apply lim3_0; auto|]. destruct (Req_dec qd 0) as [E|E]; [now apply lim3_0; auto|].
  unfold lim3. rewrite !sgn_eq. destruct (Rltb_spec qa 0), (Rltb_spec qb 0), (Rltb_spec qc 0), (Rltb_spec qd 0); cbn [Bool.eqb andb]; try reflexivity; exfalso; lra.
Qed.
Lemma lim3_pos qa qb qc qd : 0 < qa -> 0 < qb -> 0 < qc -> 0 < qd -> lim3 qa qb qc qd = Rmin (Rmin (C_lim * qa) (C_lim * qb)) (Rmin (C_lim * qc) qd).
Proof.
  intros A B D E. unfold lim3. rewrite !sgn_eq, !MY_MIN_min. unfold MY_SIGN. rewrite !Rltb_false by lra. cbn [Bool.eqb andb].
  rewrite !Rabs_right by lra. ring.
Qed.

(** ** Interface values *)
Lemma dph_eq a b c d : dph a b c d =
  if Rltb (dph0 a b c d) (Rmin b c) || Rltb (Rmax b c) (dph0 a b c d)
  then 5 / 10 * (b + c) - lim2 (3 * (b - 2 * dph0 a b c d + c)) (d2qc a b c) (d2qc b c d) / 6 else dph0 a b c d.
Proof. unfold dph, lim2. now rewrite MY_MIN_min, MY_MAX_max. Qed.
Lemma dph0_neg a b c d : dph0 (- a) (- b) (- c) (- d) = - dph0 a b c d.
Proof. unfold dph0. field. Qed.
Lemma Rltb_swap a b : Rltb (- a) (- b) = Rltb b a.
Proof. destruct (Rltb_spec (- a) (- b)), (Rltb_spec b a); try reflexivity; exfalso; lra. Qed.
Lemma Rmin_neg a b : Rmin (- a) (- b) = - Rmax a b.
Proof. unfold Rmin, Rmax. destruct (Rle_dec (- a) (- b)), (Rle_dec a b); lra. Qed.
Lemma Rmax_neg a b : Rmax (- a) (- b) = - Rmin a b.
Proof. unfold Rmin, Rmax. destruct (Rle_dec (- a) (- b)), (Rle_dec a b); lra. Qed.
Lemma dph_neg a b c d : dph (- a) (- b) (- c) (- d) = - dph a b c d.
Proof.
  rewrite !dph_eq, dph0_neg, Rmin_neg, Rmax_neg, !Rltb_swap. rewrite orb_comm. destruct (_ || _); [|reflexivity].
  replace (3 * (- b - 2 * - dph0 a b c d + - c)) with (- (3 * (b - 2 * dph0 a b c d + c))) by ring.
  replace (d2qc (- a) (- b) (- c)) with (- d2qc a b c) by (unfold d2qc; ring). replace (d2qc (- b) (- c) (- d)) with (- d2qc b c d) by (unfold d2qc; ring).
  rewrite lim2_neg. field.
Qed.
(** the same from the other side *)
Lemma dph_rev a b c d : dph d c b a = dph a b c d.
Proof.
  rewrite !dph_eq. rewrite (Rmin_comm c b), (Rmax_comm c b). replace (dph0 d c b a) with (dph0 a b c d) by (unfold dph0; field).
  destruct (_ || _); [|reflexivity]. replace (5 / 10 * (c + b)) with (5 / 10 * (b + c)) by ring. f_equal. f_equal.
  replace (3 * (c - 2 * dph0 a b c d + b)) with (3 * (b - 2 * dph0 a b c d + c)) by ring.
  replace (d2qc d c b) with (d2qc b c d) by (unfold d2qc; ring). replace (d2qc c b a) with (d2qc a b c) by (unfold d2qc; ring).
  generalize (3 * (b - 2 * dph0 a b c d + c)), (d2qc b c d), (d2qc a b c). intros x y z. unfold lim2. rewrite !MY_MIN_min.
  rewrite (andb_comm (Reqb _ (MY_SIGN y))). destruct (_ && _); [|reflexivity]. f_equal.
  rewrite !Rmin_assoc. f_equal. apply Rmin_comm.
Qed.

Lemma dph_up a b c d : a <= b -> b <= c -> c <= d -> b <= dph a b c d <= c /\ (b < c -> dph a b c d = c -> d2qc a b c < 0).
Proof.
  intros A B D. rewrite dph_eq. rewrite Rmin_left, Rmax_right by lra. destruct (Rltb_spec (dph0 a b c d) b) as [L|L]; cbn [orb].
  - assert (P : 0 <= 3 * (b - 2 * dph0 a b c d + c)) by lra. destruct (lim2_bounds _ (d2qc a b c) (d2qc b c d) P) as (Q & W).
    destruct (Rle_lt_or_eq_dec _ _ Q) as [Q'|Q'].
    + destruct (W Q') as (X & Y & Z & _). unfold d2qc, C_lim in *. split; [split; lra|]. intros. exfalso. lra.
    + rewrite <- Q'. split; [split; lra|]. intros. exfalso. lra.
  - destruct (Rltb_spec c (dph0 a b c d)) as [U|U]; cbn [orb].
    + assert (P : 0 <= - (3 * (b - 2 * dph0 a b c d + c))) by lra. destruct (lim2_bounds _ (- d2qc a b c) (- d2qc b c d) P) as (Q & W). rewrite lim2_neg in Q, W.
      destruct (Rle_lt_or_eq_dec _ _ Q) as [Q'|Q'].
      * destruct (W Q') as (X & Y & _ & Z). unfold d2qc, C_lim in *. split; [split; lra|]. intros. exfalso. lra.
      * replace (lim2 _ _ _) with 0 by lra. split; [split; lra|]. intros. exfalso. lra.
    + split; [lra|]. unfold dph0, d2qc. intros. lra.
Qed.
Lemma dph_up' a b c d : a <= b -> b <= c -> c <= d -> b < c -> dph a b c d = b -> 0 < d2qc b c d.
Proof.
  intros A B D E H. destruct (dph_up (- d) (- c) (- b) (- a)) as (_ & W); try lra. specialize (W ltac:(lra)).
  rewrite dph_neg, dph_rev in W. specialize (W ltac:(lra)). unfold d2qc in *. lra.
Qed.

(** ** The parabola *)
Lemma parabola_up q l r : 0 <= 2 * (r - q) - (q - l) -> 0 <= 2 * (q - l) - (r - q) -> forall x y, 0 <= x -> x <= y -> y <= 1 -> parabola q l r x <= parabola q l r y.
Proof.
  intros A B x y X XY Y. assert (E : parabola q l r y - parabola q l r x = (y - x) * (r - l + 6 * (q - (l + r) / 2) * (1 - x - y))) by (unfold parabola; ring).
  assert (0 <= r - l + 6 * (q - (l + r) / 2) * (1 - x - y)); [|nra].
  set (t := 1 - x - y) in *. assert (-1 <= t <= 1) by (unfold t; lra). assert (F : r - l + 6 * (q - (l + r) / 2) * t = (1 + t) / 2 * (r - l + 6 * (q - (l + r) / 2)) + (1 - t) / 2 * (r - l - 6 * (q - (l + r) / 2))) by field.
  rewrite F. apply Rplus_le_le_0_compat; apply Rmult_le_pos; lra.
Qed.
Lemma parabola_flat q x : parabola q q q x = q.
Proof. unfold parabola. field. Qed.
Lemma parabola_neg q l r x : parabola (- q) (- l) (- r) x = - parabola q l r x.
Proof. unfold parabola. field. Qed.

(** the last part of reconstruct_lr_ppm and of para alike *)
Definition ppm_end (x1 x2 x3 x4 x5 l r : R) : R * R :=
  if Rleb ((x3 - l) * (r - x3)) 0 || Rleb ((x4 - x3) * (x3 - x2)) 0 then
    let qd := 6 * (l - 2 * x3 + r) in
    let rho := if Rleb (Rabs qd) (/ 10 ^ 12 * Rmax (Rmax (Rabs x2) (Rabs x1)) (Rmax (Rabs x3) (Rmax (Rabs x4) (Rabs x5)))) then 0
               else lim3 (d2qc x1 x2 x3) (d2qc x2 x3 x4) (d2qc x3 x4 x5) qd / qd in
    if Rleb rho (1 - / 10 ^ 12) then (x3 - rho * (x3 - l), x3 + rho * (r - x3)) else (l, r)
  else
    (if Rleb (2 * Rabs (r - x3)) (Rabs (x3 - l)) then x3 - 2 * (r - x3) else l,
     if Rleb (2 * Rabs (x3 - l)) (Rabs (r - x3)) then x3 + 2 * (x3 - l) else r).
Lemma ppm_eq x1 x2 x3 x4 x5 : ppm x1 x2 x3 x4 x5 = ppm_end x1 x2 x3 x4 x5 (dph x1 x2 x3 x4) (dph x2 x3 x4 x5).
Proof. unfold ppm, ppm_end, lim3. cbv zeta. now rewrite !MY_MAX_max. Qed.
Lemma end_neg x1 x2 x3 x4 x5 l r l' r' : ppm_end x1 x2 x3 x4 x5 l r = (l', r') ->
  ppm_end (- x1) (- x2) (- x3) (- x4) (- x5) (- l) (- r) = (- l', - r').
Proof.
  unfold ppm_end. cbv zeta. rewrite !Rabs_Ropp.
  replace ((- x3 - - l) * (- r - - x3)) with ((x3 - l) * (r - x3)) by ring. replace ((- x4 - - x3) * (- x3 - - x2)) with ((x4 - x3) * (x3 - x2)) by ring.
  replace (6 * (- l - 2 * - x3 + - r)) with (- (6 * (l - 2 * x3 + r))) by ring. rewrite Rabs_Ropp.
  replace (d2qc (- x1) (- x2) (- x3)) with (- d2qc x1 x2 x3) by (unfold d2qc; ring). replace (d2qc (- x2) (- x3) (- x4)) with (- d2qc x2 x3 x4) by (unfold d2qc; ring).
  replace (d2qc (- x3) (- x4) (- x5)) with (- d2qc x3 x4 x5) by (unfold d2qc; ring). rewrite lim3_neg.
  replace (- x3 - - l) with (- (x3 - l)) by ring. replace (- r - - x3) with (- (r - x3)) by ring. rewrite !Rabs_Ropp.
  destruct (_ || _).
  - set (qd := 6 * (l - 2 * x3 + r)). set (e := lim3 _ _ _ _).
    assert (P : 0 <= / 10 ^ 12 * Rmax (Rmax (Rabs x2) (Rabs x1)) (Rmax (Rabs x3) (Rmax (Rabs x4) (Rabs x5)))).
    { apply Rmult_le_pos; [left; apply Rinv_0_lt_compat; apply pow_lt; lra|]. eapply Rle_trans; [apply (Rabs_pos x2)|]. eapply Rle_trans; [apply Rmax_l|apply Rmax_l]. }
    destruct (Rleb_spec (Rabs qd) (/ 10 ^ 12 * Rmax (Rmax (Rabs x2) (Rabs x1)) (Rmax (Rabs x3) (Rmax (Rabs x4) (Rabs x5))))) as [S|S].
    + destruct (Rleb _ _); intros [= <- <-]; f_equal; ring.
    + assert (qd <> 0) by (intros E; rewrite E, Rabs_R0 in S; lra). replace (- e / - qd) with (e / qd) by (field; auto).
      destruct (Rleb _ _); intros [= <- <-]; f_equal; ring.
  - destruct (Rleb _ _), (Rleb _ _); intros [= <- <-]; f_equal; ring.
Qed.
Lemma ppm_neg x1 x2 x3 x4 x5 l r : ppm x1 x2 x3 x4 x5 = (l, r) -> ppm (- x1) (- x2) (- x3) (- x4) (- x5) = (- l, - r).
Proof. rewrite !ppm_eq, !dph_neg. apply end_neg. Qed.

Lemma ppm_up x1 x2 x3 x4 x5 l r : ordered5 true x1 x2 x3 x4 x5 -> ppm x1 x2 x3 x4 x5 = (l, r) -> good true x2 x3 x4 l r.
Proof.
  intros (O1 & O2 & O3 & O4) E. cbn [ordered] in *. rewrite ppm_eq in E.
  destruct (dph_up x1 x2 x3 x4) as ((L1 & L2) & L3); try lra. destruct (dph_up x2 x3 x4 x5) as ((R1 & R2) & _); try lra.
  pose proof (dph_up' x2 x3 x4 x5 O2 O3 O4) as R3. set (l0 := dph x1 x2 x3 x4) in *. set (r0 := dph x2 x3 x4 x5) in *.
  unfold ppm_end in E. cbv zeta in E. unfold good. cbn [ordered].
  destruct (Rleb_spec ((x3 - l0) * (r0 - x3)) 0) as [A|A]; destruct (Rleb_spec ((x4 - x3) * (x3 - x2)) 0) as [B|B]; cbn [orb] in E.
  1,2,3: assert (Z : lim3 (d2qc x1 x2 x3) (d2qc x2 x3 x4) (d2qc x3 x4 x5) (6 * (l0 - 2 * x3 + r0)) = 0);
    [|rewrite Z in E; replace (0 / (6 * (l0 - 2 * x3 + r0))) with 0 in E by (unfold Rdiv; ring);
      assert (T : / 10 ^ 12 <= 1) by (rewrite <- Rinv_1; apply Rinv_le_contravar; [lra|apply pow_R1_Rle; lra]);
      destruct (Rleb (Rabs _) _); rewrite Rleb_true in E by lra; injection E as <- <-; replace (x3 - 0 * (x3 - l0)) with x3 by ring; replace (x3 + 0 * (r0 - x3)) with x3 by ring;
      (split; [lra|]); (split; [lra|]); (split; [lra|]); (split; [lra|]); intros; rewrite !parabola_flat; lra].
  1,2,3: destruct (Req_dec x2 x3) as [E2|E2]; [apply lim3_mixed; unfold d2qc; lra|]; destruct (Req_dec x3 x4) as [E3|E3]; [apply lim3_mixed; unfold d2qc; lra|].
  1,2: destruct (Req_dec l0 x3) as [E4|E4]; [assert (d2qc x1 x2 x3 < 0) by (apply L3; [lra|assumption]); apply lim3_mixed; lra|];
       destruct (Req_dec r0 x3) as [E5|E5]; [assert (0 < d2qc x3 x4 x5) by (apply R3; [lra|assumption]); apply lim3_mixed; lra|];
       exfalso; assert (0 < (x3 - l0) * (r0 - x3)) by (apply Rmult_lt_0_compat; lra); lra.
  - exfalso. assert (0 < (x4 - x3) * (x3 - x2)) by (apply Rmult_lt_0_compat; lra). lra.
  - assert (P : 0 < x3 - l0) by (destruct (Req_dec l0 x3) as [E4|E4]; [rewrite E4 in A; exfalso; lra|lra]).
    assert (Q : 0 < r0 - x3) by (destruct (Req_dec r0 x3) as [E4|E4]; [rewrite E4 in A; exfalso; lra|lra]).
    rewrite !Rabs_right in E by lra. destruct (Rleb_spec (2 * (r0 - x3)) (x3 - l0)), (Rleb_spec (2 * (x3 - l0)) (r0 - x3)); injection E as <- <-; try (exfalso; lra);
    (split; [lra|]); (split; [lra|]); (split; [lra|]); (split; [lra|]); apply parabola_up; lra.
Qed.
Lemma ppm_monotone up x1 x2 x3 x4 x5 l r : ordered5 up x1 x2 x3 x4 x5 -> ppm x1 x2 x3 x4 x5 = (l, r) -> good up x2 x3 x4 l r.
Proof.
  destruct up; [apply ppm_up|]. intros (O1 & O2 & O3 & O4) E. cbn [ordered] in *. apply ppm_neg in E.
  apply ppm_up in E; [|repeat split; cbn [ordered]; lra]. destruct E as (G1 & G2 & G3 & G4 & G5). unfold good. cbn [ordered] in *.
  split; [lra|]. split; [lra|]. split; [lra|]. split; [lra|]. intros x y X XY Y. specialize (G5 x y X XY Y). rewrite !parabola_neg in G5. lra.
Qed.
