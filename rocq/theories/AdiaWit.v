(** Adiabats of small tables. *)
From Coq Require Import Reals Bool ZArith List Lia Lra.
From Verif Require Import RLib XLib IntLib TabModel TabSpec TabProofs RootModel RootSpec RootProofs InvModel InvSpec InvProofs AdiaModel AdiaSpec AdiaProofs AdiaMore.
Import ListNotations.
Open Scope R_scope.

(** entropy c + a T - rho for the log densities 0, 1, 2, log temperatures 0, 1 and two
    electron fractions *)
Definition r3 : axis := [0; 1; 2].
Definition t2 : axis := [0; 1].
Definition slab (c a : R) : list R := [c; c - 1; c - 2; c + a; c + a - 1; c + a - 2].
Definition tab3 (c a : R) : list R := slab c a ++ slab c a.
Lemma at_slab c a i j k x y z : rd r3 i = Some x -> rd t2 j = Some y -> rd t2 k = Some z -> x = IZR i /\ y = IZR j /\ rd (tab3 c a) (3 * (k * 2 + j) + i)%Z = Some (c + a * y - x).
Proof.
  intros A B C. pose proof (rd_in _ _ _ A) as HA. pose proof (rd_in _ _ _ B) as HB. pose proof (rd_in _ _ _ C) as HC.
  cbn in HA, HB, HC. assert (CA : (i = 0 \/ i = 1 \/ i = 2)%Z) by lia. assert (CB : (j = 0 \/ j = 1)%Z) by lia. assert (CC : (k = 0 \/ k = 1)%Z) by lia.
  assert (VA : x = IZR i) by (destruct CA as [-> |[-> | ->]]; [change (Some 0 = Some x) in A|change (Some 1 = Some x) in A|change (Some 2 = Some x) in A]; injection A; auto).
  assert (VB : y = IZR j) by (destruct CB as [-> | ->]; [change (Some 0 = Some y) in B|change (Some 1 = Some y) in B]; injection B; auto).
  split; [exact VA|]. split; [exact VB|]. subst x y. clear A B C HA HB HC.
  assert (E : forall u v : R, u = v -> Some u = Some v) by (intros; now f_equal).
  destruct CA as [-> |[-> | ->]], CB as [-> | ->], CC as [-> | ->]; unfold tab3, slab, rd; cbn [Z.mul Z.add Z.ltb Z.compare app Z.to_nat Pos.to_nat Pos.mul Pos.add Pos.iter_op nth_error Nat.add Pos.succ];
    apply E; cbn [IZR IPR IPR_2]; ring.
Qed.
Lemma tab3_ok c a : tabulates (fun x y _ => c + a * y - x) r3 t2 t2 (tab3 c a) /\ trilinear (fun x y _ => c + a * y - x).
Proof.
  split.
  - split; [reflexivity|]. intros i j k x y z A B C. destruct (at_slab c a i j k x y z A B C) as (_ & _ & H). exact H.
  - exists c, (-1), a, 0, 0, 0, 0, 0. intros. ring.
Qed.
Lemma even3 : even r3 1. Proof. exact even012. Qed.
Lemma even2 : even t2 1. Proof. exact even01. Qed.
Lemma tiny : 0 < TOL < 1 / 100000.
Proof. split; [apply TOL_pos|]. unfold TOL. apply (Rmult_lt_reg_r (10 ^ 12)); [apply pow_lt; lra|]. rewrite Rinv_l by (apply pow_nonzero; lra). lra. Qed.
Lemma rising3 c a : rising (ax_n r3) (ax_n t2) (ax_n t2) (tab3 c a) 1 a a.
Proof.
  intros i j k u v I J J' K A B. change (ax_n r3) with 3%Z in *. change (ax_n t2) with 2%Z in *.
  destruct (rd_some r3 i) as (x & X); [cbn; lia|]. destruct (rd_some t2 j) as (y & Y); [cbn; lia|]. destruct (rd_some t2 (j + 1)) as (y' & Y'); [cbn; lia|]. destruct (rd_some t2 k) as (z & Z); [cbn; lia|].
  destruct (at_slab c a i j k x y z X Y Z) as (_ & EY & H1). destruct (at_slab c a i (j + 1) k x y' z X Y' Z) as (_ & EY' & H2). rewrite A in H1. rewrite B in H2. injection H1 as ->. injection H2 as ->.
  rewrite EY, EY', plus_IZR. lra.
Qed.
Lemma ends3 c a : 0 < a -> find_min (tab3 c a) = c - 2 /\ find_max (tab3 c a) = c + a.
Proof.
  intros A. destruct (minmax_of (tab3 c a)) as (I & J & F); [discriminate|].
  assert (P : In (c - 2) (tab3 c a)) by (cbn; tauto). assert (Q : In (c + a) (tab3 c a)) by (cbn; tauto).
  apply (proj1 (Forall_forall _ _) F) in P. apply (proj1 (Forall_forall _ _) F) in Q. cbv beta in *.
  assert (B : forall v, In v (tab3 c a) -> c - 2 <= v <= c + a) by (cbn; intros v H; repeat destruct H as [<-|H]; try lra; destruct H).
  apply B in I. apply B in J. lra.
Qed.
(** the entropy along the coldest and the hottest line *)
Lemma line c a lT ye x : catch_lrho r3 x <> 2 -> ent_f_adiabat r3 t2 t2 (tab3 c a) lT ye x = c + a * catch_in t2 lT - catch_lrho r3 x.
Proof.
  intros N. unfold ent_f_adiabat. destruct (tab3_ok c a) as (F & G). pose proof tiny.
  rewrite (interp_exact r3 t2 t2 1 1 1 even3 even2 even2 ltac:(lra) ltac:(lra) ltac:(lra) _ _ _ _ _ F G N). reflexivity.
Qed.
Lemma min_r3 : ax_min r3 = 0. Proof. reflexivity. Qed.
Lemma max_r3 : ax_max r3 = 2. Proof. reflexivity. Qed.
Lemma min_t2 : ax_min t2 = 0. Proof. reflexivity. Qed.
Lemma max_t2 : ax_max t2 = 1. Proof. reflexivity. Qed.
Lemma catch_cold : catch_in t2 (ax_min t2) = 0.
Proof. unfold catch_in. rewrite min_t2, max_t2. destruct (Rltb_spec 0 0); [lra|]. destruct (Rleb_spec 1 0); lra. Qed.
Lemma catch_hot : catch_in t2 (ax_max t2) = 1 - TOL.
Proof. unfold catch_in. rewrite min_t2, max_t2. destruct (Rltb_spec 1 0); [lra|]. destruct (Rleb_spec 1 1); lra. Qed.
Lemma catch_mid x : 0 <= x <= 2 -> catch_lrho r3 x = x.
Proof. intros B. unfold catch_lrho. rewrite min_r3, max_r3. destruct (Rltb_spec x 0); [lra|]. destruct (Rltb_spec 2 x); [lra|reflexivity]. Qed.
Lemma TT_T : TABLE_TOL = 100 * TOL.
Proof. apply InvProofs.TT_TOL. Qed.
(** the ends of the interval are tried first *)
Lemma root_top f y xmin xmax xtol ytol n g : Rabs (f xmax - y) / (Rabs (f xmax) + ytol) < ytol -> find_root f y xmin xmax xtol ytol n g = Success xmax.
Proof. intros H. unfold find_root. destruct (Rltb_spec (Rabs (f xmax - y) / (Rabs (f xmax) + ytol)) ytol) as [_|N]; [reflexivity|exfalso; auto]. Qed.
Lemma root_bottom f y xmin xmax xtol ytol n g : ~ Rabs (f xmax - y) / (Rabs (f xmax) + ytol) < ytol -> Rabs (f xmin - y) / (Rabs (f xmin) + ytol) < ytol -> find_root f y xmin xmax xtol ytol n g = Success xmin.
Proof.
  intros K H. unfold find_root. destruct (Rltb_spec (Rabs (f xmax - y) / (Rabs (f xmax) + ytol)) ytol) as [|_]; [exfalso; auto|].
  destruct (Rltb_spec (Rabs (f xmin - y) / (Rabs (f xmin) + ytol)) ytol) as [_|N]; [reflexivity|exfalso; auto].
Qed.
Lemma not_close v y ytol : 0 < ytol < 1 / 10 -> 0 <= v -> 1 / 2 <= Rabs (v - y) -> v <= 15 -> ytol * 31 <= 1 -> ~ Rabs (v - y) / (Rabs v + ytol) < ytol.
Proof.
  intros Y V D B Z H. rewrite (Rabs_right v) in H by lra. apply (Rmult_lt_compat_r (v + ytol)) in H; [|lra]. unfold Rdiv in H. rewrite Rmult_assoc, Rinv_l, Rmult_1_r in H by lra.
  assert (ytol * (v + ytol) <= ytol * (15 + 1 / 10)) by (apply Rmult_le_compat_l; lra). lra.
Qed.
Lemma close_same v y ytol : 0 < ytol -> v = y -> Rabs (v - y) / (Rabs v + ytol) < ytol.
Proof. intros Y ->. unfold Rminus. rewrite Rplus_opp_r, Rabs_R0. unfold Rdiv. rewrite Rmult_0_l. exact Y. Qed.

Section Any.
Variable hm1 : list R.
Hypothesis SH : length hm1 = 12%nat.
Variable ye : R.
(** ** The highest entropy: a read before the axis *)
Lemma highest s : 4 <= s -> exists n, forall k, EOS_SC_find_adiabat_1d r3 t2 t2 (tab3 3 1) hm1 (n + k) s ye = Outside.
Proof.
  intros S. pose proof tiny as TN. pose proof TT_T as TE.
  destruct (interval_ends r3 t2 t2 1 even3 (tab3 3 1) hm1 eq_refl SH ltac:(lra) s ye) as (N & lo & hi & I). exists N. intros k.
  apply (outside_iff r3 t2 t2 1 1 1 even3 even2 even2 ltac:(lra) ltac:(lra) ltac:(lra) (tab3 3 1) hm1 eq_refl SH 1 1 ltac:(lra) (rising3 3 1) (N + k)%nat s ye lo hi (I k)).
  specialize (I k). unfold adiabat_lrho_min_max in I. cbv zeta in I.
  assert (CS : catch_s (tab3 3 1) s = 4 - TOL).
  { unfold catch_s. destruct (ends3 3 1 ltac:(lra)) as (-> & ->). destruct (Rltb_spec s (3 - 2)); [lra|]. destruct (Rleb_spec (3 + 1) s); lra. }
  rewrite CS in I. destruct (low_of _ _); [|discriminate].
  assert (H : forall g, ent_root r3 t2 t2 (tab3 3 1) (N + k) (4 - TOL) (catch_in t2 ye) (ax_max t2) g = Success 0).
  { intros g. unfold ent_root. rewrite min_r3, max_r3. apply root_bottom.
    - rewrite line by (rewrite catch_mid; lra). rewrite catch_hot, catch_mid by lra. apply not_close; try lra. rewrite Rabs_left by lra. lra.
    - rewrite line by (rewrite catch_mid; lra). rewrite catch_hot, catch_mid by lra. apply close_same; lra. }
  rewrite H in I. cbn [high_of] in I. rewrite max_r3 in I. destruct (Rltb_spec 2 0); [lra|]. injection I as _ <-. rewrite catch_mid by lra. reflexivity.
Qed.
(** ** The lowest entropy: no node at all *)
Lemma lowest s : s <= 1 -> exists n a, (forall k, EOS_SC_find_adiabat_1d r3 t2 t2 (tab3 3 1) hm1 (n + k) s ye = Traced a) /\
  (ad_imax a < ad_imin a)%Z /\ ad_lT a = [] /\ ad_hm1_min a = PInf /\ ad_hm1_max a = NInf.
Proof.
  intros S. pose proof tiny as TN. pose proof TT_T as TE.
  destruct (interval_ends r3 t2 t2 1 even3 (tab3 3 1) hm1 eq_refl SH ltac:(lra) s ye) as (N & lo & hi & I).
  assert (CS : catch_s (tab3 3 1) s = 1).
  { unfold catch_s. destruct (ends3 3 1 ltac:(lra)) as (-> & ->). destruct (Rltb_spec s (3 - 2)); [lra|]. destruct (Rleb_spec (3 + 1) s); lra. }
  assert (L : lo = 2 - 2 * TOL /\ 0 < hi <= 2).
  { pose proof (I 0%nat) as J. destruct (interval_in r3 t2 t2 1 even3 ltac:(lra) (tab3 3 1) _ s ye lo hi J) as (_ & BH). rewrite min_r3, max_r3 in BH.
    unfold adiabat_lrho_min_max in J. cbv zeta in J. rewrite CS in J. set (g := 5 / 10 * _) in J.
    assert (H : ent_root r3 t2 t2 (tab3 3 1) (N + 0) 1 (catch_in t2 ye) (ax_min t2) g = Success (2 - 2 * TOL)).
    { unfold ent_root. rewrite min_r3, max_r3. apply root_top. rewrite line by (rewrite catch_mid; lra). rewrite catch_cold, catch_mid by lra.
      replace (3 + 1 * 0 - (2 - 2 * TOL)) with (1 + 2 * TOL) by ring. rewrite (Rabs_right (1 + 2 * TOL - 1)), (Rabs_right (1 + 2 * TOL)) by lra.
      apply (Rmult_lt_reg_r (1 + 2 * TOL + TABLE_TOL)); [lra|]. unfold Rdiv. rewrite Rmult_assoc, Rinv_l by lra.
      assert (TABLE_TOL * 1 < TABLE_TOL * (1 + 2 * TOL + TABLE_TOL)) by (apply Rmult_lt_compat_l; lra). lra. }
    rewrite H in J. cbn [low_of] in J. rewrite min_r3 in J. destruct (Rltb_spec (2 - 2 * TOL) 0); [lra|].
    destruct (high_of r3 _) as [h|] eqn:HH; [|discriminate]. injection J as <- <-. split; [apply catch_mid; lra|]. split; [|lra].
    assert (HP : 0 < h).
    { unfold high_of in HH. destruct (ent_root _ _ _ _ _ _ _ _ _) as [x| |] eqn:RT; [|injection HH as <-; rewrite max_r3; lra|discriminate].
      injection HH as <-. rewrite max_r3. destruct (Rltb_spec 2 x); [lra|]. apply Rnot_le_lt. intros XN.
      unfold ent_root in RT. rewrite min_r3, max_r3 in RT. set (f := ent_f_adiabat r3 t2 t2 (tab3 3 1) (ax_max t2) (catch_in t2 ye)) in *.
      assert (FV : forall z, z < 2 -> f z = 4 - TOL - catch_lrho r3 z /\ 0 <= catch_lrho r3 z < 2 /\ (z <= 0 -> catch_lrho r3 z = 0)).
      { intros z ZL. assert (C : 0 <= catch_lrho r3 z < 2 /\ (z <= 0 -> catch_lrho r3 z = 0)).
        { unfold catch_lrho. rewrite min_r3, max_r3. destruct (Rltb_spec z 0); [lra|]. destruct (Rltb_spec 2 z); lra. }
        split; [|exact C]. unfold f. rewrite line by lra. rewrite catch_hot. ring. }
      assert (RE : forall z, z < 2 -> ~ rel_error f 1 TABLE_TOL z <= TABLE_TOL).
      { intros z ZL Q. destruct (FV z ZL) as (V & C & _). unfold rel_error in Q. rewrite V in Q. set (c := catch_lrho r3 z) in *.
        rewrite (Rabs_right (4 - TOL - c - 1)), (Rabs_right (4 - TOL - c)) in Q by lra.
        apply (Rmult_le_compat_r (4 - TOL - c + TABLE_TOL)) in Q; [|lra]. unfold Rdiv in Q. rewrite Rmult_assoc, Rinv_l in Q by lra.
        assert (TABLE_TOL * (4 - TOL - c + TABLE_TOL) <= TABLE_TOL * 5) by (apply Rmult_le_compat_l; lra). lra. }
      destruct (find_result f 1 0 (2 - 2 * TOL) TABLE_TOL TABLE_TOL ltac:(lra) ltac:(lra) _ _ _ RT) as [(Q & W)|[W|[(a & D & QN & W)|(XB & a & b & CR & _ & _ & W)]]].
      - destruct Q as [-> | ->]; [lra|]. apply (RE 0); lra.
      - apply (RE x); [lra|exact W].
      - set (q := quotient f (Rabs (/ 10 ^ 7 * a) + TABLE_TOL) a) in *. set (h := Rabs (/ 10 ^ 7 * a) + TABLE_TOL) in *.
        assert (A1 : a <= TABLE_TOL) by (revert D; unfold Rabs; destruct (Rcase_abs (x - a)); lra).
        assert (P7 : 0 < / 10 ^ 7 <= 1). { split; [apply Rinv_0_lt_compat, pow_lt; lra|]. rewrite <- Rinv_1. apply Rinv_le_contravar; [lra|]. lra. }
        assert (HB : 0 < h /\ a + h < 1 /\ (0 <= a -> h <= 2 * TABLE_TOL)).
        { unfold h. rewrite Rabs_mult, (Rabs_right (/ 10 ^ 7)) by lra. pose proof (Rabs_pos a). assert (0 <= / 10 ^ 7 * Rabs a) by (apply Rmult_le_pos; lra).
          assert (/ 10 ^ 7 * Rabs a <= 1 * Rabs a) by (apply Rmult_le_compat_r; lra).
          split; [lra|]. split; [|intros; rewrite Rabs_right in * by lra; lra]. destruct (Rle_lt_dec 0 a); [rewrite Rabs_right in * by lra; lra|rewrite Rabs_left in * by lra; lra]. }
        destruct HB as (HP & HA & _).
        assert (QB : Rabs q <= 1).
        { unfold q, quotient. destruct (FV (a + h) ltac:(lra)) as (-> & _ & _). destruct (FV (a - h) ltac:(lra)) as (-> & _ & _).
          assert (C2 : 0 <= catch_lrho r3 (a + h) - catch_lrho r3 (a - h) <= 2 * h).
          { unfold catch_lrho. rewrite min_r3, max_r3. destruct (Rltb_spec (a + h) 0), (Rltb_spec (a - h) 0), (Rltb_spec 2 (a + h)), (Rltb_spec 2 (a - h)); lra. }
          set (d := catch_lrho r3 (a + h)) in *. set (e := catch_lrho r3 (a - h)) in *. replace (4 - TOL - d - (4 - TOL - e)) with (- (d - e)) by ring.
          unfold Rdiv. rewrite Rabs_mult, Rabs_Ropp, (Rabs_right (d - e)), (Rabs_right (/ (2 * h))) by (try lra; apply Rle_ge, Rlt_le, Rinv_0_lt_compat; lra).
          apply (Rmult_le_reg_r (2 * h)); [lra|]. rewrite Rmult_assoc, Rinv_l by lra. lra. }
        destruct (FV a ltac:(lra)) as (V & C & _).
        assert (E : f a - 1 = (a - x) * q) by (rewrite W; field; exact QN).
        assert (B1 : Rabs (f a - 1) <= TABLE_TOL * 1).
        { rewrite E, Rabs_mult. apply Rmult_le_compat; try apply Rabs_pos; [rewrite Rabs_minus_sym; exact D|exact QB]. }
        rewrite V, Rabs_right in B1 by lra. lra.
      - destruct W as (AB & BB); [left; lra|]. unfold crosses in CR. destruct (FV a ltac:(lra)) as (VA & CA & _). destruct (FV b ltac:(lra)) as (VB & CB & _). rewrite VA, VB in CR.
        assert (0 < (4 - TOL - catch_lrho r3 a - 1) * (4 - TOL - catch_lrho r3 b - 1)) by (apply Rmult_lt_0_compat; lra). lra. }
    unfold catch_lrho. rewrite min_r3, max_r3. destruct (Rltb_spec h 0); [lra|]. destruct (Rltb_spec 2 h); lra. }
  destruct L as (L & HP).
  assert (NN : forall i x, rd r3 i = Some x -> ~ (lo <= x < hi)).
  { intros i x X B. pose proof (rd_in _ _ _ X) as IB. rewrite (node_at r3 1 even3 i IB) in X. injection X as <-. rewrite min_r3 in B. cbn in IB.
    assert (Q : (i <= 1 \/ 2 <= i)%Z) by lia. destruct Q as [Q|Q]; apply IZR_le in Q; lra. }
  destruct (adiabat_found r3 t2 t2 1 1 1 even3 even2 even2 ltac:(lra) ltac:(lra) ltac:(lra) (tab3 3 1) hm1 eq_refl SH 1 1 ltac:(lra) ltac:(lra) (rising3 3 1) 1 4) with (N := N) (lo := lo) (hi := hi) (s := s) (ye := ye) as (n & a & A); auto.
  - lra.
  - apply Forall_forall. cbn. intros v H. repeat destruct H as [<-|H]; try lra; destruct H.
  - lra.
  - left. rewrite max_t2. lra.
  - rewrite min_r3. lra.
  - intros i x X B. exfalso. apply (NN i x X B).
  - exists n, a. split; [exact A|]. specialize (A N). rewrite Nat.add_comm in A.
    destruct (traced_ok r3 t2 t2 1 1 1 even3 even2 even2 ltac:(lra) ltac:(lra) ltac:(lra) (tab3 3 1) hm1 eq_refl SH 1 1 ltac:(lra) ltac:(lra) (rising3 3 1) _ s ye a A) as (lo' & hi' & J & _ & _ & R0 & R1 & IX & LN & _ & B).
    rewrite (I n) in J. injection J as <- <-.
    assert (Q : (ad_imax a < ad_imin a)%Z).
    { destruct (Z.lt_ge_cases (ad_imax a) (ad_imin a)) as [|Q]; [auto|]. exfalso. apply (NN _ _ R0). apply (IX _ _ R0). lia. }
    assert (LT : ad_lT a = []) by (apply length_zero_iff_nil; lia).
    split; [exact Q|]. split; [exact LT|]. destruct B as [(_ & B)|((q & x & t & W & _) & _)]; [exact B|]. rewrite LT in W. destruct q; discriminate.
Qed.
(** ** An adiabat from the coldest to the hottest *)
Lemma whole : exists n a, (forall k, EOS_SC_find_adiabat_1d r3 t2 t2 (tab3 10 2) hm1 (n + k) 10 ye = Traced a) /\ ad_imin a = 0%Z /\ ad_imax a = 1%Z /\ length (ad_lT a) = 2%nat.
Proof.
  pose proof tiny as TN. pose proof TT_T as TE.
  assert (CS : catch_s (tab3 10 2) 10 = 10).
  { unfold catch_s. destruct (ends3 10 2 ltac:(lra)) as (-> & ->). destruct (Rltb_spec 10 (10 - 2)); [lra|]. destruct (Rleb_spec (10 + 2) 10); lra. }
  assert (I : forall k, adiabat_lrho_min_max r3 t2 t2 (tab3 10 2) (0 + k) 10 ye = Some (0, 2 - 2 * TOL)).
  { intros k. unfold adiabat_lrho_min_max. cbv zeta. rewrite CS. set (g := 5 / 10 * _).
    assert (H : ent_root r3 t2 t2 (tab3 10 2) (0 + k) 10 (catch_in t2 ye) (ax_min t2) g = Success 0).
    { unfold ent_root. rewrite min_r3, max_r3. apply root_bottom.
      - rewrite line by (rewrite catch_mid; lra). rewrite catch_cold, catch_mid by lra. apply not_close; try lra. rewrite Rabs_left by lra. lra.
      - rewrite line by (rewrite catch_mid; lra). rewrite catch_cold, catch_mid by lra. apply close_same; lra. }
    assert (H' : ent_root r3 t2 t2 (tab3 10 2) (0 + k) 10 (catch_in t2 ye) (ax_max t2) g = Success (2 - 2 * TOL)).
    { unfold ent_root. rewrite min_r3, max_r3. apply root_top. rewrite line by (rewrite catch_mid; lra). rewrite catch_hot, catch_mid by lra. apply close_same; lra. }
    rewrite H, H'. cbn [low_of high_of]. rewrite min_r3, max_r3. destruct (Rltb_spec 0 0); [lra|]. destruct (Rltb_spec 2 (2 - 2 * TOL)); [lra|]. rewrite !catch_mid by lra. reflexivity. }
  destruct (tab3_ok 10 2) as (F & G).
  destruct (adiabat_found r3 t2 t2 1 1 1 even3 even2 even2 ltac:(lra) ltac:(lra) ltac:(lra) (tab3 10 2) hm1 eq_refl SH 2 2 ltac:(lra) ltac:(lra) (rising3 10 2) 8 12) with (N := 0%nat) (lo := 0) (hi := 2 - 2 * TOL) (s := 10) (ye := ye) as (n & a & A); auto.
  - lra.
  - apply Forall_forall. cbn. intros v H. repeat destruct H as [<-|H]; try lra; destruct H.
  - lra.
  - left. rewrite max_t2. lra.
  - rewrite min_r3. lra.
  - intros i x X B. assert (N : x <> ax_max r3) by (rewrite max_r3; lra).
    rewrite !(interp_exact r3 t2 t2 1 1 1 even3 even2 even2 ltac:(lra) ltac:(lra) ltac:(lra) _ _ _ _ _ F G N). eexists. eexists. split; [reflexivity|]. split; [reflexivity|]. rewrite CS, min_t2, max_t2. lra.
  - exists n, a. split; [exact A|]. specialize (A 0%nat).
    destruct (traced_ok r3 t2 t2 1 1 1 even3 even2 even2 ltac:(lra) ltac:(lra) ltac:(lra) (tab3 10 2) hm1 eq_refl SH 2 2 ltac:(lra) ltac:(lra) (rising3 10 2) _ 10 ye a A) as (lo' & hi' & J & _ & _ & R0 & R1 & IX & LN & _ & B).
    pose proof (I (n + 0)%nat) as I0. rewrite Nat.add_0_l in I0. rewrite I0 in J. injection J as <- <-.
    assert (N0 : rd r3 0 = Some 0) by reflexivity. assert (N1 : rd r3 1 = Some 1) by reflexivity. assert (N2 : rd r3 2 = Some 2) by reflexivity.
    pose proof (proj2 (IX _ _ N0) ltac:(lra)) as Q0. pose proof (proj2 (IX _ _ N1) ltac:(lra)) as Q1.
    assert (Q2 : ~ (ad_imin a <= 2 <= ad_imax a)%Z) by (intros Q; apply (IX _ _ N2) in Q; lra).
    pose proof (rd_in _ _ _ R0). lia.
Qed.
End Any.
