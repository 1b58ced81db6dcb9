(** Proofs about the histograms of where packets were made. *)
From Coq Require Import Reals Bool ZArith List Arith Lia Lra.
From Verif Require Import RLib XLib IntLib BinModel RzModel RzSpec.
Import ListNotations.
Open Scope R_scope.

Lemma SMALL_pos : 0 < SMALL.
Proof. unfold SMALL. apply Rinv_0_lt_compat, pow_lt. lra. Qed.

(** ** Bins *)
Lemma bin_ok n m v : (0 < n)%nat -> (Z.of_nat n <= 2147483648)%Z -> SMALL <= m -> 0 <= v ->
  exists b, bin_of exact (MY_MIN v (Rabs m - SMALL)) (m / INR n) = Some (Z.of_nat b) /\ falls n m v b.
Proof.
  intros N NM M V. pose proof SMALL_pos as SP. rewrite MY_MIN_min, (Rabs_right m) by lra.
  assert (NP : 0 < INR n) by (apply lt_0_INR; exact N).
  set (d := m / INR n + SMALL). assert (D : 0 < d) by (unfold d; assert (0 < m / INR n) by (apply Rdiv_lt_0_compat; lra); lra).
  set (u := Rmin v (m - SMALL)). assert (U : 0 <= u) by (unfold u; apply Rmin_glb; lra).
  assert (UM : u <= m - SMALL) by apply Rmin_r.
  assert (Q : 0 <= u / d < IZR (Z.of_nat n)).
  { split; [apply Rmult_le_pos; [exact U|left; apply Rinv_0_lt_compat, D]|]. rewrite <- INR_IZR_INZ. apply Rmult_lt_reg_r with d; [exact D|].
    replace (u / d * d) with u by (field; lra). unfold d. replace (INR n * (m / INR n + SMALL)) with (m + INR n * SMALL) by (field; lra).
    assert (0 < INR n * SMALL) by (apply Rmult_lt_0_compat; lra). lra. }
  assert (F : (0 <= Z.of_nat n <= 2147483648)%Z) by lia.
  destruct (to_int_range (u / d) (Z.of_nat n) F Q) as (k & K & R & B).
  exists (Z.to_nat k). rewrite Z2Nat.id by lia. split.
  - unfold bin_of, xround, exact. fold d. cbn [xdiv]. destruct (Reqb_spec d 0); [lra|]. exact K.
  - unfold falls. change (/ 10 ^ 20) with SMALL. fold d u. split; [lia|]. rewrite S_INR, INR_IZR_INZ, Z2Nat.id by lia.
    assert (E : u / d * d = u) by (field; lra). rewrite <- E. split; [apply Rmult_le_compat_r; lra|apply Rmult_lt_compat_r; lra].
Qed.
Lemma falls_unique n m v a b : 0 < m / INR n -> falls n m v a -> falls n m v b -> a = b.
Proof.
  unfold falls. change (/ 10 ^ 20) with SMALL. pose proof SMALL_pos. set (d := m / INR n + SMALL). intros P (A & A1 & A2) (B & B1 & B2). assert (D : 0 < d) by (unfold d; lra).
  assert (INR a < INR (S b)) by (apply Rmult_lt_reg_r with d; lra). assert (INR b < INR (S a)) by (apply Rmult_lt_reg_r with d; lra).
  apply INR_lt in H0, H1. lia.
Qed.

(** ** One array *)
Lemma add_at_ok h b v : (b < length h)%nat -> exists h', add_at h (Z.of_nat b) v = Some h' /\ length h' = length h /\
  forall k, nth k h' 0 = nth k h 0 + (if (b =? k)%nat then v else 0).
Proof.
  intros B. unfold add_at, rd. destruct (Z.ltb_spec (Z.of_nat b) 0); [lia|]. rewrite Nat2Z.id.
  destruct (nth_error h b) as [a|] eqn:E; [|apply nth_error_None in E; lia].
  eexists. split; [reflexivity|]. split.
  - rewrite app_length, firstn_length. cbn [length]. rewrite skipn_length. lia.
  - intros k. apply nth_error_nth with (d := 0) in E. destruct (Nat.eqb_spec b k) as [<-|N].
    + rewrite app_nth2 by (rewrite firstn_length; lia). rewrite firstn_length, Nat.min_l, Nat.sub_diag by lia. cbn [nth]. lra.
    + rewrite Rplus_0_r. rewrite <- (firstn_skipn b h) at 3. destruct (le_lt_dec b k).
      * rewrite !app_nth2 by (rewrite firstn_length; lia). rewrite firstn_length, Nat.min_l by lia.
        destruct (k - b)%nat as [|q] eqn:Q; [lia|]. cbn [nth].
        assert (X : skipn b h = nth b h 0 :: skipn (S b) h).
        { clear -B. revert b B. induction h as [|x h IH]; intros b B; [cbn in B; lia|]. destruct b as [|b]; [reflexivity|]. cbn [skipn nth]. apply IH. cbn in B. lia. }
        rewrite X. reflexivity.
      * rewrite !app_nth1 by (rewrite firstn_length; lia). reflexivity.
Qed.

(** ** A process *)
Definition upto (c : cfg) (h h' : hists) (rb zb : packet -> nat) (ps : list packet) : Prop :=
  length (hr h') = nbins c /\ length (hz h') = nbins c /\ length (osc_hr h') = nbins c /\ length (osc_hz h') = nbins c /\
  forall b,
    nth b (hr h') 0 = nth b (hr h) 0 + weight (fun p => rb p =? b)%nat ps /\ nth b (hz h') 0 = nth b (hz h) 0 + weight (fun p => zb p =? b)%nat ps /\
    nth b (osc_hr h') 0 = nth b (osc_hr h) 0 + weight (fun p => has_oscillated p && (rb p =? b))%nat ps /\
    nth b (osc_hz h') 0 = nth b (osc_hz h) 0 + weight (fun p => has_oscillated p && (zb p =? b))%nat ps.
Definition sized (c : cfg) (h : hists) : Prop := length (hr h) = nbins c /\ length (hz h) = nbins c /\ length (osc_hr h) = nbins c /\ length (osc_hz h) = nbins c.
Section P.
Variables fl fs : R -> R.
Lemma walk_ok c gs rb zb ps : forall h, sized c h ->
  (forall p, In p ps -> (rb p < nbins c)%nat /\ (zb p < nbins c)%nat /\ ir fl fs c gs p = Some (Z.of_nat (rb p)) /\ iz fl c gs p = Some (Z.of_nat (zb p))) ->
  exists h', walk fl fs c gs ps h = Some h' /\ upto c h h' rb zb ps.
Proof.
  induction ps as [|p ps IH]; intros h (L1 & L2 & L3 & L4) H.
  - exists h. split; [reflexivity|]. repeat split; try assumption; cbn [weight fold_right]; lra.
  - destruct (H p (or_introl eq_refl)) as (RB & ZB & ER & EZ).
    destruct (add_at_ok (hr h) (rb p) (w p)) as (a & A & AL & AN); [lia|].
    destruct (add_at_ok (hz h) (zb p) (w p)) as (b & B & BL & BN); [lia|].
    assert (O : exists oa, (if has_oscillated p then add_at (osc_hr h) (Z.of_nat (rb p)) (w p) else Some (osc_hr h)) = Some oa /\ length oa = nbins c /\
      forall k, nth k oa 0 = nth k (osc_hr h) 0 + (if has_oscillated p && (rb p =? k)%nat then w p else 0)).
    { destruct (has_oscillated p).
      - destruct (add_at_ok (osc_hr h) (rb p) (w p)) as (oa & X & Y & Z); [lia|]. exists oa. split; [exact X|]. split; [lia|exact Z].
      - exists (osc_hr h). split; [reflexivity|]. split; [exact L3|]. intros k. cbn. lra. }
    assert (O' : exists ob, (if has_oscillated p then add_at (osc_hz h) (Z.of_nat (zb p)) (w p) else Some (osc_hz h)) = Some ob /\ length ob = nbins c /\
      forall k, nth k ob 0 = nth k (osc_hz h) 0 + (if has_oscillated p && (zb p =? k)%nat then w p else 0)).
    { destruct (has_oscillated p).
      - destruct (add_at_ok (osc_hz h) (zb p) (w p)) as (oa & X & Y & Z); [lia|]. exists oa. split; [exact X|]. split; [lia|exact Z].
      - exists (osc_hz h). split; [reflexivity|]. split; [exact L4|]. intros k. cbn. lra. }
    destruct O as (oa & OA & OAL & OAN). destruct O' as (ob & OB & OBL & OBN).
    destruct (IH (Hists a b oa ob)) as (h' & W & U1 & U2 & U3 & U4 & U).
    { unfold sized. cbn. repeat split; lia. }
    { intros q Q. apply H. now right. }
    exists h'. cbn [walk]. unfold one. rewrite ER, EZ, A, B, OA, OB. split; [exact W|].
    split; [exact U1|]. split; [exact U2|]. split; [exact U3|]. split; [exact U4|]. intros k. destruct (U k) as (V1 & V2 & V3 & V4). cbn [hr hz osc_hr osc_hz] in *.
    cbn [weight fold_right]. fold (weight (fun q => rb q =? k)%nat ps) (weight (fun q => zb q =? k)%nat ps) (weight (fun q => has_oscillated q && (rb q =? k))%nat ps) (weight (fun q => has_oscillated q && (zb q =? k))%nat ps).
    rewrite V1, V2, V3, V4, AN, BN, OAN, OBN. repeat split; lra.
Qed.
End P.

Lemma nth_vadd a : forall b k, length a = length b -> nth k (vadd a b) 0 = nth k a 0 + nth k b 0.
Proof.
  unfold vadd. induction a as [|x a IH]; intros [|y b] k L; cbn in L; try lia.
  - destruct k; cbn; lra.
  - destruct k; [reflexivity|]. cbn. apply IH. lia.
Qed.
Lemma length_vadd a b : length a = length b -> length (vadd a b) = length a.
Proof. intros L. unfold vadd. rewrite map_length, combine_length. lia. Qed.
Lemma nth_repeat0 n : forall k, nth k (repeat 0 n) 0 = 0.
Proof. induction n as [|n IH]; intros [|k]; cbn; auto. Qed.
Lemma weight_app sel a b : weight sel (a ++ b) = weight sel a + weight sel b.
Proof. unfold weight. induction a as [|p a IH]; cbn; [lra|]. rewrite IH. lra. Qed.

Section Q.
Variables fl fs : R -> R.
Lemma generate_ok c rb zb ps :
  (forall q p, In q ps -> In p (concat (threads q)) -> (rb p < nbins c)%nat /\ (zb p < nbins c)%nat /\ ir fl fs c (pgs q) p = Some (Z.of_nat (rb p)) /\ iz fl c (pgs q) p = Some (Z.of_nat (zb p))) ->
  exists h, generate_rz_histograms fl fs c ps (map (fun _ => cleared c) ps) = Some (map (fun _ => h) ps) /\ counts c rb zb (everyone ps) h.
Proof.
  intros H. assert (G : exists l, locals fl fs c ps (map (fun _ => cleared c) ps) = Some l /\ length l = length ps /\ counts c rb zb (everyone ps) (reduced c l)).
  { induction ps as [|q ps IH].
    - exists []. split; [reflexivity|]. split; [reflexivity|]. unfold counts, reduced, allreduce. cbn. rewrite !repeat_length. do 4 (split; [reflexivity|]). intros b _. rewrite nth_repeat0. repeat split; reflexivity.
    - destruct IH as (l & E & LL & C1 & C2 & C3 & C4 & C); [intros q' p I J; apply (H q' p); [now right|exact J]|].
      destruct (walk_ok fl fs c (pgs q) rb zb (concat (threads q)) (cleared c)) as (h & W & U1 & U2 & U3 & U4 & U).
      { unfold sized, cleared. cbn. rewrite !repeat_length. repeat split; reflexivity. }
      { intros p I. apply (H q p); [now left|exact I]. }
      exists (h :: l). cbn [map locals]. unfold local. rewrite W, E. split; [reflexivity|]. split; [cbn; lia|].
      unfold reduced in *. cbn [hr hz osc_hr osc_hz] in *. unfold counts. cbn [hr hz osc_hr osc_hz map]. unfold allreduce in *. cbn [fold_right].
      rewrite !length_vadd by lia. do 4 (split; [assumption|]). intros b B. rewrite !nth_vadd by lia.
      destruct (U b) as (V1 & V2 & V3 & V4). destruct (C b B) as (W1 & W2 & W3 & W4).
      unfold everyone. cbn [map concat]. rewrite !weight_app. fold (everyone ps). rewrite V1, V2, V3, V4, W1, W2, W3, W4.
      unfold cleared. cbn [hr hz osc_hr osc_hz]. rewrite nth_repeat0. repeat split; lra. }
  destruct G as (l & E & LL & C). exists (reduced c l). split; [|exact C]. unfold generate_rz_histograms. rewrite E. f_equal.
  clear - LL. generalize (reduced c l) as h. intros h. revert ps LL. induction l as [|x l IH]; intros [|q ps] LL; cbn in LL; try lia; [reflexivity|]. cbn. f_equal. apply IH. lia.
Qed.
Lemma dumps_ok c (good : list proc -> hists -> Prop) snaps : forall n, (0 < n)%nat ->
  (forall ps, In ps snaps -> length ps = n /\ exists h, generate_rz_histograms fl fs c ps (map (fun _ => cleared c) ps) = Some (map (fun _ => h) ps) /\ good ps h) ->
  exists l, dumps fl fs c snaps (repeat (cleared c) n) = Some l /\ Forall2 good snaps l.
Proof.
  intros n N. induction snaps as [|ps snaps IH]; intros H.
  - exists []. split; [reflexivity|constructor].
  - destruct IH as (l & E & F); [intros q Q; apply H; now right|]. destruct (H ps (or_introl eq_refl)) as (L & h & G & GO).
    assert (R : map (fun _ => cleared c) ps = repeat (cleared c) n) by (subst n; clear; induction ps; cbn; congruence).
    assert (R' : map (fun _ => h) ps = repeat h n) by (subst n; clear; induction ps; cbn; congruence).
    rewrite R, R' in G. exists (h :: l). cbn [dumps]. rewrite G. destruct n as [|n]; [lia|]. cbn [repeat]. cbn [map].
    replace (map (fun _ => cleared c) (repeat h n)) with (repeat (cleared c) n) by (clear; induction n; cbn; congruence).
    cbn [repeat] in E. rewrite E. split; [reflexivity|]. constructor; assumption.
Qed.
End Q.

(** ** Exact arithmetic *)
Definition fits (c : cfg) : Prop := (0 < nbins c)%nat /\ (Z.of_nat (nbins c) <= 2147483648)%Z /\ SMALL <= rz_rmax c /\ SMALL <= rz_zmax c.
Lemma here c gs p dir : gs dir = made_on p dir -> coord {| start := startx c; dx := delx c; gs := gs |} CENT (origin p) dir = birth c p dir.
Proof.
  intros E. unfold coord, coord1, birth, NG. cbn [start dx BinModel.gs centred]. rewrite E.
  replace (IZR (origin p dir + made_on p dir) + 1 / 2 - 3) with (IZR (origin p dir + made_on p dir) - 3 + 1 / 2) by lra. reflexivity.
Qed.
(** what cart_coord does depends only on the three coordinates *)
Definition pointwise (c : cfg) : Prop := forall x y, x 1%nat = y 1%nat -> x 2%nat = y 2%nat -> x 3%nat = y 3%nat -> forall a, (1 <= a <= 3)%nat -> cart_coord c x a = cart_coord c y a.
Lemma packet_ok c gs p : fits c -> pointwise c -> (forall dir, (1 <= dir <= 3)%nat -> gs dir = made_on p dir) ->
  exists r z, ir exact exact c gs p = Some (Z.of_nat r) /\ iz exact c gs p = Some (Z.of_nat z) /\ falls (nbins c) (rz_rmax c) (radius c p) r /\ falls (nbins c) (rz_zmax c) (height c p) z.
Proof.
  intros (N & NM & RM & ZM) PW M.
  assert (W : forall a, (1 <= a <= 3)%nat -> where_made c gs p a = cart_coord c (birth c p) a).
  { intros a A. unfold where_made. apply PW; try exact A; apply here, M; lia. }
  destruct (bin_ok (nbins c) (rz_rmax c) (radius c p) N NM RM) as (r & R & FR); [apply sqrt_pos|].
  destruct (bin_ok (nbins c) (rz_zmax c) (height c p) N NM ZM) as (z & Z & FZ); [apply Rabs_pos|].
  exists r, z. split; [|split; [|split; assumption]].
  - unfold ir. rewrite !W by lia. rewrite <- R. unfold rcyl, delta, sqrtf, exact, radius. do 2 f_equal. f_equal. lra.
  - unfold iz. rewrite W by lia. rewrite <- Z. reflexivity.
Qed.
Lemma hist_ok c rb zb ps : fits c -> pointwise c ->
  (forall q p, In q ps -> In p (concat (threads q)) -> (forall dir, (1 <= dir <= 3)%nat -> pgs q dir = made_on p dir) /\ falls (nbins c) (rz_rmax c) (radius c p) (rb p) /\ falls (nbins c) (rz_zmax c) (height c p) (zb p)) ->
  exists h, generate_rz_histograms exact exact c ps (map (fun _ => cleared c) ps) = Some (map (fun _ => h) ps) /\ counts c rb zb (everyone ps) h.
Proof.
  intros F PW H. apply generate_ok. intros q p Q I. destruct (H q p Q I) as (M & R & Z).
  destruct (packet_ok c (pgs q) p F PW M) as (r & z & ER & EZ & FR & FZ). destruct F as (N & _ & RM & ZM). pose proof SMALL_pos.
  assert (0 < INR (nbins c)) by (apply lt_0_INR; exact N).
  rewrite (falls_unique (nbins c) (rz_rmax c) (radius c p) r (rb p)) in ER; [|apply Rdiv_lt_0_compat; lra|exact FR|exact R].
  rewrite (falls_unique (nbins c) (rz_zmax c) (height c p) z (zb p)) in EZ; [|apply Rdiv_lt_0_compat; lra|exact FZ|exact Z].
  destruct R as (R & _), Z as (Z & _). auto.
Qed.
Lemma falls_ex c v m : fits c -> SMALL <= m -> 0 <= v -> exists! b, falls (nbins c) m v b.
Proof.
  intros (N & NM & _) M V. destruct (bin_ok (nbins c) m v N NM M V) as (b & _ & F). exists b. split; [exact F|]. intros b' F'.
  apply (falls_unique (nbins c) m v); try assumption. apply Rdiv_lt_0_compat; [pose proof SMALL_pos; lra|apply lt_0_INR, N].
Qed.

(** ** Totals *)
Lemma total_nth l : total l = fold_right (fun b s => nth b l 0 + s) 0 (seq 0 (length l)).
Proof.
  unfold total. induction l as [|x l IH]; [reflexivity|]. cbn [length seq fold_right nth]. rewrite IH. f_equal. rewrite <- seq_shift.
  generalize (seq 0 (length l)) as s. induction s as [|k s IHs]; [reflexivity|]. cbn [map fold_right nth]. rewrite IHs. reflexivity.
Qed.
Lemma sum_bins (bin : packet -> nat) sel n ps : (forall p, In p ps -> (bin p < n)%nat) ->
  fold_right (fun b s => weight (fun p => sel p && (bin p =? b)%nat) ps + s) 0 (seq 0 n) = weight sel ps.
Proof.
  induction ps as [|p ps IH]; intros H.
  - cbn. induction (seq 0 n) as [|b s IHs]; cbn; [reflexivity|]. rewrite IHs. lra.
  - assert (E : forall s, fold_right (fun b s => weight (fun q => sel q && (bin q =? b)%nat) (p :: ps) + s) 0 s =
      fold_right (fun b s => (if sel p && (bin p =? b)%nat then w p else 0) + s) 0 s + fold_right (fun b s => weight (fun q => sel q && (bin q =? b)%nat) ps + s) 0 s).
    { induction s as [|b s IHs]; cbn [fold_right]; [lra|]. rewrite IHs. cbn [weight fold_right]. fold (weight (fun q => sel q && (bin q =? b)%nat) ps). lra. }
    rewrite E, IH by (intros q Q; apply H; now right). cbn [weight fold_right]. fold (weight sel ps). f_equal.
    pose proof (H p (or_introl eq_refl)) as B. clear -B.
    assert (G : forall m s, fold_right (fun b s => (if sel p && (bin p =? b)%nat then w p else 0) + s) 0 (seq s m) = if (s <=? bin p)%nat && (bin p <? s + m)%nat && sel p then w p else 0).
    { induction m as [|m IHm]; intros s.
      - cbn [seq fold_right]. destruct (Nat.leb_spec s (bin p)), (Nat.ltb_spec (bin p) (s + 0)); cbn; try reflexivity; lia.
      - cbn [seq fold_right]. rewrite IHm. destruct (sel p); cbn [andb]; rewrite ?andb_false_r; [|lra]. rewrite ?andb_true_r.
        destruct (Nat.eqb_spec (bin p) s), (Nat.leb_spec (S s) (bin p)), (Nat.leb_spec s (bin p)), (Nat.ltb_spec (bin p) (S s + m)), (Nat.ltb_spec (bin p) (s + S m)); cbn; try lia; lra. }
    rewrite G. destruct (Nat.leb_spec 0 (bin p)), (Nat.ltb_spec (bin p) (0 + n)); cbn; try lia. reflexivity.
Qed.
Lemma totals c rb zb ps h : counts c rb zb ps h -> (forall p, In p ps -> (rb p < nbins c)%nat /\ (zb p < nbins c)%nat) ->
  total (hr h) = weight (fun _ => true) ps /\ total (hz h) = weight (fun _ => true) ps /\
  total (osc_hr h) = weight has_oscillated ps /\ total (osc_hz h) = weight has_oscillated ps.
Proof.
  intros (L1 & L2 & L3 & L4 & C) B. rewrite !total_nth, L1, L2, L3, L4.
  assert (S : forall f g, (forall b, (b < nbins c)%nat -> f b = g b) -> fold_right (fun b s => f b + s) 0 (seq 0 (nbins c)) = fold_right (fun b s => g b + s) 0 (seq 0 (nbins c))).
  { intros f g E. assert (I : forall b, In b (seq 0 (nbins c)) -> (b < nbins c)%nat) by (intros b I; apply in_seq in I; lia). revert I. generalize (seq 0 (nbins c)) as s.
    induction s as [|b s IH]; intros I; cbn; [reflexivity|]. rewrite (E b) by (apply I; now left). rewrite IH; [reflexivity|]. intros b' B'. apply I. now right. }
  split; [|split; [|split]].
  - rewrite (S _ (fun b => weight (fun p => true && (rb p =? b)%nat) ps)) by (intros b Hb; apply (C b Hb)). apply sum_bins. intros p I. apply B, I.
  - rewrite (S _ (fun b => weight (fun p => true && (zb p =? b)%nat) ps)) by (intros b Hb; apply (C b Hb)). apply sum_bins. intros p I. apply B, I.
  - rewrite (S _ (fun b => weight (fun p => has_oscillated p && (rb p =? b)%nat) ps)) by (intros b Hb; apply (C b Hb)). apply sum_bins. intros p I. apply B, I.
  - rewrite (S _ (fun b => weight (fun p => has_oscillated p && (zb p =? b)%nat) ps)) by (intros b Hb; apply (C b Hb)). apply sum_bins. intros p I. apply B, I.
Qed.
