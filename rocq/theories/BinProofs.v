From Coq Require Import Reals Bool ZArith List Lia Lra.
From Verif Require Import RLib XLib IntLib BinModel BinSpec.
Open Scope R_scope.

Lemma frac x0 d x : 0 < d -> forall k, IZR k <= (x - x0) / d < IZR k + 1 <-> in_bin x0 d k x.
Proof.
  intros D k. unfold in_bin. assert (E : x = x0 + (x - x0) / d * d) by (field; lra). set (q := (x - x0) / d) in *. rewrite E. clearbody q. split.
  - intros (A & B). apply (Rmult_le_compat_r d) in A; [|lra]. apply (Rmult_lt_compat_r d) in B; [|lra]. lra.
  - intros (A & B). split; [apply (Rmult_le_reg_r d)|apply (Rmult_lt_reg_r d)]; lra.
Qed.
(** ** Zones *)
Lemma Xto1_in start d g i x : 0 < d -> (0 <= i <= 2147483647)%Z ->
  in_bin start d (i + g - NG) x -> Xto1 start d g (Fin x) = Some i.
Proof.
  intros D I B. apply (frac start d x D) in B. unfold Xto1, xsub. cbn [xopp xadd]. rewrite xdiv_fin by lra. cbn [xadd].
  apply to_int_unique; [exact I|]. replace (x + - start) with (x - start) by ring. rewrite minus_IZR, plus_IZR in B. lra.
Qed.
Lemma coord_in start d g half i : 0 < d -> in_bin start d (i + g - NG) (coord1 start d g half i).
Proof.
  intros D. unfold in_bin, coord1. rewrite minus_IZR. destruct half.
  - assert (0 < 1 / 2 * d) by lra. rewrite plus_IZR. lra.
  - rewrite plus_IZR. lra.
Qed.
Lemma centre_back m l ijk dir : 0 < dx m dir -> (0 <= ijk dir <= 2147483647)%Z ->
  Xtoijk m (fun n => Fin (coord m l ijk n)) dir = Some (ijk dir).
Proof. intros D I. unfold Xtoijk, coord. apply Xto1_in; auto. apply coord_in, D. Qed.
Lemma position m x ijk dir : 0 < dx m dir -> (0 <= ijk dir <= 2147483647)%Z ->
  coord m CORN ijk dir <= x < coord m CORN (fun n => (ijk n + 1)%Z) dir -> Xtoijk m (fun _ => Fin x) dir = Some (ijk dir).
Proof.
  intros D I B. unfold Xtoijk. apply Xto1_in; auto. unfold coord in B. cbn [centred] in B. unfold coord1 in B. unfold in_bin.
  replace (IZR (ijk dir + 1 + gs m dir - NG)) with (IZR (ijk dir + gs m dir - NG) + 1) in B by (rewrite !minus_IZR, !plus_IZR; lra). exact B.
Qed.
(** one zone beyond the ghost zones counts as the first one *)
Lemma below_refuted : exists m x dir, 0 < dx m dir /\ coord m CORN (fun _ => (-1)%Z) dir <= x < coord m CORN (fun _ => 0%Z) dir /\ Xtoijk m (fun _ => Fin x) dir = Some 0%Z.
Proof.
  exists (Build_grid (fun _ => 0) (fun _ => 1) (fun _ => 0%Z)), (- (7 / 2)), 1%nat. cbn [dx]. split; [lra|].
  unfold coord, Xtoijk. cbn [start dx gs centred]. unfold coord1. cbv zeta iota. change (IZR (-1 + 0 - NG)) with (-4). change (IZR (0 + 0 - NG)) with (-3). split; [split; lra|].
  unfold Xto1, xsub. cbn [xopp xadd]. rewrite xdiv_fin by lra. cbn [xadd]. change (IZR NG) with 3.
  unfold to_int, truncZ. replace ((- (7 / 2) + - 0) / 1 + 3 + - 0) with (- (1 / 2)) by field. rewrite Rltb_true by lra.
  rewrite (Int_part_unique (- - (1 / 2)) 0) by lra. reflexivity.
Qed.

(** ** Spectral bins *)
Lemma PI_pos : 0 < PI.
Proof. exact PI_RGT_0. Qed.
Section Spec.
Variables NTH NPHI NUB : Z.
Variables numin numax : R.
Hypothesis H1 : (0 < NTH <= 2147483647)%Z.
Hypothesis H2 : (0 < NPHI <= 2147483647)%Z.
Hypothesis H3 : (0 < NUB <= 2147483646)%Z.
Hypothesis H4 : 0 < numin < numax.
Lemma dth_pos : 0 < dth NTH.
Proof. unfold dth. apply Rmult_lt_0_compat; [exact PI_pos|]. apply Rinv_0_lt_compat, (IZR_lt 0). lia. Qed.
Lemma dphi_pos : 0 < dphi NPHI.
Proof. unfold dphi. apply Rmult_lt_0_compat; [pose proof PI_pos; lra|]. apply Rinv_0_lt_compat, (IZR_lt 0). lia. Qed.
Lemma ln_lt : ln numin < ln numax.
Proof. apply ln_increasing; lra. Qed.
Lemma dlnu_pos : 0 < dlnu NUB numin numax.
Proof. unfold dlnu. pose proof ln_lt. apply Rmult_lt_0_compat; [lra|]. apply Rinv_0_lt_compat, (IZR_lt 0). lia. Qed.
(** a value in [0, n d) *)
Lemma bin_value n d x : (0 < n <= 2147483647)%Z -> 0 < d -> 0 <= x < IZR n * d ->
  exists k, to_int (Fin (x / d)) = Some k /\ (0 <= k < n)%Z /\ in_bin 0 d k x.
Proof.
  intros N D (A & B).
  assert (Q : 0 <= x / d < IZR n).
  { split; [apply Rmult_le_pos; [lra|left; apply Rinv_0_lt_compat; lra]|]. apply (Rmult_lt_reg_r d); auto. unfold Rdiv. rewrite Rmult_assoc, Rinv_l by lra. lra. }
  destruct (to_int_range (x / d) n) as (k & E & K & F); [lia|auto|]. exists k. split; [auto|]. split; [auto|].
  apply (frac 0 d x D). replace (x - 0) with x by ring. exact F.
Qed.
Lemma th_bin th : 0 <= th < PI -> exists k, to_int (Fin (th / dth NTH)) = Some k /\ (0 <= k < NTH)%Z /\ in_bin 0 (dth NTH) k th.
Proof.
  intros B. apply bin_value; [auto|apply dth_pos|]. replace (IZR NTH * dth NTH) with PI; [auto|]. unfold dth. field.
  apply Rgt_not_eq, (IZR_lt 0). lia.
Qed.
Lemma phi_bin phi : 0 <= phi < 2 * PI -> exists k, to_int (Fin (phi / dphi NPHI)) = Some k /\ (0 <= k < NPHI)%Z /\ in_bin 0 (dphi NPHI) k phi.
Proof.
  intros B. apply bin_value; [auto|apply dphi_pos|]. replace (IZR NPHI * dphi NPHI) with (2 * PI); [auto|]. unfold dphi. field.
  apply Rgt_not_eq, (IZR_lt 0). lia.
Qed.
Lemma fmod_pos x m : 0 < m -> 0 <= x -> 0 <= fmod x m < m /\ exists n : Z, fmod x m = x + IZR n * m.
Proof.
  intros M P. unfold fmod. assert (Q : 0 <= x / m) by (apply Rmult_le_pos; [lra|left; apply Rinv_0_lt_compat; lra]).
  rewrite truncZ_pos by auto. pose proof (Int_part_bounds (x / m)) as (A & B). set (k := Int_part (x / m)) in *.
  assert (E : x = x / m * m) by (field; lra). apply (Rmult_le_compat_r m) in A; [|lra]. apply (Rmult_lt_compat_r m) in B; [|lra].
  split; [lra|]. exists (- k)%Z. rewrite opp_IZR. ring.
Qed.
(** frequencies from the lower end up: in their bin, or beyond the last one and left out *)
Lemma nu_bin nu : numin <= nu -> let q := to_int ((xlog nu - Fin (ln numin)) / Fin (dlnu NUB numin numax))%X in
  (q = None \/ exists k, q = Some k /\ (NUB <= k)%Z) /\ numax <= nu \/
  exists k, q = Some k /\ (0 <= k < NUB)%Z /\ in_bin (ln numin) (dlnu NUB numin numax) k (ln nu).
Proof.
  intros B q. unfold q. unfold xlog. rewrite Rltb_true by lra. unfold xsub. cbn [xopp xadd]. pose proof dlnu_pos as D. rewrite xdiv_fin by lra.
  replace (ln nu + - ln numin) with (ln nu - ln numin) by ring. set (d := dlnu NUB numin numax) in *.
  assert (W : ln numax = ln numin + IZR NUB * d). { unfold d, dlnu. field. apply Rgt_not_eq, (IZR_lt 0). lia. }
  assert (L : ln numin <= ln nu). { destruct B as [B|B]; [left; apply ln_increasing; lra|right; congruence]. }
  destruct (Rlt_le_dec nu numax) as [C|C].
  - right. assert (ln nu < ln numax) by (apply ln_increasing; lra).
    destruct (bin_value NUB d (ln nu - ln numin)) as (k & E & K & F); [lia|auto|lra|]. exists k. split; [auto|]. split; [auto|]. unfold in_bin in *. lra.
  - left. split; [|auto]. assert (M : ln numax <= ln nu). { destruct C as [C|C]; [left; apply ln_increasing; lra|right; congruence]. }
    assert (Q : IZR NUB <= (ln nu - ln numin) / d). { apply (Rmult_le_reg_r d); auto. unfold Rdiv. rewrite Rmult_assoc, Rinv_l by lra. lra. }
    set (v := (ln nu - ln numin) / d) in *.
    assert (P0 : 0 <= v) by (assert (0 <= IZR NUB) by (apply (IZR_le 0); lia); lra).
    unfold to_int. rewrite truncZ_pos by auto. pose proof (Int_part_bounds v) as (A1 & A2). cbv zeta.
    assert (NUB <= Int_part v)%Z. { assert (IZR NUB < IZR (Int_part v + 1)) by (rewrite plus_IZR; lra). apply lt_IZR in H. lia. }
    destruct (_ && _); [right; eexists; split; [reflexivity|auto]|left; reflexivity].
Qed.
Lemma record_in th x3 nu : 0 <= th < PI -> 0 <= x3 -> numin <= nu < numax ->
  exists a b c phi, record_superphoton NTH NPHI NUB numin numax th x3 nu = Recorded a b c /\
    (0 <= a < NTH)%Z /\ (0 <= b < NPHI)%Z /\ (0 <= c < NUB)%Z /\ same_angle phi x3 /\
    in_bin 0 (PI / IZR NTH) a th /\ in_bin 0 (2 * PI / IZR NPHI) b phi /\ in_bin (ln numin) ((ln numax - ln numin) / IZR NUB) c (ln nu).
Proof.
  intros T P N. destruct (th_bin th T) as (a & A1 & A2 & A3).
  destruct (fmod_pos x3 (2 * PI)) as (F1 & n & F2); [pose proof PI_pos; lra|auto|].
  destruct (phi_bin _ F1) as (b & B1 & B2 & B3).
  destruct (nu_bin nu (proj1 N)) as [(_ & C)|(c & C1 & C2 & C3)]; [lra|].
  exists a, b, c, (fmod x3 (2 * PI)). unfold record_superphoton, get_nuLnu_bin. cbn [fst snd]. rewrite A1, B1, C1. unfold choose.
  destruct (Z.leb_spec 0 c); [|lia]. destruct (Z.ltb_spec c NUB); [|lia]. cbn [andb].
  split; [reflexivity|]. split; [auto|]. split; [auto|]. split; [auto|]. split; [exists n; exact F2|]. auto.
Qed.
(** above the range: no bin, unless the conversion overflows *)
Lemma record_above th x3 nu : numax <= nu -> forall a b c, record_superphoton NTH NPHI NUB numin numax th x3 nu <> Recorded a b c.
Proof.
  intros N a b c. unfold record_superphoton. cbv zeta. generalize (fst (get_nuLnu_bin NTH NPHI th x3)) (snd (get_nuLnu_bin NTH NPHI th x3)). intros u v. destruct (nu_bin nu) as [([E|(k & E & K)] & _)|(k & E & K & F)]; [lra| | |].
  - rewrite E. unfold choose. destruct u, v; discriminate.
  - rewrite E. unfold choose. destruct u; [|discriminate]. destruct v; [|discriminate].
    destruct (Z.ltb_spec k NUB); [lia|]. rewrite andb_false_r. discriminate.
  - exfalso. pose proof dlnu_pos as D. destruct F as (_ & F).
    assert (W : ln numax = ln numin + IZR NUB * dlnu NUB numin numax). { unfold dlnu. field. apply Rgt_not_eq, (IZR_lt 0). lia. }
    assert (M : ln numax <= ln nu). { destruct N as [C|C]; [left; apply ln_increasing; lra|right; congruence]. }
    assert (IZR k + 1 <= IZR NUB) by (rewrite <- (plus_IZR k 1); apply IZR_le; lia).
    assert ((IZR k + 1) * dlnu NUB numin numax <= IZR NUB * dlnu NUB numin numax) by (apply Rmult_le_compat_r; lra). lra.
Qed.
(** directions *)
Lemma atan2_range y x : - PI < atan2 y x <= PI.
Proof.
  pose proof PI_pos as P. unfold atan2. destruct (Rltb_spec 0 x) as [A|A]; [pose proof (atan_bound (y / x)); lra|].
  destruct (Rltb_spec x 0) as [B|B].
  - pose proof (atan_bound (y / x)) as Q. destruct (Rltb_spec y 0) as [C|C].
    + assert (0 < y / x). { replace (y / x) with (- y * / - x) by (field; lra). apply Rmult_lt_0_compat; [lra|]. apply Rinv_0_lt_compat. lra. }
      assert (0 < atan (y / x)) by (rewrite <- atan_0; apply atan_increasing; lra). lra.
    + assert (y / x <= 0). { replace (y / x) with (- (y * / - x)) by (field; lra). assert (0 <= y * / - x) by (apply Rmult_le_pos; [lra|left; apply Rinv_0_lt_compat; lra]). lra. }
      assert (atan (y / x) <= 0). { rewrite <- atan_0. destruct H as [H| ->]; [left; apply atan_increasing; lra|right; reflexivity]. } lra.
  - destruct (Rltb 0 y); [lra|]. destruct (Rltb y 0); lra.
Qed.
Lemma atan_polar y x : 0 < x -> sqrt (x * x + y * y) * cos (atan (y / x)) = x /\ sqrt (x * x + y * y) * sin (atan (y / x)) = y.
Proof.
  intros P. rewrite cos_atan, sin_atan. assert (S : 0 < 1 + (y / x)²) by (pose proof (Rle_0_sqr (y / x)); lra).
  assert (E : sqrt (x * x + y * y) = x * sqrt (1 + (y / x)²)).
  { transitivity (sqrt (x * x) * sqrt (1 + (y / x)²)); [|rewrite sqrt_square by lra; reflexivity]. rewrite <- sqrt_mult; [|apply Rle_0_sqr|lra]. f_equal. unfold Rsqr. field. lra. }
  pose proof (sqrt_lt_R0 _ S). rewrite E. split; field; lra.
Qed.
Lemma atan2_polar y x : sqrt (x * x + y * y) * cos (atan2 y x) = x /\ sqrt (x * x + y * y) * sin (atan2 y x) = y.
Proof.
  unfold atan2. destruct (Rltb_spec 0 x) as [A|A]; [apply atan_polar, A|]. destruct (Rltb_spec x 0) as [B|B].
  - destruct (atan_polar (- y) (- x)) as (C & D); [lra|]. replace (- x * - x + - y * - y) with (x * x + y * y) in C, D by ring.
    replace (- y / - x) with (y / x) in C, D by (field; lra).
    assert (Q : forall a, cos (a + PI) = - cos a /\ sin (a + PI) = - sin a) by (intros a; rewrite neg_cos, neg_sin; auto).
    destruct (Rltb y 0); [|destruct (Q (atan (y / x))) as (Q1 & Q2); rewrite Q1, Q2; lra].
    destruct (Q (atan (y / x) - PI)) as (Q1 & Q2). replace (atan (y / x) - PI + PI) with (atan (y / x)) in Q1, Q2 by ring.
    assert (R1 : cos (atan (y / x) - PI) = - cos (atan (y / x))) by lra. assert (R2 : sin (atan (y / x) - PI) = - sin (atan (y / x))) by lra.
    rewrite R1, R2. lra.
  - assert (x = 0) as -> by lra. replace (0 * 0 + y * y) with (y * y) by ring. destruct (Rltb_spec 0 y) as [C|C].
    + rewrite sqrt_square, cos_PI2, sin_PI2 by lra. lra.
    + destruct (Rltb_spec y 0) as [D|D].
      * rewrite cos_neg, sin_neg, cos_PI2, sin_PI2. replace (y * y) with (- y * - y) by ring. rewrite sqrt_square by lra. lra.
      * assert (y = 0) as -> by lra. rewrite Rmult_0_l, sqrt_0. lra.
Qed.
Lemma sph_polar x y z th phi : cart_to_sph x y z = Some (th, phi) -> spherical x y z th phi.
Proof.
  unfold cart_to_sph, spherical. cbv zeta. set (r := sqrt (x * x + y * y + z * z)). destruct (Reqb_spec r 0) as [|N]; [discriminate|]. intros E.
  injection E as <- <-. pose proof (Rle_0_sqr x) as X2. pose proof (Rle_0_sqr y) as Y2. pose proof (Rle_0_sqr z) as Z2. unfold Rsqr in *.
  assert (P : 0 < r) by (pose proof (sqrt_pos (x * x + y * y + z * z)); unfold r in *; lra).
  assert (RR : r * r = x * x + y * y + z * z) by (apply sqrt_sqrt; lra).
  assert (C : -1 <= z / r <= 1).
  { assert (L : Rabs z <= r). { rewrite <- sqrt_Rsqr_abs. apply sqrt_le_1_alt. unfold Rsqr. lra. }
    pose proof (Rle_abs z). pose proof (Rle_abs (- z)) as Q. rewrite Rabs_Ropp in Q.
    split; apply (Rmult_le_reg_r r); auto; replace (z / r * r) with z by (field; lra); lra. }
  assert (S : r * sin (acos (z / r)) = sqrt (x * x + y * y)).
  { rewrite sin_acos by auto. transitivity (sqrt (r * r) * sqrt (1 - (z / r)²)); [rewrite sqrt_square by lra; reflexivity|]. rewrite <- sqrt_mult_alt by (apply Rle_0_sqr). f_equal.
    unfold Rsqr. replace (r * r * (1 - z / r * (z / r))) with (r * r - z * z) by (field; lra). lra. }
  pose proof (atan2_polar y x) as (A1 & A2). pose proof (atan2_range y x) as AR. pose proof PI_pos as PP.
  split; [apply acos_bound|]. rewrite S. split; [destruct (Rltb_spec (atan2 y x) 0); lra|].
  rewrite cos_acos by auto. split; [|split; [|field; lra]]; destruct (Rltb (atan2 y x) 0); try lra.
  - rewrite cos_plus, cos_2PI, sin_2PI. lra.
  - rewrite sin_plus, cos_2PI, sin_2PI. lra.
Qed.
Lemma direction_in x y z nu : (x <> 0 \/ y <> 0 \/ 0 < z) -> numin <= nu < numax ->
  exists a b c th phi, bin_direction NTH NPHI NUB numin numax x y z nu = Recorded a b c /\
    spherical x y z th phi /\
    (0 <= a < NTH)%Z /\ (0 <= b < NPHI)%Z /\ (0 <= c < NUB)%Z /\
    in_bin 0 (PI / IZR NTH) a th /\ in_bin 0 (2 * PI / IZR NPHI) b phi /\ in_bin (ln numin) ((ln numax - ln numin) / IZR NUB) c (ln nu).
Proof.
  intros K N. set (r := sqrt (x * x + y * y + z * z)).
  assert (S : 0 < x * x + y * y + z * z).
  { pose proof (Rle_0_sqr x) as X2. pose proof (Rle_0_sqr y) as Y2. pose proof (Rle_0_sqr z) as Z2. unfold Rsqr in *.
    destruct K as [K|[K|K]]; [pose proof (Rsqr_pos_lt _ K)|pose proof (Rsqr_pos_lt _ K)|assert (z <> 0) by lra; pose proof (Rsqr_pos_lt _ H)]; unfold Rsqr in *; lra. }
  assert (R0 : 0 < r) by (apply sqrt_lt_R0, S). assert (RR : r * r = x * x + y * y + z * z) by (apply sqrt_sqrt; lra).
  assert (C : -1 < z / r <= 1).
  { assert (E : z = z / r * r) by (field; lra). split; apply Rnot_ge_lt || apply Rnot_lt_le; intros L.
    - assert (z <= - r) by (rewrite E; assert (z / r * r <= -1 * r) by (apply Rmult_le_compat_r; lra); lra).
      assert (r * r <= z * z). { replace (z * z) with (- z * - z) by ring. apply Rmult_le_compat; lra. }
      pose proof (Rle_0_sqr x) as X2. pose proof (Rle_0_sqr y) as Y2. unfold Rsqr in *.
      assert (XX : x * x = 0) by lra. assert (YY : y * y = 0) by lra. apply Rmult_integral in XX, YY. destruct K as [K|[K|K]]; lra.
    - assert (r < z) by (rewrite E; assert (1 * r < z / r * r) by (apply Rmult_lt_compat_r; lra); lra).
      assert (r * r < z * z) by (apply Rmult_le_0_lt_compat; lra).
      pose proof (Rle_0_sqr x) as X2. pose proof (Rle_0_sqr y) as Y2. unfold Rsqr in *. lra. }
  assert (T : 0 <= acos (z / r) < PI).
  { pose proof PI_pos. destruct (Req_dec (z / r) 1) as [-> |]; [rewrite acos_1; lra|]. pose proof (acos_bound_lt (z / r)). lra. }
  set (phi := if Rltb (atan2 y x) 0 then atan2 y x + 2 * PI else atan2 y x).
  assert (P : 0 <= phi < 2 * PI). { unfold phi. pose proof (atan2_range y x). pose proof PI_pos. destruct (Rltb_spec (atan2 y x) 0); lra. }
  assert (E : cart_to_sph x y z = Some (acos (z / r), phi)).
  { unfold cart_to_sph. fold r. cbv zeta. fold phi. destruct (Reqb_spec r 0); [lra|reflexivity]. }
  destruct (th_bin _ T) as (a & A1 & A2 & A3). destruct (phi_bin _ P) as (b & B1 & B2 & B3).
  destruct (nu_bin nu (proj1 N)) as [(_ & X)|(c & C1 & C2 & C3)]; [lra|].
  exists a, b, c, (acos (z / r)), phi. unfold bin_direction. rewrite E, A1, B1, C1. unfold choose.
  destruct (Z.leb_spec 0 c); [|lia]. destruct (Z.ltb_spec c NUB); [|lia]. cbn [andb]. apply sph_polar in E. auto 20.
Qed.
End Spec.

Lemma ln_exp_1 : ln 1 = 0. Proof. exact ln_1. Qed.
Section Ex.
(** eight bins in each angle and one bin per unit of the logarithm of the frequency *)
Let d1 : dth 8 = PI / 8.
Proof. reflexivity. Qed.
Lemma nu_ex v k : (0 <= k <= 100)%Z -> IZR k <= v < IZR k + 1 -> to_int ((xlog (exp v) - Fin (ln 1)) / Fin (dlnu 200 1 (exp 200)))%X = Some k.
Proof.
  intros K B. unfold xlog. rewrite Rltb_true by apply exp_pos. rewrite ln_exp, ln_1. unfold dlnu. rewrite ln_exp, ln_1.
  unfold xsub. cbn [xopp xadd]. replace ((200 - 0) / 200) with 1 by field. rewrite xdiv_fin by lra. apply to_int_unique; [lia|]. lra.
Qed.
Lemma pole_refuted : record_superphoton 8 8 200 1 (exp 200) PI 0 (exp 0) = Recorded 8 0 0.
Proof.
  pose proof PI_pos as P. unfold record_superphoton, get_nuLnu_bin. cbn [fst snd]. rewrite (nu_ex 0 0) by (lia || lra).
  rewrite (to_int_unique (PI / dth 8) 8); [|lia|unfold dth; replace (PI / (PI / 8)) with 8 by (field; lra); lra].
  assert (F : fmod 0 (2 * PI) / dphi 8 = 0).
  { unfold fmod. replace (0 / (2 * PI)) with 0 by (field; lra). rewrite (truncZ_unique 0 0) by lra. unfold dphi. field. lra. }
  rewrite F, (to_int_unique 0 0) by (lia || lra). reflexivity.
Qed.
Lemma trunc_half : truncZ (- (1 / 2)) = 0%Z.
Proof. unfold truncZ. rewrite Rltb_true by lra. rewrite (Int_part_unique _ 0) by lra. reflexivity. Qed.
Lemma azimuth_refuted : record_superphoton 8 8 200 1 (exp 200) (PI / 2) (- PI) (exp 0) = Recorded 4 (-4) 0.
Proof.
  pose proof PI_pos as P. unfold record_superphoton, get_nuLnu_bin. cbn [fst snd]. rewrite (nu_ex 0 0) by (lia || lra).
  rewrite (to_int_unique (PI / 2 / dth 8) 4); [|lia|unfold dth; replace (PI / 2 / (PI / 8)) with 4 by (field; lra); lra].
  assert (F : fmod (- PI) (2 * PI) / dphi 8 = - (4)).
  { unfold fmod. replace (- PI / (2 * PI)) with (- (1 / 2)) by (field; lra). rewrite trunc_half. unfold dphi. field. lra. }
  rewrite F. unfold to_int, truncZ. rewrite Rltb_true by lra. rewrite (Int_part_unique (- - (4)) 4) by lra. reflexivity.
Qed.
(** a little below zero azimuth is the first bin instead of the last one *)
Lemma wrap_refuted : record_superphoton 8 8 200 1 (exp 200) (PI / 2) (- (PI / 8)) (exp 0) = Recorded 4 0 0 /\
  same_angle (2 * PI - PI / 8) (- (PI / 8)) /\ in_bin 0 (2 * PI / 8) 7 (2 * PI - PI / 8).
Proof.
  pose proof PI_pos as P. split; [|split; [exists 1%Z; lra|unfold in_bin; lra]].
  unfold record_superphoton, get_nuLnu_bin. cbn [fst snd]. rewrite (nu_ex 0 0) by (lia || lra).
  rewrite (to_int_unique (PI / 2 / dth 8) 4); [|lia|unfold dth; replace (PI / 2 / (PI / 8)) with 4 by (field; lra); lra].
  assert (F : fmod (- (PI / 8)) (2 * PI) / dphi 8 = - (1 / 2)).
  { unfold fmod. replace (- (PI / 8) / (2 * PI)) with (- (1 / 16)) by (field; lra).
    assert (T : truncZ (- (1 / 16)) = 0%Z) by (unfold truncZ; rewrite Rltb_true by lra; rewrite (Int_part_unique _ 0) by lra; reflexivity).
    rewrite T. unfold dphi. field. lra. }
  rewrite F. unfold to_int. rewrite trunc_half. reflexivity.
Qed.
(** half a bin below the lowest frequency counts as the first bin *)
Lemma low_refuted : record_superphoton 8 8 200 1 (exp 200) (PI / 2) 0 (exp (- (1 / 2))) = Recorded 4 0 0 /\ exp (- (1 / 2)) < 1.
Proof.
  pose proof PI_pos as P. split; [|pose proof (exp_increasing (- (1 / 2)) 0 ltac:(lra)) as Q; rewrite exp_0 in Q; exact Q].
  unfold record_superphoton, get_nuLnu_bin. cbn [fst snd].
  rewrite (to_int_unique (PI / 2 / dth 8) 4); [|lia|unfold dth; replace (PI / 2 / (PI / 8)) with 4 by (field; lra); lra].
  assert (F : fmod 0 (2 * PI) / dphi 8 = 0).
  { unfold fmod. replace (0 / (2 * PI)) with 0 by (field; lra). rewrite (truncZ_unique 0 0) by lra. unfold dphi. field. lra. }
  rewrite F, (to_int_unique 0 0) by (lia || lra).
  unfold xlog. rewrite Rltb_true by apply exp_pos. rewrite ln_exp, ln_1. unfold dlnu. rewrite ln_exp, ln_1.
  unfold xsub. cbn [xopp xadd]. replace ((200 - 0) / 200) with 1 by field. rewrite xdiv_fin by lra.
  replace ((- (1 / 2) + - 0) / 1) with (- (1 / 2)) by field. unfold to_int. rewrite trunc_half. reflexivity.
Qed.
Lemma down_refuted : bin_direction 8 8 200 1 (exp 200) 0 0 (-1) (exp 0) = Recorded 8 0 0.
Proof.
  pose proof PI_pos as P. unfold bin_direction, cart_to_sph.
  replace (0 * 0 + 0 * 0 + -1 * -1) with 1 by ring. rewrite sqrt_1. destruct (Reqb_spec 1 0); [lra|]. cbv zeta.
  replace (-1 / 1) with (- (1)) by field. rewrite acos_opp, acos_1.
  assert (A : atan2 0 0 = 0) by (unfold atan2; rewrite !(Rltb_false 0 0) by lra; reflexivity). rewrite A, (Rltb_false 0 0) by lra. rewrite (nu_ex 0 0) by (lia || lra).
  rewrite (to_int_unique ((PI - 0) / dth 8) 8); [|lia|unfold dth; replace ((PI - 0) / (PI / 8)) with 8 by (field; lra); lra].
  rewrite (to_int_unique (0 / dphi 8) 0); [reflexivity|lia|]. unfold dphi. replace (0 / (2 * PI / 8)) with 0 by (field; lra). lra.
Qed.
End Ex.

(** ** Local angular distributions *)
Lemma local_in n x d : (0 < n <= 2147483647)%Z -> 0 < d -> x <> NaN ->
  exists k, local_bin n x d = Some k /\ (0 <= k < n)%Z /\
    match x with
    | Fin r => (r < 0 -> k = 0%Z) /\ (0 <= r < IZR n * d -> in_bin 0 d k r) /\ (IZR n * d <= r -> k = (n - 1)%Z)
    | NInf => k = 0%Z
    | _ => k = (n - 1)%Z
    end.
Proof.
  intros N D X. unfold local_bin. assert (N1 : IZR (n - 1) = IZR n - 1) by (rewrite minus_IZR; reflexivity).
  assert (N0 : 1 <= IZR n) by (apply (IZR_le 1); lia).
  destruct x as [r| | |]; [| | |congruence].
  - rewrite xdiv_fin by lra. unfold xmin, xmax. cbn [xltb].
    set (q := r / d). assert (E : r = q * d) by (unfold q; field; lra). clearbody q. subst r.
    destruct (Rltb_spec (IZR (n - 1)) q) as [A|A]; cbn [xltb].
    + rewrite Rltb_false by lra. exists (n - 1)%Z. split; [apply to_int_unique; [lia|lra]|]. split; [lia|].
      split; [intros C; exfalso; assert (0 <= q * d) by (apply Rmult_le_pos; lra); lra|]. split; [|auto].
      intros (C1 & C2). apply Rmult_lt_reg_r in C2; [|auto]. unfold in_bin.
      assert (IZR (n - 1) * d < q * d) by (apply Rmult_lt_compat_r; lra). assert (q * d < (IZR (n - 1) + 1) * d) by (apply Rmult_lt_compat_r; lra). lra.
    + destruct (Rltb_spec q 0) as [B|B].
      * exists 0%Z. split; [apply to_int_unique; [lia|lra]|]. split; [lia|]. split; [auto|].
        assert (q * d < 0 * d) by (apply Rmult_lt_compat_r; lra). assert (0 < IZR n * d) by (apply Rmult_lt_0_compat; lra).
        split; intros; exfalso; lra.
      * destruct (to_int_range q n) as (k & E & K & F); [lia|lra|]. exists k. split; [exact E|]. split; [auto|].
        split; [intros C; exfalso; assert (0 <= q * d) by (apply Rmult_le_pos; lra); lra|]. split.
        -- intros _. unfold in_bin. destruct F as (F1 & F2). apply (Rmult_le_compat_r d) in F1; [|lra]. apply (Rmult_lt_compat_r d) in F2; lra.
        -- intros C. exfalso. apply Rmult_le_reg_r in C; lra.
  - assert (Q : (PInf / Fin d)%X = PInf) by (cbn; rewrite Rltb_false by lra; reflexivity). rewrite Q. unfold xmin, xmax. cbn [xltb]. rewrite Rltb_false by lra.
    exists (n - 1)%Z. split; [apply to_int_unique; [lia|lra]|]. split; [lia|reflexivity].
  - assert (Q : (NInf / Fin d)%X = NInf) by (cbn; rewrite Rltb_false by lra; reflexivity). rewrite Q. unfold xmin, xmax. cbn [xltb].
    exists 0%Z. split; [apply to_int_unique; [lia|lra]|]. split; [lia|reflexivity].
Qed.
Lemma local_nan n d : local_bin n NaN d = None.
Proof. unfold local_bin. cbn. reflexivity. Qed.
(** the centre the grid file gives for a bin (io.c:658-660, 711) lies in the bin *)
Lemma local_centre n d i : (0 < n <= 2147483647)%Z -> 0 < d -> (0 <= i < n)%Z -> local_bin n (Fin ((IZR i + 1 / 2) * d)) d = Some i.
Proof.
  intros N D I. destruct (local_in n (Fin ((IZR i + 1 / 2) * d)) d N D) as (k & E & K & _ & B & _); [discriminate|]. rewrite E. f_equal.
  assert (0 <= IZR i) by (apply (IZR_le 0); lia). assert (IZR i + 1 <= IZR n) by (rewrite <- (plus_IZR i 1); apply IZR_le; lia).
  assert (R : 0 <= (IZR i + 1 / 2) * d < IZR n * d) by (split; [apply Rmult_le_pos; lra|apply Rmult_lt_compat_r; lra]).
  specialize (B R). unfold in_bin in B. rewrite !Rplus_0_l in B. destruct B as (B1 & B2). apply Rmult_le_reg_r in B1; [|auto]. apply Rmult_lt_reg_r in B2; [|auto].
  assert (IZR k < IZR (i + 1)) by (rewrite plus_IZR; lra). assert (IZR i < IZR (k + 1)) by (rewrite plus_IZR; lra). apply lt_IZR in H1, H2. lia.
Qed.
Lemma SMALL_pos : 0 < SMALL.
Proof. unfold SMALL. apply Rinv_0_lt_compat, pow_lt. lra. Qed.
Lemma SMALL_1 : SMALL < / 1000.
Proof. unfold SMALL. apply Rinv_lt_contravar; [apply Rmult_lt_0_compat; [lra|apply pow_lt; lra]|]. replace 1000 with (10 ^ 3) by ring. apply Rlt_pow; [lra|lia]. Qed.
Lemma mu_in NMU c : (0 < NMU <= 2147483647)%Z -> c <> NaN -> exists k, mu_bin NMU c = Some k /\ (0 <= k < NMU)%Z /\
  forall r, c = Fin r -> -1 <= r < 1 -> in_bin (-1) (2 / IZR NMU) k r.
Proof.
  intros N C. assert (P : 0 < IZR NMU) by (apply (IZR_lt 0); lia).
  assert (D : 0 < 2 / IZR NMU) by (apply Rmult_lt_0_compat; [lra|apply Rinv_0_lt_compat, P]).
  destruct (local_in NMU (c + Fin 1)%X (2 / IZR NMU) N D) as (k & E & K & B); [destruct c; cbn; congruence|].
  exists k. split; [exact E|]. split; [exact K|]. intros r -> R. cbn [xadd] in B. destruct B as (_ & B & _).
  replace (IZR NMU * (2 / IZR NMU)) with 2 in B by (field; lra). specialize (B ltac:(lra)). unfold in_bin in *. lra.
Qed.

Lemma Rabs_le_inv a b : Rabs a <= b -> - b <= a <= b.
Proof. intros H. pose proof (Rle_abs a). pose proof (Rle_abs (- a)) as Q. rewrite Rabs_Ropp in Q. lra. Qed.
Lemma frac_le x : 0 < x -> 0 < x / (x + SMALL) <= 1.
Proof.
  intros H. pose proof SMALL_pos as S. split; [apply Rdiv_lt_0_compat; lra|]. apply (Rmult_le_reg_r (x + SMALL)); [lra|].
  unfold Rdiv. rewrite Rmult_assoc, Rinv_l by lra. lra.
Qed.
(** for a diagonal spatial metric the cosine is right up to the factor the SMALLs make *)
Lemma cosine_diag g Kcov Kcon a : diagonal g -> (1 <= a <= 3)%nat -> (forall b, (1 <= b <= 3)%nat -> Kcov b = basis_dot g Kcon b) ->
  0 < norm2 g Kcon ->
  costh g Kcov Kcon a = direction_cosine g Kcon a * (sqrt (g a a) / (sqrt (g a a) + SMALL)) * (sqrt (norm2 g Kcon) / (sqrt (norm2 g Kcon) + SMALL)).
Proof.
  intros D A C N. pose proof SMALL_pos as S.
  assert (Z : forall x y, (1 <= x <= 3)%nat -> (1 <= y <= 3)%nat -> x <> y -> g x y = 0) by (intros x y Hx Hy; apply D; auto).
  assert (P : forall x, (1 <= x <= 3)%nat -> 0 < g x x) by (intros x Hx; apply (D x x); auto).
  assert (Q : sum3 (fun mu => sum3 (fun nu => Rabs (g mu nu * Kcon mu * Kcon mu))) = norm2 g Kcon).
  { unfold sum3, norm2. rewrite (Z 1%nat 2%nat), (Z 1%nat 3%nat), (Z 2%nat 1%nat), (Z 2%nat 3%nat), (Z 3%nat 1%nat), (Z 3%nat 2%nat) by lia.
    assert (AA : forall x, (1 <= x <= 3)%nat -> Rabs (g x x * Kcon x * Kcon x) = g x x * Kcon x ^ 2).
    { intros x Hx. rewrite Rabs_right; [ring|]. apply Rle_ge. pose proof (P x Hx). rewrite Rmult_assoc. apply Rmult_le_pos; [lra|]. apply Rle_0_sqr. }
    rewrite !AA by lia. rewrite !Rmult_0_l, Rabs_R0. ring. }
  unfold costh, knorm. rewrite Q. rewrite (Rabs_right (sqrt (norm2 g Kcon))) by (apply Rle_ge, sqrt_pos).
  rewrite (Rabs_right (g a a)) by (apply Rle_ge; left; apply P, A).
  assert (E : sum3 (fun mu => (if Nat.eqb mu a then 1 / (sqrt (g a a) + SMALL) else 0) * Kcov mu) = Kcov a / (sqrt (g a a) + SMALL)).
  { assert (a = 1 \/ a = 2 \/ a = 3)%nat as [ -> | [ -> | -> ] ] by lia; unfold sum3; cbn [Nat.eqb]; unfold Rdiv; ring. }
  rewrite E, C by auto. unfold direction_cosine.
  pose proof (sqrt_lt_R0 _ (P a A)) as S1. pose proof (sqrt_lt_R0 _ N) as S2. field. lra.
Qed.
Lemma cauchy_diag g K a : diagonal g -> (1 <= a <= 3)%nat -> 0 < norm2 g K -> -1 <= direction_cosine g K a <= 1.
Proof.
  intros D A N.
  assert (Z : forall x y, (1 <= x <= 3)%nat -> (1 <= y <= 3)%nat -> x <> y -> g x y = 0) by (intros x y Hx Hy; apply D; auto).
  assert (P : forall x, (1 <= x <= 3)%nat -> 0 < g x x) by (intros x Hx; apply (D x x); auto).
  assert (E : basis_dot g K a = g a a * K a).
  { assert (a = 1 \/ a = 2 \/ a = 3)%nat as [ -> | [ -> | -> ] ] by lia; unfold basis_dot;
      [rewrite (Z 1%nat 2%nat), (Z 1%nat 3%nat) by lia|rewrite (Z 2%nat 1%nat), (Z 2%nat 3%nat) by lia|rewrite (Z 3%nat 1%nat), (Z 3%nat 2%nat) by lia]; ring. }
  assert (L : (g a a * K a) ^ 2 <= g a a * norm2 g K).
  { unfold norm2. rewrite (Z 1%nat 2%nat), (Z 1%nat 3%nat), (Z 2%nat 3%nat) by lia.
    assert (T : forall x, (1 <= x <= 3)%nat -> 0 <= g x x * K x ^ 2) by (intros x Hx; apply Rmult_le_pos; [left; auto|apply pow2_ge_0]).
    pose proof (T 1%nat ltac:(lia)). pose proof (T 2%nat ltac:(lia)). pose proof (T 3%nat ltac:(lia)). pose proof (P a A).
    replace ((g a a * K a) ^ 2) with (g a a * (g a a * K a ^ 2)) by ring. apply Rmult_le_compat_l; [lra|].
    assert (a = 1 \/ a = 2 \/ a = 3)%nat as [ -> | [ -> | -> ] ] by lia; lra. }
  unfold direction_cosine. rewrite E. rewrite <- sqrt_mult by (left; auto).
  assert (M : 0 < sqrt (g a a * norm2 g K)) by (apply sqrt_lt_R0, Rmult_lt_0_compat; auto).
  assert (B : Rabs (g a a * K a) <= sqrt (g a a * norm2 g K)).
  { rewrite <- sqrt_Rsqr_abs. apply sqrt_le_1_alt. unfold Rsqr. lra. }
  assert (F : Rabs (g a a * K a / sqrt (g a a * norm2 g K)) <= 1).
  { unfold Rdiv. rewrite Rabs_mult, (Rabs_right (/ _)) by (apply Rle_ge; left; apply Rinv_0_lt_compat, M).
    apply (Rmult_le_reg_r (sqrt (g a a * norm2 g K))); [auto|]. rewrite Rmult_assoc, Rinv_l by lra. lra. }
  apply Rabs_le_inv in F. lra.
Qed.
Lemma cosine_partial g Kcov Kcon a : diagonal g -> (1 <= a <= 3)%nat -> (forall b, (1 <= b <= 3)%nat -> Kcov b = basis_dot g Kcon b) ->
  0 < norm2 g Kcon ->
  -1 <= costh g Kcov Kcon a <= 1 /\
  Rabs (costh g Kcov Kcon a - direction_cosine g Kcon a) <= SMALL / sqrt (g a a) + SMALL / sqrt (norm2 g Kcon).
Proof.
  intros D A C N. pose proof (cauchy_diag g Kcon a D A N) as B. rewrite (cosine_diag g Kcov Kcon a D A C N).
  assert (P : 0 < g a a) by (apply (D a a); auto).
  pose proof (sqrt_lt_R0 _ P) as S1. pose proof (sqrt_lt_R0 _ N) as S2. pose proof SMALL_pos as S.
  pose proof (frac_le _ S1) as F1. pose proof (frac_le _ S2) as F2.
  assert (G : forall x, 0 < x -> 1 - SMALL / x <= x / (x + SMALL)).
  { intros x Hx. apply (Rmult_le_reg_r (x * (x + SMALL))); [apply Rmult_lt_0_compat; lra|].
    replace ((1 - SMALL / x) * (x * (x + SMALL))) with (x * x - SMALL * SMALL) by (field; lra).
    replace (x / (x + SMALL) * (x * (x + SMALL))) with (x * x) by (field; lra). pose proof (Rmult_lt_0_compat _ _ S S). lra. }
  pose proof (G _ S1) as G1. pose proof (G _ S2) as G2.
  set (c := direction_cosine g Kcon a) in *. set (u := sqrt (g a a) / (sqrt (g a a) + SMALL)) in *. set (v := sqrt (norm2 g Kcon) / (sqrt (norm2 g Kcon) + SMALL)) in *.
  clearbody c u v. set (e1 := SMALL / sqrt (g a a)) in *. set (e2 := SMALL / sqrt (norm2 g Kcon)) in *. clearbody e1 e2. clear - B F1 F2 G1 G2.
  assert (UV : 0 < u * v <= 1) by (split; [apply Rmult_lt_0_compat; lra|rewrite <- (Rmult_1_l 1); apply Rmult_le_compat; lra]).
  assert (W : 1 - u * v <= e1 + e2).
  { pose proof (Rmult_le_pos (1 - u) (1 - v) ltac:(lra) ltac:(lra)) as Q. replace ((1 - u) * (1 - v)) with (1 - u - v + u * v) in Q by ring. lra. }
  rewrite Rmult_assoc. set (w := u * v) in *. clearbody w.
  assert (K : Rabs c <= 1) by (apply Rabs_le; lra).
  assert (M : Rabs (c * w) <= 1).
  { rewrite Rabs_mult, (Rabs_right w) by lra. rewrite <- (Rmult_1_l 1). apply Rmult_le_compat; try lra; apply Rabs_pos. }
  apply Rabs_le_inv in M. split; [lra|]. replace (c * w - c) with (- (c * (1 - w))) by ring. rewrite Rabs_Ropp, Rabs_mult, (Rabs_right (1 - w)) by lra.
  apply Rle_trans with (1 * (1 - w)); [apply Rmult_le_compat_r; lra|lra].
Qed.
Definition skew (a b : nat) : R := if Nat.eqb a b then 1 else if Nat.eqb (a + b) 4 then 1 / 2 else 0.
Definition e1 (a : nat) : R := if Nat.eqb a 1 then 1 else 0.
(** a packet moving along the first basis vector is not put in the last bin when that vector and
    the third are not orthogonal (the r-phi term of a rotating hole) *)
Lemma cosine_refuted : direction_cosine skew e1 1 = 1 /\ mu_bin 20 (Fin (costh skew (basis_dot skew e1) e1 1)) = Some 18%Z /\
  (forall K, (K 1%nat <> 0 \/ K 2%nat <> 0 \/ K 3%nat <> 0) -> 0 < norm2 skew K).
Proof.
  pose proof SMALL_pos as S. pose proof SMALL_1 as S1. split; [|split].
  - unfold direction_cosine, basis_dot, norm2, skew, e1. cbn [Nat.eqb Nat.add].
    match goal with |- ?n / (sqrt 1 * sqrt ?m) = 1 => replace n with 1 by field; replace m with 1 by field end. rewrite sqrt_1. field.
  - unfold mu_bin, costh, knorm, sum3, basis_dot, skew, e1. cbn [Nat.eqb Nat.add]. cbn [xadd].
    rewrite (Rabs_right 1) by lra. rewrite sqrt_1.
    match goal with |- context [sqrt ?t] => replace t with (3 / 2) by (rewrite !(Rabs_right (1 * 1 * 1)), !(Rabs_right (1 / 2 * 1 * 1)), !Rmult_0_r, !Rmult_0_l, !Rabs_R0 by lra; field) end.
    rewrite (Rabs_right (sqrt (3 / 2))) by (apply Rle_ge, sqrt_pos).
    assert (Q1 : 1.22 < sqrt (3 / 2)) by (apply Rsqr_incrst_0; [rewrite Rsqr_sqrt by lra; unfold Rsqr; lra|lra|apply sqrt_pos]).
    assert (Q2 : sqrt (3 / 2) < 1.23) by (apply Rsqr_incrst_0; [rewrite Rsqr_sqrt by lra; unfold Rsqr; lra|apply sqrt_pos|lra]).
    set (q := sqrt (3 / 2)) in *. clearbody q.
    match goal with |- context [Fin (?t * / (q + SMALL) + 1)] => replace t with (/ (1 + SMALL)) by (field; lra) end.
    assert (I : 0.8 <= / (1 + SMALL) * / (q + SMALL) < 0.9).
    { rewrite <- Rinv_mult. assert (M : 1.22 < (1 + SMALL) * (q + SMALL) < 1.24).
      { split; [apply Rlt_le_trans with (1 * (q + SMALL)); [lra|apply Rmult_le_compat_r; lra]|].
        apply Rlt_trans with (1.001 * (q + SMALL)); [apply Rmult_lt_compat_r; lra|lra]. }
      split.
      - apply Rle_trans with (/ 1.24); [lra|]. apply Rinv_le_contravar; lra.
      - apply Rlt_trans with (/ 1.22); [|lra]. apply Rinv_lt_contravar; [apply Rmult_lt_0_compat; lra|lra]. }
    set (c := / (1 + SMALL) * / (q + SMALL)) in *. clearbody c.
    destruct (local_in 20 (Fin (c + 1)) (2 / 20) ltac:(lia) ltac:(lra) ltac:(discriminate)) as (k & -> & K & _ & B & _).
    f_equal. specialize (B ltac:(lra)). unfold in_bin in B. assert (17 < IZR k < 19) by lra. destruct H as (H1 & H2). apply lt_IZR in H1, H2. lia.
  - intros K H. unfold norm2, skew. cbn [Nat.eqb Nat.add].
    match goal with |- 0 < ?t => replace t with ((K 1%nat + K 3%nat / 2) * (K 1%nat + K 3%nat / 2) + 3 / 4 * (K 3%nat * K 3%nat) + K 2%nat * K 2%nat) by field end.
    pose proof (Rle_0_sqr (K 1%nat + K 3%nat / 2)) as A. pose proof (Rle_0_sqr (K 3%nat)) as B. pose proof (Rle_0_sqr (K 2%nat)) as C. unfold Rsqr in *.
    destruct (Req_dec (K 3%nat) 0) as [E3|E3]; [|pose proof (Rsqr_pos_lt _ E3) as L; unfold Rsqr in L; lra].
    destruct (Req_dec (K 2%nat) 0) as [E2|E2]; [|pose proof (Rsqr_pos_lt _ E2) as L; unfold Rsqr in L; lra].
    destruct H as [H|[H|H]]; [|lra|lra]. assert (N : K 1%nat + K 3%nat / 2 <> 0) by lra. pose proof (Rsqr_pos_lt _ N) as L; unfold Rsqr in L; lra.
Qed.
(** the places of a zone *)
Lemma places m ijk dir : (1 <= dir <= 3)%nat ->
  coord m CENT ijk dir = (coord m CORN ijk dir + coord m CORN (fun n => (ijk n + 1)%Z) dir) / 2 /\
  coord m CORN (fun n => (ijk n + 1)%Z) dir = coord m CORN ijk dir + dx m dir /\
  coord m FACE1 ijk dir = coord m (if Nat.eqb dir 1 then CORN else CENT) ijk dir /\
  coord m FACE2 ijk dir = coord m (if Nat.eqb dir 2 then CORN else CENT) ijk dir /\
  coord m FACE3 ijk dir = coord m (if Nat.eqb dir 3 then CORN else CENT) ijk dir.
Proof.
  intros D. assert (E : dir = 1%nat \/ dir = 2%nat \/ dir = 3%nat) by lia.
  destruct E as [->|[->| ->]]; unfold coord; cbn [centred Nat.eqb]; unfold coord1; repeat rewrite ?minus_IZR, ?plus_IZR; repeat split; lra.
Qed.
