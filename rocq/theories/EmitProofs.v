(** Proofs about emission. *)
From Coq Require Import Reals Bool ZArith List Lra Lia.
From Verif Require Import RLib XLib IntLib GeomModel GeomSpec GeomProofs FrameProofs EmitModel EmitSpec.
From Verif Require BinModel BinProofs.
Import ListNotations.
Open Scope R_scope.

Lemma bind_got {A B} (r : res A) (k : A -> list R -> res B) b rest :
  bind r k = Got b rest -> exists a rest', r = Got a rest' /\ k a rest' = Got b rest.
Proof. destruct r; cbn; try discriminate. eauto. Qed.
Lemma draw_got ds x rest : draw ds = Got x rest -> ds = x :: rest.
Proof. destruct ds; cbn; congruence. Qed.
Lemma unit_tail x ds : unit_draws (x :: ds) -> 0 <= x < 1 /\ unit_draws ds.
Proof. intros H. inversion H. auto. Qed.

(** ** Frequencies *)
Section Freq.
Variable s : spectrum.
Hypothesis Lo : 0 < numin s.
Hypothesis Hi : numin s < numax s.
Hypothesis B0 : (0 < bins s)%nat.
Hypothesis B1 : (Z.of_nat (bins s) < 2147483648)%Z.
Lemma range_pos : 0 < lnu_max s - lnu_min s.
Proof. unfold lnu_max, lnu_min. pose proof (ln_increasing _ _ Lo Hi). lra. Qed.
Lemma bins_pos : 0 < INR (bins s).
Proof. apply lt_0_INR. exact B0. Qed.
Lemma dlnu_pos : 0 < dlnu s.
Proof. unfold dlnu. apply Rdiv_lt_0_compat; [exact range_pos|exact bins_pos]. Qed.
Lemma interp_cell table x k f : length table = S (bins s) -> (k < bins s)%nat -> 0 <= f < 1 ->
  ln x = lnu_min s + (INR k + f) * dlnu s ->
  exists a b, nth_error table k = Some a /\ nth_error table (S k) = Some b /\
  linear_interp_log x table (lnu_min s) (dlnu s) = Some ((Fin 1 - Fin f) * a + Fin f * b)%X.
Proof.
  intros LT Hk Hf E. pose proof dlnu_pos as D.
  destruct (nth_error table k) as [a|] eqn:Na; [|apply nth_error_None in Na; lia].
  destruct (nth_error table (S k)) as [b|] eqn:Nb; [|apply nth_error_None in Nb; lia].
  exists a, b. split; [reflexivity|]. split; [reflexivity|].
  unfold linear_interp_log. replace (Fin (ln x) - Fin (lnu_min s))%X with (Fin (ln x - lnu_min s)) by (unfold xsub, xadd, xopp; f_equal; ring).
  rewrite xdiv_fin by lra.
  replace ((ln x - lnu_min s) / dlnu s) with (INR k + f) by (rewrite E; field; lra).
  rewrite (to_int_unique (INR k + f) (Z.of_nat k)); [|lia|rewrite <- INR_IZR_INZ; lra].
  unfold rd. destruct (Z.ltb_spec (Z.of_nat k) 0); [lia|]. destruct (Z.ltb_spec (Z.of_nat k + 1) 0); [lia|].
  rewrite Nat2Z.id. replace (Z.to_nat (Z.of_nat k + 1)) with (S k) by lia. rewrite Na, Nb.
  replace (Fin (INR k + f) - Fin (IZR (Z.of_nat k)))%X with (Fin f); [reflexivity|].
  unfold xsub, xadd, xopp. rewrite <- INR_IZR_INZ. f_equal. ring.
Qed.
Lemma split_draw r : 0 <= r < 1 -> exists k f, (k < bins s)%nat /\ 0 <= f < 1 /\
  r * (lnu_max s - lnu_min s) + lnu_min s = lnu_min s + (INR k + f) * dlnu s.
Proof.
  intros Hr. pose proof bins_pos as Bp. pose proof (Int_part_bounds (r * INR (bins s))) as IB.
  assert (P : 0 <= r * INR (bins s)) by (apply Rmult_le_pos; lra).
  assert (Q : r * INR (bins s) < INR (bins s)) by nra.
  assert (Z0 : (0 <= Int_part (r * INR (bins s)))%Z).
  { assert (L : IZR (-1) < IZR (Int_part (r * INR (bins s)))) by lra. apply lt_IZR in L. lia. }
  assert (Z1 : (Int_part (r * INR (bins s)) < Z.of_nat (bins s))%Z) by (apply lt_IZR; rewrite <- INR_IZR_INZ; lra).
  exists (Z.to_nat (Int_part (r * INR (bins s)))), (r * INR (bins s) - IZR (Int_part (r * INR (bins s)))).
  split; [lia|]. split; [lra|].
  rewrite (INR_IZR_INZ (Z.to_nat _)), Z2Nat.id by exact Z0. unfold dlnu. field. lra.
Qed.
Definition finite_table (t : list X) (l : list R) : Prop := t = map Fin l.
Lemma nth_fin l k a : nth_error (map Fin l) k = Some a -> exists v, a = Fin v /\ nth_error l k = Some v.
Proof. rewrite nth_error_map. destruct (nth_error l k); cbn; [|discriminate]. intros E. injection E as <-. eauto. Qed.
Lemma convex_between a b f : 0 <= f < 1 -> between a b ((1 - f) * a + f * b).
Proof. intros Hf. unfold between, Rmin, Rmax. destruct (Rle_dec a b); nra. Qed.
Lemma lookup l r : length l = S (bins s) -> 0 <= r < 1 ->
  exists k a b v, (k < bins s)%nat /\ nth_error l k = Some a /\ nth_error l (S k) = Some b /\ between a b v /\
  linear_interp_log (exp (r * (lnu_max s - lnu_min s) + lnu_min s)) (map Fin l) (lnu_min s) (dlnu s) = Some (Fin v).
Proof.
  intros Hl Hr. destruct (split_draw r Hr) as (k & f & Hk & Hf & E).
  destruct (interp_cell (map Fin l) (exp (r * (lnu_max s - lnu_min s) + lnu_min s)) k f) as (a & b & Na & Nb & I); auto.
  - rewrite map_length. exact Hl.
  - rewrite ln_exp. exact E.
  - apply nth_fin in Na. destruct Na as (va & -> & Na). apply nth_fin in Nb. destruct Nb as (vb & -> & Nb).
    exists k, va, vb, ((1 - f) * va + f * vb). split; [exact Hk|]. split; [exact Na|]. split; [exact Nb|].
    split; [apply convex_between, Hf|]. rewrite I. unfold xsub, xopp, xmul, xadd. reflexivity.
Qed.
Lemma node l k : length l = S (bins s) -> (k < bins s)%nat -> forall v, nth_error l k = Some v ->
  linear_interp_log (nusamp s k) (map Fin l) (lnu_min s) (dlnu s) = Some (Fin v).
Proof.
  intros Hl Hk v Nv. destruct (interp_cell (map Fin l) (nusamp s k) k 0) as (a & b & Na & Nb & I); auto; try lra.
  - rewrite map_length. exact Hl.
  - unfold nusamp. rewrite ln_exp. ring.
  - apply nth_fin in Na. destruct Na as (va & -> & Na). apply nth_fin in Nb. destruct Nb as (vb & -> & Nb).
    assert (va = v) by congruence. subst va. rewrite I. unfold xsub, xopp, xmul, xadd. do 2 f_equal. ring.
Qed.
Lemma draw_range r : 0 <= r < 1 -> numin s <= exp (r * (lnu_max s - lnu_min s) + lnu_min s) < numax s.
Proof.
  intros Hr. pose proof range_pos as P. assert (N : 0 < numax s) by lra. split.
  - pose proof (exp_ln _ Lo) as E. fold (lnu_min s) in E. rewrite <- E at 1.
    destruct (Req_dec r 0) as [->|Hn]; [right; f_equal; ring|]. left. apply exp_increasing. nra.
  - pose proof (exp_ln _ N) as E. fold (lnu_max s) in E. rewrite <- E at 1.
    apply exp_increasing. nra.
Qed.
Lemma freq_range table ds : forall nu rest, unit_draws ds -> freq_loop s table ds = Got nu rest -> numin s <= nu < numax s /\ unit_draws rest.
Proof.
  revert ds. fix IH 1. intros [|r1 [|r2 ds]] nu rest U; cbn [freq_loop]; try discriminate.
  apply unit_tail in U. destruct U as (U1 & U). apply unit_tail in U. destruct U as (U2 & U).
  destruct (linear_interp_log _ _ _ _) as [p|]; [|discriminate]. destruct (xltb p (Fin r2)).
  - intros H. exact (IH ds nu rest U H).
  - intros H. injection H as <- <-. split; [apply draw_range; exact U1|exact U].
Qed.
Lemma freq_defined l ds : length l = S (bins s) -> unit_draws ds -> freq_loop s (map Fin l) ds <> Undef.
Proof.
  intros Hl. revert ds. fix IH 1. intros [|r1 [|r2 ds]] U; cbn [freq_loop]; try discriminate.
  apply unit_tail in U. destruct U as (U1 & U). apply unit_tail in U. destruct U as (U2 & U).
  destruct (lookup l r1 Hl U1) as (k & a & b & v & _ & _ & _ & _ & E). rewrite E.
  destruct (xltb (Fin v) (Fin r2)); [exact (IH ds U)|discriminate].
Qed.
Lemma freq_accept l r1 r2 ds : length l = S (bins s) -> 0 <= r1 < 1 ->
  exists k a b p, (k < bins s)%nat /\ nth_error l k = Some a /\ nth_error l (S k) = Some b /\ between a b p /\
  (r2 <= p -> freq_loop s (map Fin l) (r1 :: r2 :: ds) = Got (exp (r1 * (lnu_max s - lnu_min s) + lnu_min s)) ds) /\
  (p < r2 -> freq_loop s (map Fin l) (r1 :: r2 :: ds) = freq_loop s (map Fin l) ds).
Proof.
  intros Hl Hr. destruct (lookup l r1 Hl Hr) as (k & a & b & v & Hk & Na & Nb & Bt & E).
  exists k, a, b, v. repeat (split; [assumption|]). cbn [freq_loop]. rewrite E. unfold xltb. split; intros H.
  - rewrite Rltb_false by exact H. reflexivity.
  - rewrite Rltb_true by exact H. reflexivity.
Qed.
(** normalisation *)
Lemma running_max_aux l : forall m, let r := fold_left (fun m x => if Rltb m x then x else m) l m in
  m <= r /\ (r = m \/ In r l) /\ forall x, In x l -> x <= r.
Proof.
  induction l as [|a l IH]; intros m; cbn zeta; [cbn; split; [lra|split; [auto|tauto]]|].
  cbn [fold_left]. destruct (IH (if Rltb m a then a else m)) as (A & B & C). destruct (Rltb_spec m a) as [M|M].
  - split; [lra|]. split; [right; destruct B as [B|B]; [left; symmetry; exact B|right; exact B]|].
    intros x [<-|Hx]; [exact A|exact (C x Hx)].
  - split; [lra|]. split; [destruct B as [B|B]; [left; exact B|right; right; exact B]|].
    intros x [<-|Hx]; [lra|exact (C x Hx)].
Qed.
Lemma running_max_max l x : In x l -> 0 < x -> In (running_max l) l /\ x <= running_max l /\ forall y, In y l -> y <= running_max l.
Proof.
  intros Hx P. destruct (running_max_aux l (- 10 ^ 100)) as (A & B & C). fold (running_max l) in *.
  pose proof (C x Hx) as Q. assert (T : 0 < 10 ^ 100) by (apply pow_lt; lra).
  destruct B as [B|B]; [lra|]. auto.
Qed.
Lemma HPL_pos : 0 < HPL.
Proof. unfold HPL. apply Rdiv_lt_0_compat; [lra|apply pow_lt; lra]. Qed.
Lemma TINY_pos : 0 < TINY.
Proof. unfold TINY. apply Rinv_0_lt_compat, pow_lt. lra. Qed.
Lemma table_spec Jv wgt : (forall n, (n <= bins s)%nat -> 0 <= Jv (nusamp s n)) -> (forall n, (n <= bins s)%nat -> 0 < wgt (nusamp s n)) ->
  (exists n, (n <= bins s)%nat /\ 0 < Jv (nusamp s n)) ->
  exists l m, get_dndlnu s Jv wgt = map (fun x => Fin (x / m)) l /\ In m l /\ 0 < m /\ length l = S (bins s) /\
  (forall x, In x l -> 0 <= x <= m) /\
  forall n, (n <= bins s)%nat -> nth_error l n = Some (Jv (nusamp s n) / (wgt (nusamp s n) * HPL + TINY)).
Proof.
  intros HJ HW (n0 & Hn0 & Hp). pose proof HPL_pos as HP. pose proof TINY_pos as TP.
  assert (Nth : forall n, (n <= bins s)%nat -> nth_error (raw_dndlnu s Jv wgt) n = Some (Jv (nusamp s n) / (wgt (nusamp s n) * HPL + TINY))).
  { intros n Hn. unfold raw_dndlnu. rewrite nth_error_map.
    assert (Sq : nth_error (seq 0 (S (bins s))) n = Some n).
    { rewrite (nth_error_nth' _ 0%nat) by (rewrite seq_length; lia). rewrite seq_nth by lia. reflexivity. }
    rewrite Sq. reflexivity. }
  assert (Den : forall n, (n <= bins s)%nat -> 0 < wgt (nusamp s n) * HPL + TINY).
  { intros n Hn. pose proof (Rmult_lt_0_compat _ _ (HW n Hn) HP). lra. }
  assert (Pos : forall x, In x (raw_dndlnu s Jv wgt) -> 0 <= x).
  { intros x Hx. unfold raw_dndlnu in Hx. apply in_map_iff in Hx. destruct Hx as (n & <- & Hn). apply in_seq in Hn.
    apply Rmult_le_pos; [apply HJ; lia|]. left. apply Rinv_0_lt_compat, Den. lia. }
  destruct (running_max_max (raw_dndlnu s Jv wgt) (Jv (nusamp s n0) / (wgt (nusamp s n0) * HPL + TINY))) as (I & Q & M).
  { eapply nth_error_In. apply Nth, Hn0. }
  { apply Rdiv_lt_0_compat; [exact Hp|apply Den, Hn0]. }
  assert (MP : 0 < running_max (raw_dndlnu s Jv wgt)).
  { eapply Rlt_le_trans; [|exact Q]. apply Rdiv_lt_0_compat; [exact Hp|apply Den, Hn0]. }
  exists (raw_dndlnu s Jv wgt), (running_max (raw_dndlnu s Jv wgt)).
  split; [unfold get_dndlnu; apply map_ext; intros x; apply xdiv_fin; lra|].
  split; [exact I|]. split; [exact MP|]. split; [unfold raw_dndlnu; rewrite map_length, seq_length; reflexivity|].
  split; [intros x Hx; split; [apply Pos, Hx|apply M, Hx]|exact Nth].
Qed.
End Freq.

(** ** A pair *)
Lemma angle_range j ds : forall c rest, unit_draws ds -> angle_loop j ds = Got c rest -> -1 <= c < 1 /\ unit_draws rest.
Proof.
  revert ds. fix IH 1. intros [|r1 [|r2 ds]] c rest U; cbn [angle_loop]; try discriminate.
  apply unit_tail in U. destruct U as (U1 & U). apply unit_tail in U. destruct U as (U2 & U).
  destruct (xltb _ _).
  - intros H. exact (IH ds c rest U H).
  - intros H. injection H as <- <-. split; [lra|exact U].
Qed.
Lemma sphere c : -1 <= c <= 1 -> sqrt (1 - c * c) * sqrt (1 - c * c) = 1 - c * c.
Proof. intros H. apply sqrt_sqrt. nra. Qed.

(** direction in the tetrad frame *)
Definition dirv (n1 n2 n3 : R) : vec := fun a => match a with 0%nat => 1 | 1%nat => n1 | 2%nat => n2 | _ => n3 end.
Record packet_facts (r : run) (z : site) (Econ Ecov : mat) (E weight n1 n2 n3 : R) (p : photon) : Prop := {
  pf_con : forall mu, Kcon p mu = E * (Econ 0%nat mu + n1 * Econ 1%nat mu + n2 * Econ 2%nat mu + n3 * Econ 3%nat mu);
  pf_cov : forall mu, Kcov p mu = E * (- Ecov 0%nat mu + n1 * Ecov 1%nat mu + n2 * Ecov 2%nat mu + n3 * Ecov 3%nat mu);
  pf_w : w p = (if Rltb 0 (Kcov p 0%nat) then 0 else 1 / 2 * weight);
  pf_type : type p = stype z;
  pf_origin : origin p = (nstep r, zi z, zj z, zk z);
  pf_t0 : t0 p = targ r + dt r / 2;
  pf_x0 : X2 p 0%nat = tglob r;
  pf_x : forall mu, (1 <= mu < 4)%nat -> axisym_mks r = false \/ mu <> 3%nat -> X2 p mu = BinModel.coord (grid r) BinModel.CENT (zone_index z) mu;
  pf_fresh : nscatt p = 0%Z /\ has_oscillated p = false }.
Lemma one_packet_facts r z Econ Ecov E weight cth sth cphi sphi c ds p c' rest :
  one_packet r z Econ Ecov E weight cth sth cphi sphi c ds = Got (p, c') rest ->
  packet_facts r z Econ Ecov E weight cth (cphi * sth) (sphi * sth) p /\ c' = record_packet r z p c /\ (unit_draws ds -> unit_draws rest).
Proof.
  unfold one_packet. intros H. apply bind_got in H. destruct H as (q & ds1 & Hq & H).
  apply bind_got in H. destruct H as (x & ds2 & Hx & H). injection H as <- <- <-.
  apply draw_got in Hx. subst ds1. unfold make_packet in Hq. cbv zeta in Hq. apply bind_got in Hq.
  destruct Hq as (X & ds3 & HX & Hq).
  assert (HU : unit_draws ds -> unit_draws ds3).
  { destruct (axisym_mks r); [|congruence]. apply bind_got in HX. destruct HX as (y & ds4 & Hy & HX). apply draw_got in Hy.
    injection HX as _ <-. subst ds. intros U. apply unit_tail in U. tauto. }
  assert (HP : X 0%nat = tglob r /\ forall mu, (1 <= mu < 4)%nat -> axisym_mks r = false \/ mu <> 3%nat -> X mu = BinModel.coord (grid r) BinModel.CENT (zone_index z) mu).
  { destruct (axisym_mks r).
    - apply bind_got in HX. destruct HX as (y & ds4 & _ & HX). injection HX as <- _. split; [reflexivity|].
      intros mu Hmu [D|D]; [discriminate|]. unfold coord_cent. destruct (Nat.eqb_spec mu 3); [contradiction|].
      destruct (Nat.eqb_spec mu 0); [lia|reflexivity].
    - injection HX as <- _. split; [reflexivity|]. intros mu Hmu _. unfold coord_cent. destruct (Nat.eqb_spec mu 0); [lia|reflexivity]. }
  injection Hq as <- E3. subst ds3. split; [|split].
  - split; unfold set_tracked; cbn [Kcon Kcov w type origin t0 X2 nscatt has_oscillated].
    + intros mu. unfold tetrad_to_coord, sum4. ring.
    + intros mu. unfold tetrad_to_coord, sum4. ring.
    + reflexivity.
    + reflexivity.
    + reflexivity.
    + reflexivity.
    + apply HP.
    + apply HP.
    + auto.
  - reflexivity.
  - intros U. apply HU in U. apply unit_tail in U. tauto.
Qed.
Lemma record_tracked r z p b c : record_packet r z (set_tracked b p) c = record_packet r z p c.
Proof. reflexivity. Qed.
Lemma freq_rest s table ds : forall nu rest, unit_draws ds -> freq_loop s table ds = Got nu rest -> unit_draws rest.
Proof.
  revert ds. fix IH 1. intros [|r1 [|r2 ds]] nu rest U; cbn [freq_loop]; try discriminate.
  apply unit_tail in U. destruct U as (U1 & U). apply unit_tail in U. destruct U as (U2 & U).
  destruct (linear_interp_log _ _ _ _) as [p|]; [|discriminate]. destruct (xltb p (Fin r2)).
  - intros H. exact (IH ds nu rest U H).
  - intros H. injection H as _ <-. exact U.
Qed.
Lemma sample_facts r z Econ Ecov c ds p q c' rest : sample_photon r z Econ Ecov c ds = Got (p, q, c') rest ->
  exists nu n1 n2 n3, let E := nu * HPL / (ME * CL * CL) in
  packet_facts r z Econ Ecov E (wgt z nu) n1 n2 n3 p /\ packet_facts r z Econ Ecov E (wgt z nu) (- n1) (- n2) (- n3) q /\
  c' = record_packet r z q (record_packet r z p c) /\
  (unit_draws ds -> n1 * n1 + n2 * n2 + n3 * n3 = 1 /\ unit_draws rest /\
    (0 < numin (spec r) < numax (spec r) -> numin (spec r) <= nu < numax (spec r))).
Proof.
  unfold sample_photon. intros H. apply bind_got in H. destruct H as (nu & ds1 & Hf & H).
  cbv zeta in H. apply bind_got in H. destruct H as (cth & ds2 & Ha & H).
  apply bind_got in H. destruct H as (x & ds3 & Hx & H). apply bind_got in H. destruct H as ([p1 c1] & ds4 & H1 & H).
  apply bind_got in H. destruct H as ([p2 c2] & ds5 & H2 & H). injection H as E1 E2 E3 E4. subst p1 p2 c2 ds5.
  apply draw_got in Hx. subst ds2.
  apply one_packet_facts in H1. destruct H1 as (F1 & -> & R1). apply one_packet_facts in H2. destruct H2 as (F2 & -> & R2).
  exists nu, cth, (cos (2 * PI * x) * sqrt (1 - cth * cth)), (sin (2 * PI * x) * sqrt (1 - cth * cth)).
  split; [exact F1|]. split.
  { replace (- (cos (2 * PI * x) * sqrt (1 - cth * cth))) with (- cos (2 * PI * x) * sqrt (1 - cth * cth)) by ring.
    replace (- (sin (2 * PI * x) * sqrt (1 - cth * cth))) with (- sin (2 * PI * x) * sqrt (1 - cth * cth)) by ring. exact F2. }
  split; [reflexivity|]. intros U. assert (U1 : unit_draws ds1).
  { exact (freq_rest _ _ _ _ _ U Hf). }
  destruct (angle_range _ _ _ _ U1 Ha) as (Rc & U2). apply unit_tail in U2. destruct U2 as (_ & U3).
  split.
  - assert (S1 : sqrt (1 - cth * cth) * sqrt (1 - cth * cth) = 1 - cth * cth) by (apply sphere; lra).
    pose proof (sin2_cos2 (2 * PI * x)) as SC. unfold Rsqr in SC. set (q0 := sqrt (1 - cth * cth)) in *.
    set (a := cos (2 * PI * x)) in *. set (b := sin (2 * PI * x)) in *.
    replace (cth * cth + a * q0 * (a * q0) + b * q0 * (b * q0)) with (cth * cth + (b * b + a * a) * (q0 * q0)) by ring.
    rewrite SC, S1. ring.
  - split; [apply R2, R1, U3|]. intros (Lo & Hi). apply (freq_range (spec r) Lo Hi _ _ _ _ U Hf).
Qed.

Section Tetrad.
Variables (G : mat) (alpha : R) (beta : vec) (U trial : vec) (Econ Ecov : mat).
Hypothesis ST : spacetime G alpha beta.
Hypothesis NU : inner G U U = -1.
Hypothesis MT : make_tetrad G U trial = Some (Econ, Ecov).
Let Tm : inner G U U < 0.
Proof. rewrite NU. lra. Qed.
Lemma ortho a b : (a < 4)%nat -> (b < 4)%nat -> inner G (Econ a) (Econ b) = eta a b.
Proof. intros. eapply tetrad_ortho; eassumption. Qed.
Lemma inner_lin4 E a1 a2 a3 b0 b1 b2 b3 :
  inner G (fun mu => E * (Econ 0%nat mu + a1 * Econ 1%nat mu + a2 * Econ 2%nat mu + a3 * Econ 3%nat mu))
          (fun mu => b0 * Econ 0%nat mu + b1 * Econ 1%nat mu + b2 * Econ 2%nat mu + b3 * Econ 3%nat mu) =
  E * (- b0 + a1 * b1 + a2 * b2 + a3 * b3).
Proof.
  transitivity (E * (b0 * inner G (Econ 0%nat) (Econ 0%nat) + b1 * inner G (Econ 0%nat) (Econ 1%nat) + b2 * inner G (Econ 0%nat) (Econ 2%nat) + b3 * inner G (Econ 0%nat) (Econ 3%nat)
    + a1 * (b0 * inner G (Econ 1%nat) (Econ 0%nat) + b1 * inner G (Econ 1%nat) (Econ 1%nat) + b2 * inner G (Econ 1%nat) (Econ 2%nat) + b3 * inner G (Econ 1%nat) (Econ 3%nat))
    + a2 * (b0 * inner G (Econ 2%nat) (Econ 0%nat) + b1 * inner G (Econ 2%nat) (Econ 1%nat) + b2 * inner G (Econ 2%nat) (Econ 2%nat) + b3 * inner G (Econ 2%nat) (Econ 3%nat))
    + a3 * (b0 * inner G (Econ 3%nat) (Econ 0%nat) + b1 * inner G (Econ 3%nat) (Econ 1%nat) + b2 * inner G (Econ 3%nat) (Econ 2%nat) + b3 * inner G (Econ 3%nat) (Econ 3%nat)))).
  - unfold inner, sigma4. ring.
  - rewrite !ortho by lia. unfold eta. cbn [Nat.eqb]. ring.
Qed.
Lemma inner_ext u u' v v' : same4 u u' -> same4 v v' -> inner G u v = inner G u' v'.
Proof. intros A B. unfold inner, sigma4. rewrite !A, !B by lia. reflexivity. Qed.
Lemma facts_null r z E weight n1 n2 n3 p : packet_facts r z Econ Ecov E weight n1 n2 n3 p -> n1 * n1 + n2 * n2 + n3 * n3 = 1 ->
  inner G (Kcon p) (Kcon p) = 0.
Proof.
  intros F N. rewrite (inner_ext _ (fun mu => E * (Econ 0%nat mu + n1 * Econ 1%nat mu + n2 * Econ 2%nat mu + n3 * Econ 3%nat mu))
     _ (fun mu => E * Econ 0%nat mu + E * n1 * Econ 1%nat mu + E * n2 * Econ 2%nat mu + E * n3 * Econ 3%nat mu)).
  - rewrite inner_lin4. replace (- E + n1 * (E * n1) + n2 * (E * n2) + n3 * (E * n3)) with (E * (n1 * n1 + n2 * n2 + n3 * n3 - 1)) by ring. rewrite N. ring.
  - intros mu _. apply (pf_con _ _ _ _ _ _ _ _ _ _ F).
  - intros mu _. rewrite (pf_con _ _ _ _ _ _ _ _ _ _ F). ring.
Qed.
Lemma facts_energy r z E weight n1 n2 n3 p : packet_facts r z Econ Ecov E weight n1 n2 n3 p -> - inner G (Kcon p) U = E.
Proof.
  intros F. pose proof (tetrad_time G U trial Econ Ecov NU MT) as T.
  rewrite (inner_ext _ (fun mu => E * (Econ 0%nat mu + n1 * Econ 1%nat mu + n2 * Econ 2%nat mu + n3 * Econ 3%nat mu))
     _ (fun mu => 1 * Econ 0%nat mu + 0 * Econ 1%nat mu + 0 * Econ 2%nat mu + 0 * Econ 3%nat mu)).
  - rewrite inner_lin4. ring.
  - intros mu _. apply (pf_con _ _ _ _ _ _ _ _ _ _ F).
  - intros mu Hmu. rewrite <- (T mu Hmu). ring.
Qed.
Lemma facts_lower r z E weight n1 n2 n3 p : packet_facts r z Econ Ecov E weight n1 n2 n3 p ->
  forall mu, (mu < 4)%nat -> Kcov p mu = sigma4 (fun nu => G mu nu * Kcon p nu).
Proof.
  intros F mu Hmu. rewrite (pf_cov _ _ _ _ _ _ _ _ _ _ F). rewrite !(tetrad_cov G U trial Econ Ecov MT). unfold eta. cbn [Nat.eqb].
  unfold sigma4. rewrite !(pf_con _ _ _ _ _ _ _ _ _ _ F). unfold lower, sum4. ring.
Qed.
Lemma facts_cancel r z E weight n1 n2 n3 p q : packet_facts r z Econ Ecov E weight n1 n2 n3 p ->
  packet_facts r z Econ Ecov E weight (- n1) (- n2) (- n3) q -> cancel U (Kcon p) (Kcon q) E.
Proof.
  intros F F' mu Hmu. rewrite (pf_con _ _ _ _ _ _ _ _ _ _ F), (pf_con _ _ _ _ _ _ _ _ _ _ F').
  rewrite <- (tetrad_time G U trial Econ Ecov NU MT mu Hmu). ring.
Qed.
(** completeness of the tetrad in the time direction *)
Lemma complete00 : - (Ecov 0%nat 0%nat * Ecov 0%nat 0%nat) + Ecov 1%nat 0%nat * Ecov 1%nat 0%nat + Ecov 2%nat 0%nat * Ecov 2%nat 0%nat + Ecov 3%nat 0%nat * Ecov 3%nat 0%nat = G 0%nat 0%nat.
Proof.
  pose proof (inverse_comm _ _ (tetrad_inv G alpha beta ST U trial Econ Ecov Tm MT)) as J.
  transitivity (sigma4 (fun i => G 0%nat i * sigma4 (fun a => Econ a i * Ecov a 0%nat))).
  - transitivity (sigma4 (fun a => lower (Econ a) G 0%nat * Ecov a 0%nat)).
    + unfold sigma4. rewrite !(tetrad_cov G U trial Econ Ecov MT). unfold eta. cbn [Nat.eqb]. ring.
    + unfold sigma4, lower, sum4. ring.
  - unfold sigma4 at 1. rewrite !(fun i Hi => J i 0%nat Hi (Nat.lt_0_succ 3)) by lia. unfold delta. cbn [Nat.eqb]. ring.
Qed.
Lemma spatial_nonneg p : 0 <= spatial G p p.
Proof.
  destruct ST as (_ & _ & PD & _). destruct (Req_dec (p 1%nat) 0) as [A|A]; [|left; apply PD; auto].
  destruct (Req_dec (p 2%nat) 0) as [B|B]; [|left; apply PD; auto].
  destruct (Req_dec (p 3%nat) 0) as [C|C]; [|left; apply PD; auto].
  right. unfold spatial. rewrite A, B, C. ring.
Qed.
Lemma lower_time_neg : G 0%nat 0%nat < 0 -> 0 < U 0%nat -> lower U G 0%nat < 0.
Proof.
  intros G0 U0. pose proof (spatial_nonneg U) as SP.
  assert (Q : 2 * (U 0%nat * lower U G 0%nat) = -1 - spatial G U U + G 0%nat 0%nat * (U 0%nat * U 0%nat)).
  { rewrite <- NU. destruct ST as (Sy & _). unfold inner, sigma4, spatial, lower, sum4.
    rewrite (Sy 1%nat 0%nat), (Sy 2%nat 0%nat), (Sy 3%nat 0%nat) by lia. ring. }
  assert (0 < U 0%nat * U 0%nat) by nra. nra.
Qed.
Lemma cauchy3 a b c x y v : x * x + y * y + v * v = 1 -> (a * x + b * y + c * v) * (a * x + b * y + c * v) <= a * a + b * b + c * c.
Proof.
  intros N. assert (I : (a * a + b * b + c * c) * (x * x + y * y + v * v) - (a * x + b * y + c * v) * (a * x + b * y + c * v)
    = (a * y - b * x) * (a * y - b * x) + (a * v - c * x) * (a * v - c * x) + (b * v - c * y) * (b * v - c * y)) by ring.
  rewrite N in I. pose proof (Rle_0_sqr (a * y - b * x)). pose proof (Rle_0_sqr (a * v - c * x)). pose proof (Rle_0_sqr (b * v - c * y)). unfold Rsqr in *. lra.
Qed.
Lemma facts_future r z E weight n1 n2 n3 p : packet_facts r z Econ Ecov E weight n1 n2 n3 p -> n1 * n1 + n2 * n2 + n3 * n3 = 1 ->
  0 <= E -> G 0%nat 0%nat < 0 -> 0 < U 0%nat -> w p = 1 / 2 * weight.
Proof.
  intros F N HE G0 U0. rewrite (pf_w _ _ _ _ _ _ _ _ _ _ F). rewrite Rltb_false; [reflexivity|].
  rewrite (pf_cov _ _ _ _ _ _ _ _ _ _ F). pose proof complete00 as C. pose proof (lower_time_neg G0 U0) as LT.
  assert (E0 : Ecov 0%nat 0%nat = - lower U G 0%nat).
  { rewrite (tetrad_cov G U trial Econ Ecov MT). unfold eta. cbn [Nat.eqb].
    pose proof (tetrad_time G U trial Econ Ecov NU MT) as T. unfold lower, sum4. rewrite !T by lia. ring. }
  pose proof (cauchy3 (Ecov 1%nat 0%nat) (Ecov 2%nat 0%nat) (Ecov 3%nat 0%nat) n1 n2 n3 N) as K.
  set (a := Ecov 0%nat 0%nat) in *. set (b := Ecov 1%nat 0%nat * n1 + Ecov 2%nat 0%nat * n2 + Ecov 3%nat 0%nat * n3) in *.
  assert (Ap : 0 < a) by lra. assert (B2 : b * b < a * a) by lra.
  assert (Bl : b < a). { destruct (Rlt_le_dec b a) as [|Q]; [assumption|]. pose proof (Rmult_le_compat a b a b (Rlt_le _ _ Ap) (Rlt_le _ _ Ap) Q Q). lra. }
  replace (- a + n1 * Ecov 1%nat 0%nat + n2 * Ecov 2%nat 0%nat + n3 * Ecov 3%nat 0%nat) with (b - a) by (unfold b; ring). nra.
Qed.
End Tetrad.

(** ** A whole step *)
Definition from (y : zone) (p : photon) : bool := let '(_, i, j, k) := origin p in zone_eqb (i, j, k) y.
Definition add_to (r : run) (y : zone) (new : list photon) (f : photon -> R) : R := total f (filter (from y) new).
Lemma zone_eqb_spec a b : reflect (a = b) (zone_eqb a b).
Proof.
  destruct a as [[i j] k], b as [[i' j'] k']. unfold zone_eqb.
  destruct (Z.eqb_spec i i'); [|constructor; congruence]. destruct (Z.eqb_spec j j'); [|constructor; congruence].
  destruct (Z.eqb_spec k k'); constructor; congruence.
Qed.
Lemma total_app {A} (f : A -> R) l l' : total f (l ++ l') = total f l + total f l'.
Proof. induction l as [|a l IH]; unfold total in *; cbn [app fold_right]; [ring|rewrite IH; ring]. Qed.
Record balance (r : run) (u gd : zone -> R) (y : zone) (new : list photon) (c c' : cell) : Prop := {
  b_mom : forall mu, dt r * d3x r * (radG c mu - radG c' mu) = kphys_to_num r * add_to r y new (fun p => w p * Kcov p mu);
  b_ye : neutrinos r = true -> dt r * d3x r * (radG_ye c - radG_ye c') = u y * (MP r / M_unit r) * add_to r y new (fun p => w p * get_lepton_sign (type p));
  b_ye_em : neutrinos r = true -> dt r * d3x r * (radG_ye_em c - radG_ye_em c') = u y * (MP r / M_unit r) * add_to r y new (fun p => w p * get_lepton_sign (type p));
  b_jrad : DTd r <> 0 -> gd y <> 0 -> DTd r * d3x r * gd y * (Jrad0 c' - Jrad0 c) = - kphys_to_num r * add_to r y new (fun p => w p * Kcov p 0%nat);
  b_n : Nem c' - Nem c = add_to r y new (fun _ => 1);
  b_phys : forall ty, Nem_phys c' ty - Nem_phys c ty = add_to r y new (fun p => if Z.eqb ty (type p) then w p else 0) }.
Section Conserve.
Variables (r : run) (u gd : zone -> R).
Hypothesis D : dt r * d3x r <> 0.
Let D2 : d3x r <> 0 /\ dt r <> 0.
Proof. split; intros Z; apply D; rewrite Z; ring. Qed.
Lemma balance_refl y c : balance r u gd y [] c c.
Proof. split; intros; unfold add_to; cbn [filter total fold_right]; ring. Qed.
Lemma balance_one z p c : u (zone_of z) = ucon0 z -> gd (zone_of z) = gdet z -> origin p = (nstep r, zi z, zj z, zk z) ->
  balance r u gd (zone_of z) [p] c (record_packet r z p c).
Proof.
  intros Hu Hg Ho. assert (Fr : from (zone_of z) p = true).
  { unfold from. rewrite Ho. destruct (zone_eqb_spec (zi z, zj z, zk z) (zone_of z)) as [|n]; [reflexivity|]. exfalso. apply n. reflexivity. }
  split; unfold add_to; cbn [filter]; rewrite Fr; unfold total; cbn [fold_right]; unfold record_packet; cbn [radG radG_ye radG_ye_em Jrad0 Nem Nem_phys].
  - intros mu. field. exact D2.
  - intros ->. rewrite Hu. set (m := MP r / M_unit r). field. exact D2.
  - intros ->. rewrite Hu. set (m := MP r / M_unit r). field. exact D2.
  - intros HD HG. rewrite Hg in *. field. tauto.
  - ring.
  - intros ty. destruct (Z.eqb ty (type p)); ring.
Qed.
Lemma balance_app y new1 new2 c c' c'' : balance r u gd y new1 c c' -> balance r u gd y new2 c' c'' -> balance r u gd y (new2 ++ new1) c c''.
Proof.
  intros A B. split; unfold add_to; intros; rewrite ?filter_app, ?total_app.
  - pose proof (b_mom _ _ _ _ _ _ _ A mu) as P. pose proof (b_mom _ _ _ _ _ _ _ B mu) as Q. unfold add_to in *.
    replace (dt r * d3x r * (radG c mu - radG c'' mu)) with (dt r * d3x r * (radG c' mu - radG c'' mu) + dt r * d3x r * (radG c mu - radG c' mu)) by ring. rewrite P, Q. ring.
  - pose proof (b_ye _ _ _ _ _ _ _ A H) as P. pose proof (b_ye _ _ _ _ _ _ _ B H) as Q. unfold add_to in *.
    replace (dt r * d3x r * (radG_ye c - radG_ye c'')) with (dt r * d3x r * (radG_ye c' - radG_ye c'') + dt r * d3x r * (radG_ye c - radG_ye c')) by ring. rewrite P, Q. ring.
  - pose proof (b_ye_em _ _ _ _ _ _ _ A H) as P. pose proof (b_ye_em _ _ _ _ _ _ _ B H) as Q. unfold add_to in *.
    replace (dt r * d3x r * (radG_ye_em c - radG_ye_em c'')) with (dt r * d3x r * (radG_ye_em c' - radG_ye_em c'') + dt r * d3x r * (radG_ye_em c - radG_ye_em c')) by ring. rewrite P, Q. ring.
  - pose proof (b_jrad _ _ _ _ _ _ _ A H H0) as P. pose proof (b_jrad _ _ _ _ _ _ _ B H H0) as Q. unfold add_to in *.
    replace (DTd r * d3x r * gd y * (Jrad0 c'' - Jrad0 c)) with (DTd r * d3x r * gd y * (Jrad0 c'' - Jrad0 c') + DTd r * d3x r * gd y * (Jrad0 c' - Jrad0 c)) by ring. rewrite P, Q. ring.
  - pose proof (b_n _ _ _ _ _ _ _ A) as P. pose proof (b_n _ _ _ _ _ _ _ B) as Q. unfold add_to in *. lra.
  - pose proof (b_phys _ _ _ _ _ _ _ A ty) as P. pose proof (b_phys _ _ _ _ _ _ _ B ty) as Q. unfold add_to in *. lra.
Qed.
Lemma balance_other y new c : (forall p, In p new -> from y p = false) -> balance r u gd y new c c.
Proof.
  intros N. assert (F : filter (from y) new = []).
  { induction new as [|p new IH]; [reflexivity|]. cbn [filter]. rewrite N by (left; reflexivity). apply IH. intros q Hq. apply N. right. exact Hq. }
  split; intros; unfold add_to; rewrite F; cbn [total fold_right]; ring.
Qed.
Lemma emit_pairs_facts z Econ Ecov n : u (zone_of z) = ucon0 z -> gd (zone_of z) = gdet z -> forall head c ds ps c' rest,
  emit_pairs false r z Econ Ecov n head c ds = Got (ps, c') rest ->
  exists new, ps = new ++ head /\ length new = (2 * n)%nat /\ (forall p, In p new -> origin p = (nstep r, zi z, zj z, zk z)) /\
  balance r u gd (zone_of z) new c c'.
Proof.
  intros Hu Hg. induction n as [|n IH]; intros head c ds ps c' rest H.
  - cbn [emit_pairs] in H. injection H as <- <- <-. exists []. split; [reflexivity|]. split; [reflexivity|]. split; [intros p []|apply balance_refl].
  - cbn [emit_pairs] in H. apply bind_got in H. destruct H as ([[p q] c1] & ds1 & Hs & H).
    apply sample_facts in Hs. destruct Hs as (nu & n1 & n2 & n3 & Fp & Fq & -> & _).
    pose proof (pf_origin _ _ _ _ _ _ _ _ _ _ Fp) as Op. pose proof (pf_origin _ _ _ _ _ _ _ _ _ _ Fq) as Oq.
    apply IH in H. destruct H as (new & -> & L & O & Bl). exists (new ++ [p; q]). split; [rewrite <- app_assoc; reflexivity|].
    split; [rewrite app_length, L; cbn [length]; lia|]. split.
    + intros x Hx. apply in_app_iff in Hx. destruct Hx as [Hx|[<-|[<-|[]]]]; [apply O, Hx|exact Op|exact Oq].
    + eapply balance_app; [|exact Bl]. pose proof (balance_app (zone_of z) [p] [q] c _ _ (balance_one z p c Hu Hg Op) (balance_one z q _ Hu Hg Oq)) as Q.
      cbn [app] in Q. clear - Q. destruct Q as [Q1 Q2 Q3 Q4 Q5 Q6].
      assert (Sw : forall f, add_to r (zone_of z) [q; p] f = add_to r (zone_of z) [p; q] f).
      { intros f. unfold add_to. cbn [filter]. destruct (from (zone_of z) q), (from (zone_of z) p); unfold total; cbn [fold_right]; ring. }
      split; intros; rewrite <- Sw; auto.
Qed.
Lemma emit_sites_facts zs : Forall (fun zd => u (zone_of (fst zd)) = ucon0 (fst zd) /\ gd (zone_of (fst zd)) = gdet (fst zd)) zs -> forall e ds e' rest,
  emit_sites false r zs e ds = Got e' rest ->
  exists new, photons e' = new ++ photons e /\ (made e' - made e = Z.of_nat (length new))%Z /\
  forall y, balance r u gd y new (cells e y) (cells e' y).
Proof.
  induction zs as [|[z dnz] zs IH]; intros Hu e ds e' rest H; cbn [emit_sites] in H.
  - injection H as <- <-. exists []. split; [reflexivity|]. split; [cbn [length]; lia|]. intros y. apply balance_refl.
  - pose proof (Forall_inv Hu) as (Hz & Hg). apply Forall_inv_tail in Hu. cbn [fst] in Hz, Hg.
    apply bind_got in H. destruct H as (x & ds1 & _ & H). destruct (number_of_pairs dnz x) as [nz|]; [|discriminate].
    destruct (Z.ltb_spec 0 nz) as [P|P]; [|exact (IH Hu _ _ _ _ H)].
    destruct (make_tetrad _ _ _) as [[Econ Ecov]|]; [|discriminate].
    apply bind_got in H. destruct H as ([ps c] & ds2 & Hp & H).
    apply (emit_pairs_facts z Econ Ecov _ Hz Hg) in Hp. destruct Hp as (new1 & -> & L1 & O1 & B1).
    destruct (IH Hu _ _ _ _ H) as (new2 & P2 & M2 & B2). cbn [photons cells made] in P2, M2, B2.
    exists (new2 ++ new1). split; [rewrite P2, app_assoc; reflexivity|].
    split; [rewrite app_length, L1; lia|]. intros y. specialize (B2 y). eapply balance_app; [|exact B2].
    destruct (zone_eqb_spec y (zone_of z)) as [Ey|n]; [rewrite Ey; exact B1|]. apply balance_other.
    intros p Hp. unfold from. rewrite (O1 p Hp). destruct (zone_eqb_spec (zi z, zj z, zk z) y) as [e0|]; [|reflexivity].
    exfalso. apply n. symmetry. exact e0.
Qed.
End Conserve.

Lemma pairs_number dnz x : 0 <= dnz < 2147483647 -> exists f : Z, IZR f <= dnz < IZR f + 1 /\
  number_of_pairs dnz x = Some (if Rltb x (dnz - IZR f) then (f + 1)%Z else f).
Proof.
  intros Hd. exists (Int_part dnz). pose proof (Int_part_bounds dnz) as IB. split; [exact IB|].
  unfold number_of_pairs. rewrite (to_int_unique dnz (Int_part dnz)); [reflexivity| |exact IB].
  split.
  - assert (L : IZR (-1) < IZR (Int_part dnz)) by lra. apply lt_IZR in L. lia.
  - apply le_IZR. lra.
Qed.
