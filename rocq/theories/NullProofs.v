(** Null wave vectors, inflow check, Kerr-Schild metric. *)
From Coq Require Import Reals Bool Lia Lra.
From Verif Require Import RLib FluxModel GeomModel GeomSpec GeomProofs SpaceProofs.
Open Scope R_scope.

(** ** Null vectors *)
Definition null_B (G : mat) (K : vec) : R := G 0%nat 1%nat * K 1%nat + G 0%nat 2%nat * K 2%nat + G 0%nat 3%nat * K 3%nat.
Lemma null_form G K k0 : symmetric G -> forall N, N 0%nat = k0 -> (forall i, (1 <= i < 4)%nat -> N i = K i) ->
  inner G N N = G 0%nat 0%nat * k0 * k0 + 2 * null_B G K * k0 + spatial G K K.
Proof.
  intros S N E0 E. unfold inner, sigma4, null_B, spatial. rewrite E0, !E by lia.
  rewrite (S 1%nat 0%nat), (S 2%nat 0%nat), (S 3%nat 0%nat) by lia. ring.
Qed.
Lemma null_parts G K : symmetric G ->
  sum3 (fun mu => 2 * G mu 0%nat * K mu) = 2 * null_B G K /\
  sum3 (fun mu => sum3 (fun nu => G mu nu * K mu * K nu)) = spatial G K K.
Proof.
  intros S. unfold sum3, null_B, spatial. rewrite (S 1%nat 0%nat), (S 2%nat 0%nat), (S 3%nat 0%nat) by lia. split; ring.
Qed.
Lemma quad_root A B C s : A <> 0 -> s * s = B * B - 4 * A * C -> let x := (- B - s) / (2 * A) in A * x * x + B * x + C = 0.
Proof.
  intros N S x. unfold x. assert (E : C = (B * B - s * s) / (4 * A)) by (rewrite S; field; exact N). rewrite E. field. exact N.
Qed.
Lemma null_gen A B C : A < 0 -> 0 <= B * B - 4 * A * C ->
  let s := sqrt (Rabs (B * B - 4 * A * C)) in s * s = B * B - 4 * A * C /\ 0 <= s.
Proof.
  intros HA D s. split; [|apply sqrt_pos]. unfold s. rewrite Rabs_right by lra. apply sqrt_sqrt. exact D.
Qed.
Lemma null_ok G K : symmetric G -> G 0%nat 0%nat < 0 -> 0 <= spatial G K K ->
  exists N, normalize_null G K = Some N /\ inner G N N = 0 /\ (forall i, (1 <= i < 4)%nat -> N i = K i) /\ 0 <= N 0%nat /\
    (forall M, inner G M M = 0 -> (forall i, (1 <= i < 4)%nat -> M i = K i) -> M 0%nat <= N 0%nat).
Proof.
  intros S A P. unfold normalize_null. destruct (null_parts G K S) as [-> ->].
  destruct (Reqb_spec (G 0%nat 0%nat) 0) as [E|_]; [lra|]. eexists. split; [reflexivity|]. cbn [Nat.eqb].
  set (a := G 0%nat 0%nat) in *. set (b := null_B G K). set (c := spatial G K K) in *.
  assert (D : 0 <= 2 * b * (2 * b) - 4 * a * c) by nra.
  destruct (null_gen a (2 * b) c A D) as [SS S0]. set (s := sqrt _) in *. clearbody s.
  assert (QR := quad_root a (2 * b) c s ltac:(lra) SS). cbn zeta in QR.
  set (x := (- (2 * b) - s) / (2 * a)) in *.
  assert (EX : 2 * a * x = - (2 * b) - s) by (unfold x; field; lra).
  split; [|split; [|split]].
  - rewrite (null_form G K x S) by first [reflexivity | intros [|i] ?; [lia|reflexivity]]. fold a b c. lra.
  - intros [|i] Hi; [lia|reflexivity].
  - assert (- b * 2 <= s) by nra. nra.
  - intros M Z E. rewrite (null_form G K (M 0%nat) S M eq_refl E) in Z. fold a b c in Z.
    set (m := M 0%nat) in *. destruct (Rle_lt_dec m x) as [|L]; [assumption|exfalso].
    assert (F : a * (m - x) * (m - x) + (2 * a * x + 2 * b) * (m - x) = 0) by nra.
    rewrite EX in F. assert (F2 : (m - x) * (a * (m - x) - s) = 0) by lra.
    apply Rmult_integral in F2. destruct F2; [lra|]. nra.
Qed.
Lemma inverse_sym G C : symmetric G -> inverse G C -> symmetric C.
Proof.
  intros S I i j Hi Hj.
  assert (T : forall k l, (k < 4)%nat -> (l < 4)%nat -> sigma4 (fun m => C m k * G m l) = delta k l).
  { intros k l Hk Hl. transitivity (sigma4 (fun m => G l m * C m k)).
    - unfold sigma4. rewrite !(fun m Hm => S m l Hm Hl) by lia. ring.
    - rewrite (I l k Hl Hk). unfold delta. rewrite Nat.eqb_sym. reflexivity. }
  symmetry. transitivity (sigma4 (fun k => delta j k * C k i)).
  { clear - Hj. revert j Hj. apply four_cases; unfold sigma4, delta; cbn [Nat.eqb]; ring. }
  transitivity (sigma4 (fun k => sigma4 (fun m => C m j * G m k) * C k i)).
  { unfold sigma4 at 1 2. rewrite !(fun k Hk => T j k Hj Hk) by lia. reflexivity. }
  transitivity (sigma4 (fun m => C m j * sigma4 (fun k => G m k * C k i))).
  { unfold sigma4. ring. }
  unfold sigma4 at 1. rewrite !(fun m Hm => I m i Hm Hi) by lia.
  clear - Hi. revert i Hi. apply four_cases; unfold delta; cbn [Nat.eqb]; ring.
Qed.

Section COV.
Variables (G : mat) (alpha : R) (beta : vec).
Hypothesis ST : spacetime G alpha beta.
Notation gcon := (fst (gcon_func G)).
Lemma gcon_sym : symmetric gcon.
Proof. apply (inverse_sym G); [apply (st_sym G alpha beta ST)|apply (st_inv G alpha beta ST)]. Qed.
Lemma inner_raise K : inner G (raise K gcon) (raise K gcon) = inner gcon K K.
Proof.
  pose proof gcon_sym as S. destruct (st_inv G alpha beta ST) as [I J]. set (C := gcon) in *. clearbody C.
  assert (L : forall i, (i < 4)%nat -> sigma4 (fun j => G i j * raise K C j) = K i).
  { intros i Hi. unfold raise.
    transitivity (sigma4 (fun l => sigma4 (fun j => G i j * C j l) * K l)).
    - unfold sigma4, sum4. ring.
    - unfold sigma4 at 1. rewrite !(fun l Hl => I i l Hi Hl) by lia. revert i Hi. apply four_cases; unfold delta; cbn [Nat.eqb]; ring. }
  unfold inner. unfold sigma4 at 1. rewrite !L by lia. unfold raise, sum4, sigma4.
  rewrite (S 1%nat 0%nat), (S 2%nat 0%nat), (S 3%nat 0%nat), (S 2%nat 1%nat), (S 3%nat 1%nat), (S 3%nat 2%nat) by lia. ring.
Qed.
Lemma null_cov_ok K : exists N, normalize_null_cov gcon K = Some N /\ inner gcon N N = 0 /\
  (forall i, (1 <= i < 4)%nat -> N i = K i) /\ inner G (raise N gcon) (raise N gcon) = 0 /\ 0 <= raise N gcon 0%nat.
Proof.
  pose proof gcon_sym as S. pose proof (st_alpha G alpha beta ST) as Ha.
  assert (A : gcon 0%nat 0%nat < 0).
  { rewrite (gcon_00 G alpha beta ST). assert (0 < / (alpha * alpha)) by (apply Rinv_0_lt_compat; nra). lra. }
  unfold normalize_null_cov. destruct (null_parts gcon K S) as [-> ->].
  destruct (Reqb_spec (gcon 0%nat 0%nat) 0) as [E|_]; [lra|].
  set (b := null_B gcon K). set (c := spatial gcon K K).
  assert (D : 0 <= 2 * b * (2 * b) - 4 * gcon 0%nat 0%nat * c).
  { pose (k0 := - b / gcon 0%nat 0%nat). pose (N := fun i : nat => if Nat.eqb i 0 then k0 else K i).
    assert (V0 : raise N gcon 0%nat = 0).
    { unfold raise, sum4, N. cbn [Nat.eqb]. unfold k0, b, null_B. field. lra. }
    assert (P : 0 <= inner gcon N N).
    { rewrite <- inner_raise, (st_split G alpha beta ST), V0.
      pose proof (sp_nonneg G alpha beta ST (shifted beta (raise N gcon))). lra. }
    rewrite (null_form gcon K k0 S) in P by first [reflexivity | intros [|i] ?; [lia|reflexivity]]. fold b c in P.
    assert (X : gcon 0%nat 0%nat * k0 = - b) by (unfold k0; field; lra).
    assert (Y : c - b * b / gcon 0%nat 0%nat >= 0).
    { replace (gcon 0%nat 0%nat * k0 * k0 + 2 * b * k0 + c) with (c - b * b / gcon 0%nat 0%nat) in P by (unfold k0; field; lra). lra. }
    replace (2 * b * (2 * b) - 4 * gcon 0%nat 0%nat * c) with (4 * - gcon 0%nat 0%nat * (c - b * b / gcon 0%nat 0%nat)) by (field; lra).
    apply Rmult_le_pos; lra. }
  destruct (null_gen (gcon 0%nat 0%nat) (2 * b) c A D) as [SS S0]. set (s := sqrt _) in *.
  eexists. split; [reflexivity|]. cbn [Nat.eqb]. clearbody s.
  set (x := (- (2 * b) + s) / (2 * gcon 0%nat 0%nat)).
  set (N := fun mu : nat => if (mu =? 0)%nat then x else K mu).
  assert (Z : inner gcon N N = 0).
  { rewrite (null_form gcon K x S) by first [reflexivity | intros [|i] ?; [lia|reflexivity]]. fold b c.
    assert (QR := quad_root (gcon 0%nat 0%nat) (2 * b) c (- s) ltac:(lra) ltac:(lra)). cbn zeta in QR.
    replace (- (2 * b) - - s) with (- (2 * b) + s) in QR by ring. fold x in QR. lra. }
  split; [exact Z|]. split; [intros [|i] ?; [lia|reflexivity]|]. split; [rewrite inner_raise; exact Z|].
  unfold raise, sum4, N. cbn [Nat.eqb].
  assert (EX : 2 * gcon 0%nat 0%nat * x = - (2 * b) + s) by (unfold x; field; lra).
  unfold b, null_B in EX. lra.
Qed.

(** ** Inflow check *)
Definition vsq_of (U : vec) : R :=
  let V := fun i : nat => if Nat.eqb i 1 then beta 1%nat / alpha else U i / sqrt (1 + spatial G U U) in spatial G V V.
Definition ucon1 (U : vec) (x : R) : Prop := exists u, ucon_calc G gcon (lapse gcon) U = Some u /\ u 1%nat = x.

Lemma ucon1_val U : ucon1 U (U 1%nat - sqrt (1 + spatial G U U) * beta 1%nat / alpha).
Proof.
  unfold ucon1, ucon_calc. rewrite (gamma_defined G alpha beta ST), (lapse_alpha G alpha beta ST).
  eexists. split; [reflexivity|]. cbn [Nat.eqb]. rewrite (gcon_0i G alpha beta ST) by lia.
  pose proof (st_alpha G alpha beta ST). field. lra.
Qed.
Lemma inflow_case U (type : bool) :
  (exists x, ucon1 U x /\ (if type then 0 <= x else x <= 0) /\ inflow_check G gcon (lapse gcon) U type = Some U) \/
  (exists x, ucon1 U x /\ (if type then x < 0 else 0 < x) /\
   exists g V, inflow_check G gcon (lapse gcon) U type = Some (fun i => V i * g) /\ V 1%nat = beta 1%nat / alpha /\
     spatial G V V = vsq_of U /\ (forall i, (2 <= i < 4)%nat -> V i = U i / sqrt (1 + spatial G U U)) /\ 0 < g /\
     (/ 10 ^ 13 <= vsq_of U < 1 -> g * g * (1 - vsq_of U) = 1) /\
     (vsq_of U < / 10 ^ 13 -> g * g * (1 - / 10 ^ 13) = 1) /\
     (1 <= vsq_of U -> g = 50)).
Proof.
  pose proof (ucon1_val U) as HU. set (x := U 1%nat - sqrt (1 + spatial G U U) * beta 1%nat / alpha) in HU.
  unfold inflow_check. destruct HU as (u & EU & Ex). rewrite EU. cbv beta iota. rewrite Ex, (gamma_defined G alpha beta ST).
  assert (C : (Rltb 0 x && negb type || Rltb x 0 && type)%bool = (if type then Rltb x 0 else Rltb 0 x)).
  { destruct type; cbn [negb]; rewrite ?andb_false_r, ?andb_true_r, ?orb_false_r; reflexivity. }
  rewrite C. destruct (if type then Rltb x 0 else Rltb 0 x) eqn:E.
  2:{ left. exists x. split; [exists u; auto|]. split; [|reflexivity]. destruct type; [destruct (Rltb_spec x 0)|destruct (Rltb_spec 0 x)]; try discriminate; lra. }
  right. exists x. split; [exists u; auto|]. split.
  { destruct type; [destruct (Rltb_spec x 0)|destruct (Rltb_spec 0 x)]; try discriminate; lra. }
  rewrite (lapse_alpha G alpha beta ST), (gcon_0i G alpha beta ST) by lia. pose proof (st_alpha G alpha beta ST) as Ha.
  pose (V := fun i : nat => if (i =? 1)%nat then beta 1%nat / (alpha * alpha) * alpha * alpha / alpha else U i / sqrt (1 + spatial G U U)).
  pose (vs := sum3 (fun mu => sum3 (fun nu => G mu nu * V mu * V nu))).
  pose (v2 := if Rltb (Rabs vs) (/ 10 ^ 13) then / 10 ^ 13 else vs).
  match goal with |- exists g W, ?T = _ /\ _ => change T with
    (Some (fun i => V i * (1 / sqrt (1 - (if Rleb 1 v2 then 1 - 1 / (GAMMAMAX * GAMMAMAX) else v2))))) end.
  unfold v2, vs. clear v2 vs.
  replace (sum3 (fun mu => sum3 (fun nu => G mu nu * V mu * V nu))) with (spatial G V V) by (unfold sum3, spatial; ring).
  assert (EV : spatial G V V = vsq_of U).
  { unfold vsq_of. cbn zeta. replace (beta 1%nat / alpha) with (beta 1%nat / (alpha * alpha) * alpha * alpha / alpha) by (field; lra). reflexivity. }
  assert (P : 0 <= spatial G V V) by apply (sp_nonneg G alpha beta ST).
  assert (V1 : V 1%nat = beta 1%nat / alpha) by (unfold V; cbn [Nat.eqb]; field; lra).
  assert (V2 : forall i, (2 <= i < 4)%nat -> V i = U i / sqrt (1 + spatial G U U)).
  { intros i Hi. unfold V. destruct (Nat.eqb_spec i 1); [lia|reflexivity]. }
  rewrite EV in *. clearbody V. set (q := vsq_of U) in *. clearbody q.
  assert (Tiny : 0 < / 10 ^ 13 < 1 / 2) by lra.
  set (e := / 10 ^ 13) in *. clearbody e. rewrite (Rabs_right q) by lra.
  assert (G1 : forall y, y < 1 -> 0 < 1 / sqrt (1 - y) /\ 1 / sqrt (1 - y) * (1 / sqrt (1 - y)) * (1 - y) = 1).
  { intros y Hy. assert (R0 : 0 < sqrt (1 - y)) by (apply sqrt_lt_R0; lra). split; [apply Rdiv_lt_0_compat; lra|].
    assert (RR : sqrt (1 - y) * sqrt (1 - y) = 1 - y) by (apply sqrt_sqrt; lra).
    rewrite <- RR at 3. field. lra. }
  assert (GM : 1 / sqrt (1 - (1 - 1 / (GAMMAMAX * GAMMAMAX))) = 50).
  { unfold GAMMAMAX. replace (1 - (1 - 1 / (50 * 50))) with (/ 50 * / 50) by field. rewrite sqrt_square by lra. field. }
  destruct (Rltb_spec q e) as [L|L].
  - destruct (Rleb_spec 1 e); [lra|]. destruct (G1 e ltac:(lra)) as [X Y].
    eexists _, V. split; [reflexivity|]. repeat split; try assumption; intros; try lra; auto.
  - destruct (Rleb_spec 1 q) as [M|M].
    + rewrite GM. eexists _, V. split; [reflexivity|]. repeat split; try assumption; intros; try lra; auto.
    + destruct (G1 q ltac:(lra)) as [X Y]. eexists _, V. split; [reflexivity|].
      repeat split; try assumption; intros; try lra; auto.
Qed.
Lemma rescaled_ucon1 V g q : V 1%nat = beta 1%nat / alpha -> spatial G V V = q -> 0 < g ->
  ucon1 (fun i => V i * g) (beta 1%nat / alpha * (g - sqrt (1 + g * g * q))).
Proof.
  intros E Q Hg. pose proof (ucon1_val (fun i => V i * g)) as H.
  replace (spatial G (fun i => V i * g) (fun i => V i * g)) with (g * g * q) in H by (rewrite <- Q; unfold spatial; ring).
  rewrite E in H. replace (beta 1%nat / alpha * (g - sqrt (1 + g * g * q))) with
   (beta 1%nat / alpha * g - sqrt (1 + g * g * q) * beta 1%nat / alpha) by (pose proof (st_alpha G alpha beta ST); field; lra).
  exact H.
Qed.
Lemma ucon1_fun U x y : ucon1 U x -> ucon1 U y -> x = y.
Proof. intros (u & E & <-) (v & E' & <-). congruence. Qed.
(** The ordinary case: no inflow at either boundary *)
Lemma inflow_ok U (type : bool) : / 10 ^ 13 <= vsq_of U < 1 ->
  exists V x, inflow_check G gcon (lapse gcon) U type = Some V /\ ucon1 V x /\ (if type then 0 <= x else x <= 0).
Proof.
  intros Q. destruct (inflow_case U type) as [(x & A & B & C)|(x & _ & _ & g & V & E & V1 & EV & _ & Hg & C1 & _ & _)].
  - exists U, x. auto.
  - specialize (C1 Q). exists (fun i => V i * g), 0. split; [exact E|]. split; [|destruct type; lra].
    pose proof (rescaled_ucon1 V g (vsq_of U) V1 EV Hg) as H.
    replace (1 + g * g * vsq_of U) with (g * g) in H by lra. rewrite sqrt_square in H by lra.
    replace (beta 1%nat / alpha * (g - g)) with 0 in H by ring. exact H.
Qed.
(** Outward shift: nothing leaves the hole once the speed is not tiny *)
Lemma inflow_inner U : 0 <= beta 1%nat -> / 10 ^ 13 <= vsq_of U ->
  exists V x, inflow_check G gcon (lapse gcon) U false = Some V /\ ucon1 V x /\ x <= 0.
Proof.
  intros B Q. destruct (Rlt_le_dec (vsq_of U) 1) as [L|L].
  - destruct (inflow_ok U false) as (V & x & A & C & D); [lra|]. exists V, x. auto.
  - destruct (inflow_case U false) as [(x & A & D & C)|(x & _ & _ & g & V & E & V1 & EV & _ & Hg & _ & _ & C3)].
    + exists U, x. auto.
    + specialize (C3 L). subst g.
      eexists _, _. split; [exact E|]. split; [apply (rescaled_ucon1 V 50 (vsq_of U) V1 EV Hg)|].
      pose proof (st_alpha G alpha beta ST).
      assert (50 <= sqrt (1 + 50 * 50 * vsq_of U)).
      { rewrite <- (sqrt_square 50) at 1 by lra. apply sqrt_le_1_alt. lra. }
      assert (0 <= beta 1%nat / alpha) by (apply Rmult_le_pos; [lra|apply Rlt_le, Rinv_0_lt_compat; lra]). nra.
Qed.
(** and what is left over otherwise *)
Lemma inflow_outer_bad U x : 0 < beta 1%nat -> 1 < vsq_of U -> ucon1 U x -> x < 0 ->
  exists V y, inflow_check G gcon (lapse gcon) U true = Some V /\ ucon1 V y /\ y < 0.
Proof.
  intros B Q HX Neg. destruct (inflow_case U true) as [(x' & A & D & C)|(x' & _ & _ & g & V & E & V1 & EV & _ & Hg & _ & _ & C3)].
  - rewrite (ucon1_fun _ _ _ HX A) in Neg. lra.
  - rewrite (C3 ltac:(lra)) in *. eexists _, _. split; [exact E|]. split; [apply (rescaled_ucon1 V 50 (vsq_of U) V1 EV Hg)|].
    pose proof (st_alpha G alpha beta ST).
    assert (50 < sqrt (1 + 50 * 50 * vsq_of U)).
    { rewrite <- (sqrt_square 50) at 1 by lra. apply sqrt_lt_1_alt. lra. }
    assert (0 < beta 1%nat / alpha) by (apply Rdiv_lt_0_compat; lra). nra.
Qed.
Lemma inflow_inner_bad U x : 0 < beta 1%nat -> vsq_of U < / 10 ^ 13 -> ucon1 U x -> 0 < x ->
  exists V y, inflow_check G gcon (lapse gcon) U false = Some V /\ ucon1 V y /\ 0 < y.
Proof.
  intros B Q HX Pos. destruct (inflow_case U false) as [(x' & A & D & C)|(x' & _ & _ & g & V & E & V1 & EV & _ & Hg & _ & C2 & _)].
  - rewrite (ucon1_fun _ _ _ HX A) in Pos. lra.
  - specialize (C2 Q). eexists _, _. split; [exact E|]. split; [apply (rescaled_ucon1 V g (vsq_of U) V1 EV Hg)|].
    pose proof (st_alpha G alpha beta ST).
    assert (sqrt (1 + g * g * vsq_of U) < g).
    { rewrite <- (sqrt_square g) at 3 by lra. 
      apply sqrt_lt_1_alt. split.
      - rewrite <- EV. pose proof (sp_nonneg G alpha beta ST V). assert (0 <= g * g) by nra.
        assert (0 <= g * g * spatial G V V) by (apply Rmult_le_pos; lra). lra.
      - assert (0 < g * g) by nra. nra. }
    assert (0 < beta 1%nat / alpha) by (apply Rdiv_lt_0_compat; lra). nra.
Qed.
End COV.

(** ** Changing coordinates; Kerr-Schild *)
Definition spatial_map (M : mat) (v : vec) : vec := fun i =>
  M i 1%nat * v 1%nat + M i 2%nat * v 2%nat + M i 3%nat * v 3%nat.
Lemma to_code_st G alpha beta M beta' : spacetime G alpha beta -> M 0%nat 0%nat = 1 ->
  (forall i, (1 <= i < 4)%nat -> M 0%nat i = 0 /\ M i 0%nat = 0) ->
  (forall p : vec, (p 1%nat <> 0 \/ p 2%nat <> 0 \/ p 3%nat <> 0) ->
     spatial_map M p 1%nat <> 0 \/ spatial_map M p 2%nat <> 0 \/ spatial_map M p 3%nat <> 0) ->
  (forall i, (1 <= i < 4)%nat -> spatial_map M beta' i = beta i) ->
  spacetime (to_code G M) alpha beta'.
Proof.
  intros ST M00 M0 Inj Sh. pose proof ST as (S & Ha & P & E0 & E).
  assert (Z1 := M0 1%nat ltac:(lia)). assert (Z2 := M0 2%nat ltac:(lia)). assert (Z3 := M0 3%nat ltac:(lia)).
  destruct Z1 as [a1 b1], Z2 as [a2 b2], Z3 as [a3 b3].
  assert (SP : forall p q, spatial (to_code G M) p q = spatial G (spatial_map M p) (spatial_map M q)).
  { intros p q. unfold spatial, to_code, spatial_map, sum4. rewrite a1, a2, a3. ring. }
  split; [|split; [exact Ha|split; [|split]]].
  - intros i j Hi Hj. unfold to_code, sum4.
    rewrite (S 1%nat 0%nat), (S 2%nat 0%nat), (S 3%nat 0%nat), (S 2%nat 1%nat), (S 3%nat 1%nat), (S 3%nat 2%nat) by lia. ring.
  - intros p Hp. rewrite SP. apply P, Inj, Hp.
  - rewrite SP. replace (spatial G (spatial_map M beta') (spatial_map M beta')) with (spatial G beta beta)
      by (unfold spatial; rewrite !Sh by lia; reflexivity).
    rewrite <- E0. unfold to_code, sum4. rewrite M00, b1, b2, b3. ring.
  - intros i Hi. transitivity (sigma4 (fun k => G 0%nat k * M k i)).
    { unfold to_code, sum4, sigma4. rewrite M00, b1, b2, b3. ring. }
    unfold sigma4. rewrite (E 1%nat), (E 2%nat), (E 3%nat), <- (Sh 1%nat), <- (Sh 2%nat), <- (Sh 3%nat) by lia.
    unfold to_code, sum4, spatial_map.
    rewrite a1, a2, a3. rewrite (proj1 (M0 i Hi)).
    rewrite (S 2%nat 1%nat), (S 3%nat 1%nat), (S 3%nat 2%nat) by lia. ring.
Qed.

Lemma ks_st a r th : 0 < r -> sin th <> 0 ->
  let x := 2 * r / (r * r + a * a * cos th * cos th) in
  spacetime (ks_gcov a r th) (sqrt (/ (1 + x))) (fun i => match i with 1%nat => x / (1 + x) | _ => 0 end).
Proof.
  intros Hr Hs x. set (rho2 := r * r + a * a * cos th * cos th) in *.
  assert (Hrho : 0 < rho2).
  { unfold rho2. assert (0 <= (a * cos th) * (a * cos th)) by apply Rle_0_sqr. assert (0 < r * r) by nra. lra. }
  assert (Hx : 0 < x) by (apply Rdiv_lt_0_compat; lra).
  assert (Hi : 0 < / (1 + x)) by (apply Rinv_0_lt_compat; lra).
  assert (H2 : 0 < sin th * sin th) by (destruct (Rtotal_order (sin th) 0) as [|[|]]; [nra|contradiction|nra]).
  assert (Gv : forall i j, ks_gcov a r th i j = match i, j with
    | 0%nat, 0%nat => -1 + x | 0%nat, 1%nat | 1%nat, 0%nat => x
    | 0%nat, 3%nat | 3%nat, 0%nat => - a * (sin th * sin th) * x
    | 1%nat, 1%nat => 1 + x | 1%nat, 3%nat | 3%nat, 1%nat => - a * (sin th * sin th) * (1 + x)
    | 2%nat, 2%nat => rho2 | 3%nat, 3%nat => sin th * sin th * (rho2 + a * a * (sin th * sin th) * (1 + x)) | _, _ => 0 end).
  { intros i j. unfold ks_gcov. fold rho2. fold x. 
    destruct i as [|[|[|[|i]]]], j as [|[|[|[|j]]]]; try reflexivity;
      unfold x, Rdiv; ring. }
  clearbody x. set (s2 := sin th * sin th) in *. clearbody s2. clearbody rho2.
  split; [|split; [|split; [|split]]].
  - intros i j Hi' Hj. rewrite !Gv. revert i j Hi' Hj. apply two_cases; reflexivity.
  - now apply sqrt_lt_R0.
  - intros p Hp. unfold spatial. rewrite !Gv.
    replace (_ + _ + _) with ((1 + x) * ((p 1%nat - a * s2 * p 3%nat) * (p 1%nat - a * s2 * p 3%nat)) +
       rho2 * (p 2%nat * p 2%nat) + s2 * rho2 * (p 3%nat * p 3%nat)) by ring.
    assert (Sq : forall y, y <> 0 -> 0 < y * y) by (intros y Hy; destruct (Rtotal_order y 0) as [|[|]]; [nra|contradiction|nra]).
    assert (T1 : 0 <= (1 + x) * ((p 1%nat - a * s2 * p 3%nat) * (p 1%nat - a * s2 * p 3%nat))).
    { apply Rmult_le_pos; [lra|apply Rle_0_sqr]. }
    assert (T2 : 0 <= rho2 * (p 2%nat * p 2%nat)) by (apply Rmult_le_pos; [lra|apply Rle_0_sqr]).
    assert (T0 : 0 < s2 * rho2) by (apply Rmult_lt_0_compat; lra).
    assert (T3 : 0 <= s2 * rho2 * (p 3%nat * p 3%nat)) by (apply Rmult_le_pos; [lra|apply Rle_0_sqr]).
    destruct (Req_dec (p 3%nat) 0) as [Z3|N3].
    + destruct (Req_dec (p 2%nat) 0) as [Z2|N2].
      * assert (N1 : p 1%nat <> 0) by (destruct Hp as [|[|]]; [assumption|contradiction|contradiction]).
        rewrite Z3 in *. assert (0 < (1 + x) * ((p 1%nat - a * s2 * 0) * (p 1%nat - a * s2 * 0))).
        { apply Rmult_lt_0_compat; [lra|]. apply Sq. lra. } lra.
      * assert (0 < rho2 * (p 2%nat * p 2%nat)) by (apply Rmult_lt_0_compat; [lra|apply Sq, N2]). lra.
    + assert (0 < s2 * rho2 * (p 3%nat * p 3%nat)) by (apply Rmult_lt_0_compat; [lra|apply Sq, N3]). lra.
  - replace (- sqrt (/ (1 + x)) * sqrt (/ (1 + x))) with (- (sqrt (/ (1 + x)) * sqrt (/ (1 + x)))) by ring.
    rewrite sqrt_sqrt by lra. unfold spatial. rewrite !Gv. field. lra.
  - intros i Hi'. rewrite !Gv. destruct i as [|[|[|[|i]]]]; try lia; field; lra.
Qed.
Lemma ks_det a r th : 0 < r -> let rho2 := r * r + a * a * cos th * cos th in
  determinant (flat (ks_gcov a r th)) = - (rho2 * rho2 * (sin th * sin th)).
Proof.
  intros Hr rho2. assert (Hrho : 0 < rho2).
  { unfold rho2. assert (0 <= (a * cos th) * (a * cos th)) by apply Rle_0_sqr. assert (0 < r * r) by nra. lra. }
  unfold determinant, MINOR, flat, ks_gcov. fold rho2. cbn [Nat.mul Nat.add Nat.div Nat.modulo Nat.divmod fst snd Nat.sub].
  field. lra.
Qed.

Lemma det_spec g : determinant (flat g) = det 4 g.
Proof.
  unfold determinant, MINOR, flat, det. cbn [Nat.mul Nat.add Nat.div Nat.modulo Nat.divmod fst snd Nat.sub].
  cbn [List.seq List.fold_right Nat.ltb Nat.leb pow]. ring.
Qed.
Lemma gdet_spec g : let d := snd (gcon_func g) in 0 <= d /\ d * d = Rabs (det 4 g).
Proof.
  cbv zeta. unfold gcon_func, invert. cbv zeta. cbn [snd]. split; [apply sqrt_pos|].
  rewrite <- det_spec. apply sqrt_sqrt, Rabs_pos.
Qed.
Lemma st_gdet G alpha beta : spacetime G alpha beta ->
  0 < snd (gcon_func G) /\ snd (gcon_func G) * snd (gcon_func G) = - det 4 G.
Proof.
  intros ST. destruct (gdet_spec G) as [A B]. pose proof (st_det_neg G alpha beta ST) as N. rewrite det_spec in N.
  rewrite Rabs_left in B by exact N. split; [|exact B]. assert (snd (gcon_func G) <> 0) by (intros E; rewrite E in B; lra). lra.
Qed.
Lemma code_st G alpha beta M beta' : spacetime G alpha beta -> time_preserving M -> same3 (spatial_image M beta') beta ->
  spacetime (to_code G M) alpha beta'.
Proof.
  intros ST (M00 & M0 & Inj) Sh. apply (to_code_st G alpha beta M beta' ST M00 M0); [|exact Sh].
  intros p Hp. 
  destruct (Req_dec (spatial_map M p 1%nat) 0) as [E1|]; [|now left].
  destruct (Req_dec (spatial_map M p 2%nat) 0) as [E2|]; [|right; now left].
  destruct (Req_dec (spatial_map M p 3%nat) 0) as [E3|]; [|right; now right]. exfalso.
  assert (Z : forall i, (1 <= i < 4)%nat -> p i = 0).
  { apply Inj. intros [|[|[|[|i]]]] Hi; try lia; assumption. }
  rewrite !Z in Hp by lia. tauto.
Qed.

(** A flat slice seen by observers drifting in direction 1: lapse 1, shift b. *)
Definition drift (b : R) : mat := fun i j => match i, j with
  | 0%nat, 0%nat => -1 + b * b | 0%nat, 1%nat | 1%nat, 0%nat => b
  | 1%nat, 1%nat | 2%nat, 2%nat | 3%nat, 3%nat => 1 | _, _ => 0 end.
Definition drift_beta (b : R) : vec := fun i => match i with 1%nat => b | _ => 0 end.
Lemma drift_st b : spacetime (drift b) 1 (drift_beta b).
Proof.
  split; [|split; [lra|split; [|split]]].
  - unfold symmetric. apply two_cases; reflexivity.
  - intros p Hp. unfold spatial, drift.
    replace (_ + _ + _) with (p 1%nat * p 1%nat + p 2%nat * p 2%nat + p 3%nat * p 3%nat) by ring.
    assert (Sq : forall y, y <> 0 -> 0 < y * y) by (intros y Hy; destruct (Rtotal_order y 0) as [|[|]]; [nra|contradiction|nra]).
    pose proof (Rle_0_sqr (p 1%nat)) as A. pose proof (Rle_0_sqr (p 2%nat)) as B. pose proof (Rle_0_sqr (p 3%nat)) as C. unfold Rsqr in *.
    destruct Hp as [H|[H|H]]; apply Sq in H; lra.
  - unfold spatial, drift, drift_beta. ring.
  - intros [|[|[|[|i]]]] Hi; try lia; unfold drift, drift_beta; ring.
Qed.
Lemma drift_spatial b p : spatial (drift b) p p = p 1%nat * p 1%nat + p 2%nat * p 2%nat + p 3%nat * p 3%nat.
Proof. unfold spatial, drift. ring. Qed.
Definition vec4 (a b c d : R) : vec := fun i => match i with 0%nat => a | 1%nat => b | 2%nat => c | _ => d end.

(** The ergoregion: no null vector with these spatial components. *)
Lemma ergo_bad : exists N, normalize_null (drift 2) (vec4 0 0 1 0) = Some N /\ inner (drift 2) N N <> 0 /\
  forall M, same3 M (vec4 0 0 1 0) -> inner (drift 2) M M <> 0.
Proof.
  unfold normalize_null. destruct (Reqb_spec (drift 2 0%nat 0%nat) 0) as [E|_]; [unfold drift in E; lra|].
  assert (F : forall M, same3 M (vec4 0 0 1 0) -> inner (drift 2) M M <> 0).
  { intros M H. unfold inner, sigma4. rewrite (H 1%nat), (H 2%nat), (H 3%nat) by lia. unfold drift, vec4.
    assert (0 <= M 0%nat * M 0%nat) by apply Rle_0_sqr. intros Z. ring_simplify in Z. nra. }
  eexists. split; [reflexivity|]. split; [|exact F]. apply F. intros [|i] Hi; [lia|reflexivity].
Qed.
Lemma drift_outer_bad : exists V y,
  inflow_check (drift (1/2)) (fst (gcon_func (drift (1/2)))) (lapse (fst (gcon_func (drift (1/2))))) (vec4 0 0 (12/5) 0) true = Some V /\
  ucon1 (drift (1/2)) V y /\ y < 0.
Proof.
  pose proof (drift_st (1/2)) as ST.
  assert (Sq : sqrt (1 + spatial (drift (1/2)) (vec4 0 0 (12/5) 0) (vec4 0 0 (12/5) 0)) = 13/5).
  { rewrite drift_spatial. unfold vec4. replace (1 + _) with (13/5 * (13/5)) by field. apply sqrt_square. lra. }
  pose proof (ucon1_val (drift (1/2)) 1 (drift_beta (1/2)) ST (vec4 0 0 (12/5) 0)) as U.
  apply (inflow_outer_bad (drift (1/2)) 1 (drift_beta (1/2)) ST (vec4 0 0 (12/5) 0) _) with (3 := U).
  - unfold drift_beta. lra.
  - unfold vsq_of. cbv zeta. rewrite Sq, drift_spatial. cbn [Nat.eqb]. unfold drift_beta, vec4. lra.
  - rewrite Sq. unfold vec4, drift_beta. lra.
Qed.
Lemma drift_inner_bad : exists V y,
  inflow_check (drift (/ 10 ^ 8)) (fst (gcon_func (drift (/ 10 ^ 8)))) (lapse (fst (gcon_func (drift (/ 10 ^ 8))))) (vec4 0 1 0 0) false = Some V /\
  ucon1 (drift (/ 10 ^ 8)) V y /\ 0 < y.
Proof.
  pose proof (drift_st (/ 10 ^ 8)) as ST.
  pose proof (ucon1_val (drift (/ 10 ^ 8)) 1 (drift_beta (/ 10 ^ 8)) ST (vec4 0 1 0 0)) as U.
  apply (inflow_inner_bad (drift (/ 10 ^ 8)) 1 (drift_beta (/ 10 ^ 8)) ST (vec4 0 1 0 0) _) with (3 := U).
  - unfold drift_beta. lra.
  - unfold vsq_of. cbv zeta. rewrite drift_spatial. cbn [Nat.eqb]. unfold drift_beta, vec4.
    assert (Z : forall z, 0 / z = 0) by (intros; unfold Rdiv; ring). rewrite !Z. lra.
  - rewrite drift_spatial. unfold vec4, drift_beta.
    assert (sqrt (1 + (1 * 1 + 0 * 0 + 0 * 0)) <= 2).
    { apply Rle_trans with (sqrt (2 * 2)); [apply sqrt_le_1_alt; lra|rewrite sqrt_square; lra]. } lra.
Qed.
