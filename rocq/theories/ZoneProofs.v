(** The fluid seen by the radiation: proofs. *)
From Coq Require Import Reals Bool Lia Lra.
From Verif Require Import RLib FluxModel GeomModel GeomSpec GeomProofs SpaceProofs ZoneModel ZoneSpec.
Open Scope R_scope.

Section ST.
Variables (G : mat) (alpha : R) (beta : vec).
Hypothesis ST : spacetime G alpha beta.
Let gcon := fst (gcon_func G).
Lemma zone_vel V : exists u, ucon_calc G gcon (lapse gcon) V = Some u /\ same4 (zone_ucon G gcon V) u.
Proof using ST.
  pose proof (gamma_defined G alpha beta ST V) as GD. pose proof (lapse_alpha G alpha beta ST) as LA. pose proof (st_alpha G alpha beta ST) as A. unfold ucon_calc. fold gcon in LA. rewrite GD, LA. eexists. split; [reflexivity|].
  pose proof (gcon_00 G alpha beta ST) as G0. fold gcon in G0. pose proof (sp_nonneg G alpha beta ST V) as SN.
  set (s := spatial G V V) in *.
  assert (VD : sum3 (fun l => sum3 (fun m => G l m * V l * V m)) = s) by (unfold sum3, s, spatial; ring).
  assert (VF : sqrt (- 1 / gcon 0%nat 0%nat * (1 + Rabs (sum3 (fun l => sum3 (fun m => G l m * V l * V m))))) = alpha * sqrt (1 + s)).
  { rewrite VD, G0, (Rabs_pos_eq s) by exact SN. replace (- 1 / - / (alpha * alpha) * (1 + s)) with (alpha * alpha * (1 + s)) by (field; lra).
    rewrite sqrt_mult by (try lra; apply Rlt_le, Rmult_lt_0_compat; lra). rewrite sqrt_square by lra. reflexivity. }
  intros i Hi. unfold zone_ucon. rewrite VF. destruct (Nat.eqb_spec i 0) as [->|N].
  - rewrite G0. field. lra.
  - ring.
Qed.
Lemma zone_unit V : inner G (zone_ucon G gcon V) (zone_ucon G gcon V) = -1 /\ 0 < zone_ucon G gcon V 0%nat.
Proof using ST.
  destruct (zone_vel V) as (u & E & S). destruct (ucon_ok G alpha beta ST V) as (u' & E' & N & P & _). fold gcon in E'. rewrite E in E'. injection E' as <-. split; [|rewrite S by lia; exact P].
  rewrite <- N. unfold inner, sigma4. rewrite !S by lia. reflexivity.
Qed.
(** *** the field *)
Lemma zone_field V B bu : let z := fluid_zone bu G gcon V B in let u := zone_ucon G gcon V in let b := bcon B u (lower u G) in
  same4 (zBcon z) (fun i => bu * b i) /\ inner G (zBcon z) (zUcon z) = 0 /\ zB z = Rabs bu * sqrt (inner G b b) /\ 0 <= inner G b b.
Proof using ST.
  cbv zeta. destruct (zone_unit V) as (N & P). set (u := zone_ucon G gcon V) in *. set (b := bcon B u (lower u G)).
  assert (S : same4 (zBcon (fluid_zone bu G gcon V B)) (fun i => bu * b i)).
  { intros i Hi. unfold fluid_zone. cbn [zBcon]. fold u. unfold b, bcon, sum3. destruct (Nat.eqb_spec i 0) as [->|D]; [ring|]. field. lra. }
  pose proof (bcon_ok G alpha beta ST B u N ltac:(lra)) as BO. cbv zeta in BO. destruct BO as (O & _ & _). fold b in O.
  split; [exact S|]. split.
  - change (zUcon (fluid_zone bu G gcon V B)) with u. rewrite <- (Rmult_0_r bu), <- O. unfold inner, sigma4. rewrite !S by lia. ring.
  - assert (BB : 0 <= inner G b b).
    { destruct (Rlt_le_dec (inner G b b) 0) as [L|]; [exfalso|assumption].
      assert (Z : forall i, (i < 4)%nat -> b i = 0).
      { intros i Hi. destruct (Req_dec (b i) 0) as [|D]; [assumption|exfalso]. pose proof (perp_spacelike G alpha beta ST u b ltac:(lra)) as PS.
        rewrite (inner_sym G u b (st_sym G alpha beta ST)) in PS. specialize (PS O (ex_intro _ i (conj Hi D))). lra. }
      unfold inner, sigma4 in L. rewrite !Z in L by lia. lra. }
    split; [|exact BB]. unfold fluid_zone at 1. cbn [zB]. change (sqrt (sum4 (fun l => zBcon (fluid_zone bu G gcon V B) l * lower (zBcon (fluid_zone bu G gcon V B)) G l)) = Rabs bu * sqrt (inner G b b)).
    rewrite <- sqrt_Rsqr_abs. rewrite <- sqrt_mult by (try assumption; apply Rle_0_sqr). f_equal. unfold Rsqr, sum4, lower. rewrite inner_lower. unfold sigma4, lower. rewrite !S by lia. ring.
Qed.
(** *** wave vectors *)
Lemma null_future K u : inner G K K = 0 -> 0 < K 0%nat -> inner G u u = -1 -> 0 < u 0%nat -> inner G K u < 0.
Proof using ST.
  intros N K0 U U0. pose proof (st_alpha G alpha beta ST) as A. rewrite (st_split G alpha beta ST) in N, U |- *. set (p := shifted beta K) in *. set (q := shifted beta u) in *.
  pose proof (sp_cs G alpha beta ST p q) as CS. set (W := spatial G p q) in *. set (X := spatial G p p) in *. set (Y := spatial G q q) in *.
  assert (EX : X = (alpha * K 0%nat) ^ 2) by lra. assert (EY : Y = (alpha * u 0%nat) ^ 2 - 1) by lra.
  assert (AK : 0 < alpha * K 0%nat) by (apply Rmult_lt_0_compat; assumption). assert (AU : 0 < alpha * u 0%nat) by (apply Rmult_lt_0_compat; assumption).
  replace (alpha * alpha * K 0%nat * u 0%nat) with (alpha * K 0%nat * (alpha * u 0%nat)) by ring. set (a := alpha * K 0%nat) in *. set (c := alpha * u 0%nat) in *. clearbody W X Y a c. subst X Y.
  destruct (Rlt_le_dec W (a * c)) as [L|L]; [lra|exfalso]. assert (AC : 0 < a * c) by (apply Rmult_lt_0_compat; assumption).
  assert (a * c * (a * c) <= W * W) by (apply Rmult_le_compat; lra). pose proof (pow_lt a 2 AK). replace (a ^ 2 * (c ^ 2 - 1)) with (a * c * (a * c) - a ^ 2) in CS by ring. lra.
Qed.
Lemma rest_norm u K : inner G u u = -1 -> inner G K K = 0 -> inner G (rest_part G u K) (rest_part G u K) = inner G K u * inner G K u.
Proof using ST.
  intros U N. pose proof (st_sym G alpha beta ST) as S. unfold rest_part. set (w := inner G K u).
  assert (E : inner G (fun i => K i + w * u i) (fun i => K i + w * u i) = inner G K K + 2 * w * inner G K u + w * w * inner G u u).
  { replace (2 * w * inner G K u) with (w * inner G K u + w * inner G u K) by (rewrite (inner_sym G u K S); ring). unfold inner, sigma4. ring. }
  rewrite E, N, U. fold w. ring.
Qed.
Lemma rest_inner u K b : inner G b u = 0 -> inner G (rest_part G u K) (rest_part G u b) = inner G K b.
Proof using ST.
  intros O. pose proof (st_sym G alpha beta ST) as S. unfold rest_part. rewrite O. set (w := inner G K u).
  transitivity (inner G K b + w * inner G u b); [unfold inner, sigma4; ring|]. rewrite (inner_sym G u b S), O. ring.
Qed.
Lemma rest_cs u p q : inner G u u = -1 -> inner G p u = 0 -> inner G q u = 0 -> inner G p q * inner G p q <= inner G p p * inner G q q.
Proof using ST.
  intros U P Q. pose proof (st_sym G alpha beta ST) as S.
  assert (NN : forall v, inner G v u = 0 -> 0 <= inner G v v).
  { intros v V. destruct (Rlt_le_dec (inner G v v) 0) as [L|]; [exfalso|assumption].
    assert (Z : forall i, (i < 4)%nat -> v i = 0).
    { intros i Hi. destruct (Req_dec (v i) 0) as [|D]; [assumption|exfalso]. pose proof (perp_spacelike G alpha beta ST u v ltac:(lra)) as PS.
      rewrite (inner_sym G u v S) in PS. specialize (PS V (ex_intro _ i (conj Hi D))). lra. }
    unfold inner, sigma4 in L. rewrite !Z in L by lia. lra. }
  pose proof (NN p P) as NP. pose proof (NN q Q) as NQ.
  assert (QD : forall t, 0 <= inner G q q - 2 * t * inner G p q + t * t * inner G p p).
  { intros t. assert (V : inner G (fun i => q i - t * p i) u = 0) by (transitivity (inner G q u - t * inner G p u); [unfold inner, sigma4; ring|rewrite P, Q; ring]).
    pose proof (NN _ V) as H. assert (E : inner G (fun i => q i - t * p i) (fun i => q i - t * p i) = inner G q q - 2 * t * inner G p q + t * t * inner G p p).
    { replace (2 * t * inner G p q) with (t * inner G p q + t * inner G q p) by (rewrite (inner_sym G q p S); ring). unfold inner, sigma4. ring. }
    rewrite E in H. exact H. }
  set (X := inner G p p) in *. set (Y := inner G q q) in *. set (W := inner G p q) in *. clearbody X Y W.
  destruct NP as [NP|<-].
  - pose proof (QD (W / X)) as H. assert (E : X * (Y - 2 * (W / X) * W + W / X * (W / X) * X) = X * Y - W * W) by (field; lra).
    assert (0 <= X * (Y - 2 * (W / X) * W + W / X * (W / X) * X)) by (apply Rmult_le_pos; lra). lra.
  - destruct (Req_dec W 0) as [->|D]; [lra|exfalso]. pose proof (QD ((Y + 1) / (2 * W))) as H. replace (Y - 2 * ((Y + 1) / (2 * W)) * W + (Y + 1) / (2 * W) * ((Y + 1) / (2 * W)) * 0) with (-1) in H by (field; exact D). lra.
Qed.
Lemma rest_perp u v : inner G u u = -1 -> inner G (rest_part G u v) u = 0.
Proof using ST. intros U. unfold rest_part. transitivity (inner G v u + inner G v u * inner G u u); [unfold inner, sigma4; ring|rewrite U; ring]. Qed.
Lemma angle_ok K u b : inner G K K = 0 -> inner G u u = -1 -> inner G K u <> 0 -> inner G b u = 0 -> 0 < inner G b b ->
  rest_angle G u K b (get_bk_angle K (lower u G) (lower b G) (sqrt (inner G b b))).
Proof using ST.
  intros N U KU O BB. unfold rest_angle. cbv zeta. pose proof (rest_cs u (rest_part G u K) (rest_part G u b) U (rest_perp u K U) (rest_perp u b U)) as CS.
  assert (BP : inner G (rest_part G u b) (rest_part G u b) = inner G b b) by (unfold rest_part; rewrite O; unfold inner, sigma4; ring).
  rewrite (rest_norm u K U N), (rest_inner u K b O), BP in *. unfold get_bk_angle. set (s := sqrt (inner G b b)). assert (S0 : 0 < s) by (apply sqrt_lt_R0, BB). assert (SS : s * s = inner G b b) by (apply sqrt_sqrt; lra).
  destruct (Reqb_spec s 0) as [E|_]; [lra|]. replace (sum4 (fun l => K l * lower u G l)) with (inner G K u) by (rewrite inner_lower; unfold sum4, sigma4; ring).
  replace (sum4 (fun l => K l * lower b G l)) with (inner G K b) by (rewrite inner_lower; unfold sum4, sigma4; ring).
  set (w := inner G K u) in *. set (x := inner G K b) in *. assert (W : 0 < Rabs w) by (apply Rabs_pos_lt, KU). rewrite (Rabs_pos_eq (Rabs w * s)) by (apply Rlt_le, Rmult_lt_0_compat; assumption).
  set (D := Rabs w * s). assert (D0 : 0 < D) by (apply Rmult_lt_0_compat; assumption). assert (DD : D * D = w * w * (s * s)) by (unfold D; replace (Rabs w * s * (Rabs w * s)) with (Rabs w * Rabs w * (s * s)) by ring; rewrite <- Rabs_mult, (Rabs_pos_eq (w * w)) by (apply Rle_0_sqr); reflexivity).
  assert (XD : Rabs x <= D). { rewrite <- (Rabs_pos_eq D) by lra. apply Rsqr_le_abs_0. unfold Rsqr. rewrite DD, SS. exact CS. } 
  assert (M : -1 <= x / D <= 1).
  { pose proof (Rle_abs x). pose proof (Rle_abs (- x)) as XN. rewrite Rabs_Ropp in XN. split; apply (Rmult_le_reg_r D); try exact D0; replace (x / D * D) with x by (field; lra); lra. }
  unfold clamp_mu. rewrite Rltb_false by (apply Rabs_le; exact M). split; [apply acos_bound|]. rewrite cos_acos by exact M.
  change (w * w) with (Rsqr w). rewrite sqrt_Rsqr_abs. fold D. field. lra.
Qed.
End ST.
Section Zone.
Variables (G : mat) (alpha : R) (beta : vec).
Hypothesis ST : spacetime G alpha beta.
Variables (bu : R) (V B : vec).
Let z := fluid_zone bu G (fst (gcon_func G)) V B.
Lemma zB_inner : zB z = sqrt (inner G (zBcon z) (zBcon z)).
Proof. rewrite inner_lower. unfold z, fluid_zone. cbn [zB zBcon]. f_equal. unfold sum4, sigma4. ring. Qed.
Lemma zone_nu ME CL HPL K : 0 < ME -> 0 < CL -> 0 < HPL -> inner G K K = 0 -> 0 < K 0%nat ->
  get_fluid_nu ME CL HPL (lower K G) (zUcon z) = - inner G K (zUcon z) * (ME * CL ^ 2) / HPL /\ 0 < get_fluid_nu ME CL HPL (lower K G) (zUcon z).
Proof using ST.
  intros M C H N K0. destruct (zone_unit G alpha beta ST V) as (U & U0). change (zone_ucon G (fst (gcon_func G)) V) with (zUcon z) in U, U0. pose proof (null_future G alpha beta ST K (zUcon z) N K0 U U0) as L.
  assert (E : get_fluid_nu ME CL HPL (lower K G) (zUcon z) = - inner G K (zUcon z) * (ME * CL ^ 2) / HPL).
  { rewrite (inner_sym G K _ (st_sym G alpha beta ST)). rewrite inner_lower. unfold get_fluid_nu, sum4, sigma4. cbv zeta. field. lra. }
  split; [exact E|]. rewrite E. apply Rdiv_lt_0_compat; [|exact H]. apply Rmult_lt_0_compat; [lra|]. apply Rmult_lt_0_compat; [exact M|apply pow_lt, C].
Qed.
Lemma zone_angle K : inner G K K = 0 -> 0 < K 0%nat -> zB z <> 0 ->
  rest_angle G (zUcon z) K (zBcon z) (get_bk_angle K (zUcov z) (zBcov z) (zB z)).
Proof using ST.
  intros N K0 B0. destruct (zone_unit G alpha beta ST V) as (U & U0). change (zone_ucon G (fst (gcon_func G)) V) with (zUcon z) in U, U0. pose proof (null_future G alpha beta ST K (zUcon z) N K0 U U0) as L.
  pose proof (zone_field G alpha beta ST V B bu) as F. cbv zeta in F. fold z in F. destruct F as (_ & O & _). rewrite zB_inner in B0 |- *.
  apply (angle_ok G alpha beta ST); try assumption; [lra|]. destruct (Rle_lt_dec (inner G (zBcon z) (zBcon z)) 0) as [Z|]; [|assumption]. rewrite sqrt_neg_0 in B0 by exact Z. lra.
Qed.
Lemma zone_cut SMALL Ne_unit Tu tmax smax rho u : 0 < bu -> 0 < Ne_unit -> 0 < rho ->
  let w := zone_ucon G (fst (gcon_func G)) V in let b := bcon B w (lower w G) in
  zone_Thetae SMALL bu Ne_unit Tu tmax smax rho u (zB z) = if Rltb smax (inner G b b / rho) then SMALL else Rmin (u / rho * Tu) tmax.
Proof using ST.
  intros PB PN R0. cbv zeta. pose proof (zone_field G alpha beta ST V B bu) as F. cbv zeta in F. fold z in F. destruct F as (_ & _ & E & P). rewrite E. set (q := inner G _ _) in *. unfold zone_Thetae, zone_Ne. cbv zeta.
  rewrite (Rabs_pos_eq bu) by lra. replace ((bu * sqrt q / bu) ^ 2) with (sqrt q * sqrt q) by (field; lra). rewrite sqrt_sqrt by exact P. replace (rho * Ne_unit / Ne_unit) with rho by (field; lra).
  destruct (Rltb smax (q / rho)); [reflexivity|]. unfold get_Thetae, MY_MIN, Rmin. destruct (Rltb_spec (u / rho * Tu) tmax), (Rle_dec (u / rho * Tu) tmax); lra.
Qed.
End Zone.
(** ** Scatterers *)
Lemma nucleons MP MN rho Xi Abar e : 0 < MP <= MN -> 0 <= rho -> (forall k, 0 <= Xi k) ->
  (exists n, scatterer_number_density MP MN rho Xi Abar e TYPE_P = Some n /\ weighs n 1 MP MN (rho * Xi 0%nat)) /\
  (exists n, scatterer_number_density MP MN rho Xi Abar e TYPE_N = Some n /\ weighs n 1 MP MN (rho * Xi 1%nat)).
Proof.
  intros M R X. split; (eexists; split; [reflexivity|]); unfold weighs.
  - assert (0 <= rho * Xi 0%nat / MP) by (apply Rmult_le_pos; [apply Rmult_le_pos; auto|left; apply Rinv_0_lt_compat; lra]). split; [right; field; lra|]. apply (Rle_trans _ (rho * Xi 0%nat / MP * 1 * MP)); [right; field; lra|]. apply Rmult_le_compat_l; lra.
  - assert (0 <= rho * Xi 1%nat / MN) by (apply Rmult_le_pos; [apply Rmult_le_pos; auto|left; apply Rinv_0_lt_compat; lra]). split; [|right; field; lra]. apply (Rle_trans _ (rho * Xi 1%nat / MN * 1 * MN)); [|right; field; lra]. apply Rmult_le_compat_l; lra.
Qed.
Lemma half_mass m A MP MN : 0 < MP <= MN -> 0 <= m -> 0 < A -> weighs (2 * (m / (A * (MN + MP)))) A MP MN m.
Proof.
  intros M P A0. unfold weighs. replace (2 * (m / (A * (MN + MP))) * A * MP) with (m * (2 * MP / (MN + MP))) by (field; lra). replace (2 * (m / (A * (MN + MP))) * A * MN) with (m * (2 * MN / (MN + MP))) by (field; lra).
  assert (2 * MP / (MN + MP) <= 1) by (apply (Rmult_le_reg_r (MN + MP)); [lra|]; replace (2 * MP / (MN + MP) * (MN + MP)) with (2 * MP) by (field; lra); lra).
  assert (1 <= 2 * MN / (MN + MP)) by (apply (Rmult_le_reg_r (MN + MP)); [lra|]; replace (2 * MN / (MN + MP) * (MN + MP)) with (2 * MN) by (field; lra); lra).
  split; [apply (Rle_trans _ (m * 1)); [apply Rmult_le_compat_l; lra|lra]|apply (Rle_trans _ (m * 1)); [lra|apply Rmult_le_compat_l; lra]].
Qed.
Lemma nuclei_half MP MN rho Xi Abar e : 0 < MP <= MN -> 0 <= rho -> (forall k, 0 <= Xi k) -> 0 < Abar ->
  (exists n, scatterer_number_density MP MN rho Xi Abar e TYPE_A = Some n /\ weighs (2 * n) Abar MP MN (rho * Xi 2%nat)) /\
  (exists n, scatterer_number_density MP MN rho Xi Abar e TYPE_ALPHA = Some n /\ weighs (2 * n) 4 MP MN (rho * Xi 3%nat)).
Proof.
  intros M R X A0. split; (eexists; split; [reflexivity|]).
  - rewrite (Rmult_comm (MN + MP)). apply half_mass; try assumption. apply Rmult_le_pos; auto.
  - apply half_mass; try lra. apply Rmult_le_pos; auto.
Qed.
Lemma temp_mass MP MN ME CL T rho Xi Abar e i n th : 0 < MP -> 0 < MN -> 0 < CL -> 0 < Abar -> i <> TYPE_E ->
  scatterer_number_density MP MN rho Xi Abar e i = Some n -> scatterer_dimensionless_temp MP MN ME CL T Abar e i = Some th ->
  n * T = th * CL ^ 2 * (rho * match i with TYPE_P | TYPE_E => Xi 0%nat | TYPE_N => Xi 1%nat | TYPE_A => Xi 2%nat | TYPE_ALPHA => Xi 3%nat end).
Proof.
  intros P N C A NE. unfold scatterer_number_density. destruct i; cbn [scatterer scatterer_dimensionless_temp]; try congruence; intros E F; injection E as <-; injection F as <-; field; repeat split; lra.
Qed.
Lemma stops MP MN ME CL T rho Xi Abar e i : (scatterer_number_density MP MN rho Xi Abar e i = None <-> i = TYPE_E /\ e = false) /\
  (scatterer_dimensionless_temp MP MN ME CL T Abar e i = None <-> i = TYPE_E /\ e = false).
Proof. unfold scatterer_number_density. destruct i, e; cbn [scatterer scatterer_dimensionless_temp]; split; split; intros H; first [discriminate H | destruct H; congruence | auto]. Qed.
