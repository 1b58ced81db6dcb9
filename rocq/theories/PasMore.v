(** Proofs about passive scalars: transport. *)
From Coq Require Import Reals Bool ZArith List Lia Lra.
From Verif Require Import RLib FluxModel TabModel InvModel PasModel PasSpec PasProofs.
Import ListNotations.
Open Scope R_scope.

Lemma max_l a b : a <= MY_MAX a b. Proof. unfold MY_MAX. destruct (Rltb_spec b a); lra. Qed.
Lemma max_r a b : b <= MY_MAX a b. Proof. unfold MY_MAX. destruct (Rltb_spec b a); lra. Qed.
Lemma top_bounds ml mr nl nr : let c := MY_MAX (Rabs (MY_MAX (MY_MAX 0 ml) mr)) (Rabs (MY_MAX (MY_MAX 0 (- nl)) (- nr))) in
  0 <= c /\ ml <= c /\ mr <= c /\ - c <= nl /\ - c <= nr.
Proof.
  intros c. unfold c. clear c. set (A := MY_MAX (MY_MAX 0 ml) mr). set (B := MY_MAX (MY_MAX 0 (- nl)) (- nr)).
  pose proof (max_l (Rabs A) (Rabs B)). pose proof (max_r (Rabs A) (Rabs B)). pose proof (Rle_abs A). pose proof (Rle_abs B).
  pose proof (max_l (MY_MAX 0 ml) mr). pose proof (max_r (MY_MAX 0 ml) mr). pose proof (max_l 0 ml). pose proof (max_r 0 ml).
  pose proof (max_l (MY_MAX 0 (- nl)) (- nr)). pose proof (max_r (MY_MAX 0 (- nl)) (- nr)). pose proof (max_l 0 (- nl)). pose proof (max_r 0 (- nl)).
  fold A in H3, H4. fold B in H7, H8. repeat split; lra.
Qed.
(** ** One face *)
Lemma within_top c v u : 0 < u -> - c <= v / u <= c -> - (c * u) <= v <= c * u.
Proof. intros U [A B]. assert (E : v = v / u * u) by (field; lra). split; rewrite E at 1; nra. Qed.
Lemma face number vchar dir g l r : (1 <= dir)%nat -> 0 <= g ->
  let F := fst (lr_to_flux point (primtoflux number g) (vchar dir) g dir l r) in
  let c := snd (lr_to_flux point (primtoflux number g) (vchar dir) g dir l r) in
  exists a b, F 0%nat = a + b /\ (forall e, number e = true -> F (8 + e)%nat = a * p_scalar l (8 + e)%nat + b * p_scalar r (8 + e)%nat) /\ 0 <= c /\
  (moves vchar dir l -> 0 <= a <= c * (p_rho l * p_ucon l 0%nat) * g) /\ (moves vchar dir r -> 0 <= - b <= c * (p_rho r * p_ucon r 0%nat) * g).
Proof.
  intros DD G F c. unfold F, c. clear F c. unfold lr_to_flux. destruct (Rltb_spec g FluxModel.SMALL).
  { exists 0, 0. cbn [fst snd]. split; [lra|]. split; [intros; lra|]. split; [lra|]. rewrite !Rmult_0_l. split; intros _; lra. }
  destruct (vchar dir l) as [ml nl] eqn:VL. destruct (vchar dir r) as [mr nr] eqn:VR. cbv zeta. cbn [fst snd].
  pose proof (top_bounds ml mr nl nr) as T. cbv zeta in T.
  set (c := MY_MAX (Rabs (MY_MAX (MY_MAX 0 ml) mr)) (Rabs (MY_MAX (MY_MAX 0 (- nl)) (- nr)))) in *.
  exists (5 / 10 * (p_rho l * p_ucon l dir * g + c * (p_rho l * p_ucon l 0%nat * g))), (5 / 10 * (p_rho r * p_ucon r dir * g - c * (p_rho r * p_ucon r 0%nat * g))).
  split; [unfold primtoflux, RHO; cbn [Nat.eqb]; lra|]. split.
  { intros e NE. unfold primtoflux, RHO, PASSIVE_START. cbn [Nat.add Nat.eqb]. change (S (S (S (S (S (S (S (S e)))))))) with (8 + e)%nat. replace (8 + e - 8)%nat with e by lia. rewrite NE. unfold scalar_flux. lra. }
  split; [apply T|].
  assert (W : forall P m n0, m <= c -> - c <= n0 -> 0 <= p_rho P -> slower_than (m, n0) P dir ->
    - (c * (p_rho P * p_ucon P 0%nat) * g) <= p_rho P * p_ucon P dir * g <= c * (p_rho P * p_ucon P 0%nat) * g).
  { intros P m n0 M N D [U V]. cbn [fst snd] in V. pose proof (within_top c (p_ucon P dir) _ U ltac:(destruct V; split; lra)) as [V1 V2].
    pose proof (Rmult_le_pos _ _ D G) as DG. split.
    - replace (- (c * (p_rho P * p_ucon P 0%nat) * g)) with (p_rho P * g * - (c * p_ucon P 0%nat)) by ring. replace (p_rho P * p_ucon P dir * g) with (p_rho P * g * p_ucon P dir) by ring. now apply Rmult_le_compat_l.
    - replace (c * (p_rho P * p_ucon P 0%nat) * g) with (p_rho P * g * (c * p_ucon P 0%nat)) by ring. replace (p_rho P * p_ucon P dir * g) with (p_rho P * g * p_ucon P dir) by ring. now apply Rmult_le_compat_l. }
  split; intros [D SL].
  - rewrite VL in SL. pose proof (W l ml nl ltac:(apply T) ltac:(apply T) D SL). lra.
  - rewrite VR in SL. pose proof (W r mr nr ltac:(apply T) ltac:(apply T) D SL). lra.
Qed.

(** ** One zone *)
Section Zone.
Variables (number : nat -> bool) (vchar : nat -> point -> R * R) (dx1 dx2 dx3 Dt g : R) (g1 g2 g3 : Z -> Z -> Z -> R) (lo1 hi1 lo2 hi2 lo3 hi3 : Z -> Z -> Z -> point) (S : nat -> R) (Pi : point) (i j k : Z) (e : nat).
Hypothesis NE : number e = true.
Hypothesis G1 : forall i j k, 0 <= g1 i j k. 
Hypothesis G2 : forall i j k, 0 <= g2 i j k.
Hypothesis G3 : forall i j k, 0 <= g3 i j k.
Let U := advanced number vchar dx1 dx2 dx3 Dt g g1 g2 g3 lo1 hi1 lo2 hi2 lo3 hi3 S Pi i j k.
Lemma source_0 : source g S 0 = 0. Proof. unfold source. cbn. lra. Qed.
Lemma source_s : source g S (8 + e) = 0. Proof. unfold source. cbn. lra. Qed.
Lemma U_0 : primtoflux number g 0 Pi 0%nat = p_rho Pi * p_ucon Pi 0%nat * g. Proof. reflexivity. Qed.
Lemma U_s : primtoflux number g 0 Pi (8 + e)%nat = p_rho Pi * p_ucon Pi 0%nat * g * p_scalar Pi (8 + e)%nat.
Proof. unfold primtoflux, RHO, PASSIVE_START. cbn [Nat.add Nat.eqb]. change (Datatypes.S (Datatypes.S (Datatypes.S (Datatypes.S (Datatypes.S (Datatypes.S (Datatypes.S (Datatypes.S e)))))))) with (8 + e)%nat. replace (8 + e - 8)%nat with e by lia. rewrite NE. unfold scalar_flux. ring. Qed.
Lemma after_U lapse gamma : scalar_after number vchar dx1 dx2 dx3 Dt g lapse gamma g1 g2 g3 lo1 hi1 lo2 hi2 lo3 hi3 S Pi i j k (8 + e) = U (8 + e)%nat / U 0%nat.
Proof. unfold scalar_after. cbv zeta. fold U. unfold PASSIVE_START. replace (8 + e - 8)%nat with e by lia. rewrite NE. reflexivity. Qed.

Lemma expand : exists a1 b1 a1' b1' a2 b2 a2' b2' a3 b3 a3' b3',
  let y P := p_scalar P (8 + e)%nat in
  U 0%nat = p_rho Pi * p_ucon Pi 0%nat * g + Dt * (- ((a1' + b1') - (a1 + b1)) / dx1 - ((a2' + b2') - (a2 + b2)) / dx2 - ((a3' + b3') - (a3 + b3)) / dx3) /\
  U (8 + e)%nat = p_rho Pi * p_ucon Pi 0%nat * g * y Pi + Dt * (
    - ((a1' * y (hi1 i j k) + b1' * y (lo1 (i + 1)%Z j k)) - (a1 * y (hi1 (i - 1)%Z j k) + b1 * y (lo1 i j k))) / dx1
    - ((a2' * y (hi2 i j k) + b2' * y (lo2 i (j + 1)%Z k)) - (a2 * y (hi2 i (j - 1)%Z k) + b2 * y (lo2 i j k))) / dx2
    - ((a3' * y (hi3 i j k) + b3' * y (lo3 i j (k + 1)%Z)) - (a3 * y (hi3 i j (k - 1)%Z) + b3 * y (lo3 i j k))) / dx3) /\
  (forall c1 c2 c3, faces (fun _ dir P => moves vchar dir P) lo1 hi1 lo2 hi2 lo3 hi3 i j k -> speeds_below number vchar g1 g2 g3 lo1 hi1 lo2 hi2 lo3 hi3 c1 c2 c3 i j k ->
    let out c gf P := c * (p_rho P * p_ucon P 0%nat) * gf in
    (0 <= a1 /\ 0 <= - b1 <= out c1 (g1 i j k) (lo1 i j k) /\ 0 <= a1' <= out c1 (g1 (i + 1)%Z j k) (hi1 i j k) /\ 0 <= - b1') /\
    (0 <= a2 /\ 0 <= - b2 <= out c2 (g2 i j k) (lo2 i j k) /\ 0 <= a2' <= out c2 (g2 i (j + 1)%Z k) (hi2 i j k) /\ 0 <= - b2') /\
    (0 <= a3 /\ 0 <= - b3 <= out c3 (g3 i j k) (lo3 i j k) /\ 0 <= a3' <= out c3 (g3 i j (k + 1)%Z) (hi3 i j k) /\ 0 <= - b3')).
Proof.
  destruct (face number vchar 1 (g1 i j k) (hi1 (i - 1)%Z j k) (lo1 i j k) ltac:(lia) (G1 _ _ _)) as (a1 & b1 & R1 & S1 & C1 & L1 & K1).
  destruct (face number vchar 1 (g1 (i + 1)%Z j k) (hi1 (i + 1 - 1)%Z j k) (lo1 (i + 1)%Z j k) ltac:(lia) (G1 _ _ _)) as (a1' & b1' & R1' & S1' & C1' & L1' & K1').
  destruct (face number vchar 2 (g2 i j k) (hi2 i (j - 1)%Z k) (lo2 i j k) ltac:(lia) (G2 _ _ _)) as (a2 & b2 & R2 & S2 & C2 & L2 & K2).
  destruct (face number vchar 2 (g2 i (j + 1)%Z k) (hi2 i (j + 1 - 1)%Z k) (lo2 i (j + 1)%Z k) ltac:(lia) (G2 _ _ _)) as (a2' & b2' & R2' & S2' & C2' & L2' & K2').
  destruct (face number vchar 3 (g3 i j k) (hi3 i j (k - 1)%Z) (lo3 i j k) ltac:(lia) (G3 _ _ _)) as (a3 & b3 & R3 & S3 & C3 & L3 & K3).
  destruct (face number vchar 3 (g3 i j (k + 1)%Z) (hi3 i j (k + 1 - 1)%Z) (lo3 i j (k + 1)%Z) ltac:(lia) (G3 _ _ _)) as (a3' & b3' & R3' & S3' & C3' & L3' & K3').
  exists a1, b1, a1', b1', a2, b2, a2', b2', a3, b3, a3', b3'. intros y. split; [|split].
  - unfold U, advanced, update, F1, F2, F3, face_flux. rewrite U_0, source_0, R1, R1', R2, R2', R3, R3'. ring.
  - unfold U, advanced, update, F1, F2, F3, face_flux. rewrite U_s, source_s.
    rewrite (S1 e NE), (S1' e NE), (S2 e NE), (S2' e NE), (S3 e NE), (S3' e NE).
    replace (i + 1 - 1)%Z with i by lia. replace (j + 1 - 1)%Z with j by lia. replace (k + 1 - 1)%Z with k by lia. unfold y. ring.
  - intros c1 c2 c3 M B out. unfold faces in M. cbv beta in M. destruct M as ((ML1 & MH1 & MB1 & MA1) & (ML2 & MH2 & MB2 & MA2) & (ML3 & MH3 & MB3 & MA3)).
    destruct B as ((B1 & B1') & (B2 & B2') & (B3 & B3')). unfold face_speed in *.
    replace (i + 1 - 1)%Z with i in * by lia. replace (j + 1 - 1)%Z with j in * by lia. replace (k + 1 - 1)%Z with k in * by lia.
    assert (MON : forall c c' gf P dir, 0 <= gf -> c <= c' -> moves vchar dir P -> c * (p_rho P * p_ucon P 0%nat) * gf <= out c' gf P).
    { intros c c' gf P dir GF CC (D & UT & _). unfold out. apply Rmult_le_compat_r; [exact GF|]. apply Rmult_le_compat_r; [apply Rmult_le_pos; lra|exact CC]. }
    pose proof (L1 MB1). pose proof (K1 ML1). pose proof (L1' MH1). pose proof (K1' MA1).
    pose proof (L2 MB2). pose proof (K2 ML2). pose proof (L2' MH2). pose proof (K2' MA2).
    pose proof (L3 MB3). pose proof (K3 ML3). pose proof (L3' MH3). pose proof (K3' MA3).
    pose proof (MON _ _ _ _ _ (G1 i j k) B1 ML1). pose proof (MON _ _ _ _ _ (G1 (i + 1)%Z j k) B1' MH1).
    pose proof (MON _ _ _ _ _ (G2 i j k) B2 ML2). pose proof (MON _ _ _ _ _ (G2 i (j + 1)%Z k) B2' MH2).
    pose proof (MON _ _ _ _ _ (G3 i j k) B3 ML3). pose proof (MON _ _ _ _ _ (G3 i j (k + 1)%Z) B3' MH3).
    clear - H H0 H1 H2 H3 H4 H5 H6 H7 H8 H9 H10 H11 H12 H13 H14 H15 H16. repeat split; lra.
Qed.

(** what is uniform stays uniform *)
Theorem uniform lapse gamma y : p_scalar Pi (8 + e)%nat = y -> faces (fun _ _ P => p_scalar P (8 + e)%nat = y) lo1 hi1 lo2 hi2 lo3 hi3 i j k -> U 0%nat <> 0 ->
  scalar_after number vchar dx1 dx2 dx3 Dt g lapse gamma g1 g2 g3 lo1 hi1 lo2 hi2 lo3 hi3 S Pi i j k (8 + e) = y.
Proof.
  intros Y0 F NZ. rewrite after_U. destruct expand as (a1 & b1 & a1' & b1' & a2 & b2 & a2' & b2' & a3 & b3 & a3' & b3' & E). cbv zeta in E. destruct E as (E0 & ES & _).
  unfold faces in F. cbv beta in F. destruct F as ((ML1 & MH1 & MB1 & MA1) & (ML2 & MH2 & MB2 & MA2) & (ML3 & MH3 & MB3 & MA3)).
  rewrite Y0, ML1, MH1, MB1, MA1, ML2, MH2, MB2, MA2, ML3, MH3, MB3, MA3 in ES.
  assert (E : U (8 + e)%nat = y * U 0%nat) by (rewrite ES, E0; unfold Rdiv; ring).
  rewrite E. field. exact NZ.
Qed.

Section Between.
Variables (lo hi c1 c2 c3 : R).
Hypothesis DT : 0 <= Dt.
Hypothesis DX1 : 0 < dx1.
Hypothesis DX2 : 0 < dx2.
Hypothesis DX3 : 0 < dx3.
Hypothesis MV : faces (fun _ dir P => moves vchar dir P) lo1 hi1 lo2 hi2 lo3 hi3 i j k.
Hypothesis SP : speeds_below number vchar g1 g2 g3 lo1 hi1 lo2 hi2 lo3 hi3 c1 c2 c3 i j k.
Hypothesis RG : faces (fun _ _ P => inside_range lo hi (p_scalar P (8 + e)%nat)) lo1 hi1 lo2 hi2 lo3 hi3 i j k.
Let y P := p_scalar P (8 + e)%nat.
Let D := p_rho Pi * p_ucon Pi 0%nat * g.
Lemma convex2 w z : 0 <= w -> inside_range lo hi z -> lo * w <= w * z <= hi * w.
Proof. intros W [A B]. split; nra. Qed.
Lemma weighted w1 w1' w2 w2' w3 w3' : D = w1 + w1' + w2 + w2' + w3 + w3' ->
  D * y Pi = w1 * y (lo1 i j k) + w1' * y (hi1 i j k) + w2 * y (lo2 i j k) + w2' * y (hi2 i j k) + w3 * y (lo3 i j k) + w3' * y (hi3 i j k) ->
  at_most_out Dt dx1 (g1 i j k) c1 (lo1 i j k) <= w1 -> at_most_out Dt dx1 (g1 (i + 1)%Z j k) c1 (hi1 i j k) <= w1' ->
  at_most_out Dt dx2 (g2 i j k) c2 (lo2 i j k) <= w2 -> at_most_out Dt dx2 (g2 i (j + 1)%Z k) c2 (hi2 i j k) <= w2' ->
  at_most_out Dt dx3 (g3 i j k) c3 (lo3 i j k) <= w3 -> at_most_out Dt dx3 (g3 i j (k + 1)%Z) c3 (hi3 i j k) <= w3' ->
  0 <= U 0%nat /\ lo * U 0%nat <= U (8 + e)%nat <= hi * U 0%nat.
Proof.
  intros EW EY O1 O1' O2 O2' O3 O3'.
  destruct expand as (a1 & b1 & a1' & b1' & a2 & b2 & a2' & b2' & a3 & b3 & a3' & b3' & E). cbv zeta in E. destruct E as (E0 & ES & EB).
  destruct (EB c1 c2 c3 MV SP) as ((A1 & N1 & A1' & N1') & (A2 & N2 & A2' & N2') & (A3 & N3 & A3' & N3')). clear EB. cbv zeta in *.
  unfold at_most_out in *.
  assert (T1 : 0 <= Dt / dx1) by (apply Rmult_le_pos; [lra|]; left; now apply Rinv_0_lt_compat).
  assert (T2 : 0 <= Dt / dx2) by (apply Rmult_le_pos; [lra|]; left; now apply Rinv_0_lt_compat).
  assert (T3 : 0 <= Dt / dx3) by (apply Rmult_le_pos; [lra|]; left; now apply Rinv_0_lt_compat).
  set (t1 := Dt / dx1) in *. set (t2 := Dt / dx2) in *. set (t3 := Dt / dx3) in *.
  assert (OUT : forall t x z w, 0 <= t -> x <= z -> t * z <= w -> 0 <= w - t * x) by (intros t x z w T X Z; pose proof (Rmult_le_compat_l t x z T X); lra).
  pose proof (OUT _ _ _ _ T1 (proj2 N1) O1) as P1. pose proof (OUT _ _ _ _ T1 (proj2 A1') O1') as P1'.
  pose proof (OUT _ _ _ _ T2 (proj2 N2) O2) as P2. pose proof (OUT _ _ _ _ T2 (proj2 A2') O2') as P2'.
  pose proof (OUT _ _ _ _ T3 (proj2 N3) O3) as P3. pose proof (OUT _ _ _ _ T3 (proj2 A3') O3') as P3'.
  pose proof (Rmult_le_pos _ _ T1 A1) as I1. pose proof (Rmult_le_pos _ _ T1 N1') as I1'.
  pose proof (Rmult_le_pos _ _ T2 A2) as I2. pose proof (Rmult_le_pos _ _ T2 N2') as I2'.
  pose proof (Rmult_le_pos _ _ T3 A3) as I3. pose proof (Rmult_le_pos _ _ T3 N3') as I3'.
  unfold faces in RG. cbv beta in RG. fold y in RG. destruct RG as ((ML1 & MH1 & MB1 & MA1) & (ML2 & MH2 & MB2 & MA2) & (ML3 & MH3 & MB3 & MA3)).
  fold (y Pi) (y (hi1 i j k)) (y (lo1 (i + 1)%Z j k)) (y (hi1 (i - 1)%Z j k)) (y (lo1 i j k)) (y (hi2 i j k)) (y (lo2 i (j + 1)%Z k)) (y (hi2 i (j - 1)%Z k)) (y (lo2 i j k)) (y (hi3 i j k)) (y (lo3 i j (k + 1)%Z)) (y (hi3 i j (k - 1)%Z)) (y (lo3 i j k)) in ES.
  fold D in E0, ES.
  assert (Z0 : U 0%nat = (w1 - t1 * - b1) + (w1' - t1 * a1') + (w2 - t2 * - b2) + (w2' - t2 * a2') + (w3 - t3 * - b3) + (w3' - t3 * a3')
     + t1 * a1 + t1 * - b1' + t2 * a2 + t2 * - b2' + t3 * a3 + t3 * - b3') by (rewrite E0, EW; unfold t1, t2, t3; field; lra).
  assert (ZS : U (8 + e)%nat = (w1 - t1 * - b1) * y (lo1 i j k) + (w1' - t1 * a1') * y (hi1 i j k) + (w2 - t2 * - b2) * y (lo2 i j k) + (w2' - t2 * a2') * y (hi2 i j k) + (w3 - t3 * - b3) * y (lo3 i j k) + (w3' - t3 * a3') * y (hi3 i j k)
     + t1 * a1 * y (hi1 (i - 1)%Z j k) + t1 * - b1' * y (lo1 (i + 1)%Z j k) + t2 * a2 * y (hi2 i (j - 1)%Z k) + t2 * - b2' * y (lo2 i (j + 1)%Z k) + t3 * a3 * y (hi3 i j (k - 1)%Z) + t3 * - b3' * y (lo3 i j (k + 1)%Z)) by (rewrite ES, EY; unfold t1, t2, t3; field; lra).
  pose proof (convex2 _ _ P1 ML1). pose proof (convex2 _ _ P1' MH1). pose proof (convex2 _ _ P2 ML2). pose proof (convex2 _ _ P2' MH2). pose proof (convex2 _ _ P3 ML3). pose proof (convex2 _ _ P3' MH3).
  pose proof (convex2 _ _ I1 MB1). pose proof (convex2 _ _ I1' MA1). pose proof (convex2 _ _ I2 MB2). pose proof (convex2 _ _ I2' MA2). pose proof (convex2 _ _ I3 MB3). pose proof (convex2 _ _ I3' MA3).
  clear - Z0 ZS H H0 H1 H2 H3 H4 H5 H6 H7 H8 H9 H10 P1 P1' P2 P2' P3 P3' I1 I1' I2 I2' I3 I3'.
  rewrite Z0, ZS. clear Z0 ZS. unfold y in *. clear y. clearbody t1 t2 t3. repeat split; lra.
Qed.
Lemma divided lapse gamma : 0 < U 0%nat -> lo * U 0%nat <= U (8 + e)%nat <= hi * U 0%nat ->
  inside_range lo hi (scalar_after number vchar dx1 dx2 dx3 Dt g lapse gamma g1 g2 g3 lo1 hi1 lo2 hi2 lo3 hi3 S Pi i j k (8 + e)).
Proof.
  intros P [A B]. rewrite after_U. assert (E : U (8 + e)%nat = U (8 + e)%nat / U 0%nat * U 0%nat) by (field; lra). rewrite E in A, B.
  split; [apply Rmult_le_reg_r in A|apply Rmult_le_reg_r in B]; assumption.
Qed.
(** the scalar uniform in each zone: no more may leave than there is *)
Theorem donor lapse gamma : (y (lo1 i j k) = y Pi /\ y (hi1 i j k) = y Pi) /\ (y (lo2 i j k) = y Pi /\ y (hi2 i j k) = y Pi) /\ (y (lo3 i j k) = y Pi /\ y (hi3 i j k) = y Pi) ->
  at_most_out Dt dx1 (g1 i j k) c1 (lo1 i j k) + at_most_out Dt dx1 (g1 (i + 1)%Z j k) c1 (hi1 i j k) +
  at_most_out Dt dx2 (g2 i j k) c2 (lo2 i j k) + at_most_out Dt dx2 (g2 i (j + 1)%Z k) c2 (hi2 i j k) +
  at_most_out Dt dx3 (g3 i j k) c3 (lo3 i j k) + at_most_out Dt dx3 (g3 i j (k + 1)%Z) c3 (hi3 i j k) <= D -> 0 < U 0%nat ->
  inside_range lo hi (scalar_after number vchar dx1 dx2 dx3 Dt g lapse gamma g1 g2 g3 lo1 hi1 lo2 hi2 lo3 hi3 S Pi i j k (8 + e)).
Proof.
  intros ((L1 & H1) & (L2 & H2) & (L3 & H3)) O P.
  set (o1 := at_most_out Dt dx1 (g1 i j k) c1 (lo1 i j k)) in *. set (o1' := at_most_out Dt dx1 (g1 (i + 1)%Z j k) c1 (hi1 i j k)) in *.
  set (o2 := at_most_out Dt dx2 (g2 i j k) c2 (lo2 i j k)) in *. set (o2' := at_most_out Dt dx2 (g2 i (j + 1)%Z k) c2 (hi2 i j k)) in *.
  set (o3 := at_most_out Dt dx3 (g3 i j k) c3 (lo3 i j k)) in *. set (o3' := at_most_out Dt dx3 (g3 i j (k + 1)%Z) c3 (hi3 i j k)) in *.
  apply divided; [exact P|].
  apply (weighted (D - o1' - o2 - o2' - o3 - o3') o1' o2 o2' o3 o3'); fold o1 o1' o2 o2' o3 o3'; try lra.
  rewrite L1, H1, L2, H2, L3, H3. ring.
Qed.
(** the scalar linear in each zone: through no face may more leave than a sixth of it *)
Theorem linear lapse gamma : (y (lo1 i j k) + y (hi1 i j k) = 2 * y Pi) /\ (y (lo2 i j k) + y (hi2 i j k) = 2 * y Pi) /\ (y (lo3 i j k) + y (hi3 i j k) = 2 * y Pi) ->
  (at_most_out Dt dx1 (g1 i j k) c1 (lo1 i j k) <= D / 6 /\ at_most_out Dt dx1 (g1 (i + 1)%Z j k) c1 (hi1 i j k) <= D / 6) /\
  (at_most_out Dt dx2 (g2 i j k) c2 (lo2 i j k) <= D / 6 /\ at_most_out Dt dx2 (g2 i (j + 1)%Z k) c2 (hi2 i j k) <= D / 6) /\
  (at_most_out Dt dx3 (g3 i j k) c3 (lo3 i j k) <= D / 6 /\ at_most_out Dt dx3 (g3 i j (k + 1)%Z) c3 (hi3 i j k) <= D / 6) -> 0 < U 0%nat ->
  inside_range lo hi (scalar_after number vchar dx1 dx2 dx3 Dt g lapse gamma g1 g2 g3 lo1 hi1 lo2 hi2 lo3 hi3 S Pi i j k (8 + e)).
Proof.
  intros (Y1 & Y2 & Y3) ((O1 & O1') & (O2 & O2') & (O3 & O3')) P. apply divided; [exact P|].
  apply (weighted (D / 6) (D / 6) (D / 6) (D / 6) (D / 6) (D / 6)); try assumption; [lra|].
  replace (D * y Pi) with (D / 6 * (2 * y Pi) + D / 6 * (2 * y Pi) + D / 6 * (2 * y Pi)) by field. rewrite <- Y1 at 1. rewrite <- Y2 at 1. rewrite <- Y3 at 1. ring.
Qed.
End Between.
End Zone.
