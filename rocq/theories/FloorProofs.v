From Coq Require Import Reals Lra Lia Bool.
From Verif Require Import RLib FluxModel GeomModel GeomSpec GeomProofs SpaceProofs NullProofs EosGModel EosGProofs FloorModel FloorSpec.
Open Scope R_scope.

Lemma small_pos : 0 < FluxModel.SMALL.
Proof. unfold FluxModel.SMALL. lra. Qed.
Lemma dot_inner G a b : dot a (lower b G) = inner G a b.
Proof. rewrite inner_lower. unfold dot, sum4, sigma4. ring. Qed.
Lemma dpos a b : 0 < a -> 0 < b -> 0 < a / b.
Proof. intros. apply Rdiv_lt_0_compat; assumption. Qed.
Lemma ratio_lt1 a b : a < b -> 0 < b -> a / b < 1.
Proof. intros A B. apply (Rmult_lt_reg_r b); [assumption|]. replace (a / b * b) with a by (field; lra). lra. Qed.

(** the quadratic solved by the parallel velocity *)
Lemma half_angle x : let y := x / (1 + sqrt (1 + x * x)) in -1 < y < 1 /\ x * (1 - y * y) = 2 * y.
Proof.
  cbv zeta. pose proof (Rle_0_sqr x) as XX. unfold Rsqr in XX.
  set (s := sqrt (1 + x * x)). assert (S2 : s * s = 1 + x * x) by (apply sqrt_sqrt; lra).
  assert (S1 : 1 <= s) by (unfold s; rewrite <- sqrt_1 at 1; apply sqrt_le_1_alt; lra).
  assert (LX : Rabs x < 1 + s).
  { apply Rle_lt_trans with s; [|lra]. apply Rsqr_incr_0; [|apply Rabs_pos|lra]. rewrite <- Rsqr_abs. unfold Rsqr. lra. }
  clearbody s. split.
  - destruct (Rabs_def2 _ _ LX) as [A B]. split.
    + apply (Rmult_lt_reg_r (1 + s)); [lra|]. replace (x / (1 + s) * (1 + s)) with x by (field; lra). lra.
    + apply ratio_lt1; lra.
  - replace (x * (1 - x / (1 + s) * (x / (1 + s)))) with (x * ((1 + s) * (1 + s) - x * x) / ((1 + s) * (1 + s))) by (field; lra).
    replace ((1 + s) * (1 + s) - x * x) with (2 * (1 + s)) by lra. field. lra.
Qed.

Section ST.
Variables (G : mat) (al : R) (beta : vec).
Hypothesis ST : spacetime G al beta.
Notation gcon := (fst (gcon_func G)).
Notation alpha := (lapse gcon).

Definition good (p : prims) (q : state) : Prop :=
  get_state G gcon alpha p = Some q /\ ucon_calc G gcon alpha (vel p) = Some (ucon q) /\ inner G (ucon q) (ucon q) = -1 /\ 0 < ucon q 0%nat /\
  ucov q = lower (ucon q) G /\ b_con q = bcon (mag p) (ucon q) (ucov q) /\ b_cov q = lower (b_con q) G /\
  al * ucon q 0%nat = sqrt (1 + spatial G (vel p) (vel p)) /\
  (forall i, (1 <= i < 4)%nat -> shifted beta (ucon q) i = vel p i).
Lemma state_ok p : exists q, good p q.
Proof using ST.
  destruct (ucon_ok G al beta ST (vel p)) as (u & E & N & P & _ & SH & A).
  unfold good, get_state. rewrite E. eexists. split; [reflexivity|]. cbn [ucon ucov b_con b_cov]. repeat split; assumption.
Qed.
Lemma state_fun p q q' : get_state G gcon alpha p = Some q' -> good p q -> q' = q.
Proof. intros E (E' & _). rewrite E in E'. now injection E'. Qed.
Lemma state_good p q : get_state G gcon alpha p = Some q -> good p q.
Proof using ST. intros E. destruct (state_ok p) as [q' H]. rewrite (state_fun p q' q E H). exact H. Qed.

Section One.
Variables (p : prims) (q : state).
Hypothesis GQ : good p q.
Let u := ucon q.
Let b := b_con q.
Let bsq := dot (b_con q) (b_cov q).
Let u0 := ucon q 0%nat.
Let b0 := b_con q 0%nat.
Let Bv := Bcon p.
Let BB := inner G Bv Bv.
Lemma bsq_inner : bsq = inner G b b.
Proof using GQ. unfold bsq. destruct GQ as (_ & _ & _ & _ & _ & _ & -> & _). apply dot_inner. Qed.
Lemma BB_spatial : BB = spatial G (mag p) (mag p).
Proof using ST.
  unfold BB, Bv. rewrite (st_split G al beta ST). unfold spatial, shifted, Bcon. cbn [Nat.eqb]. ring.
Qed.
Lemma BB_pos : 0 <= BB.
Proof using ST. rewrite BB_spatial. apply (sp_nonneg G al beta ST). Qed.
Lemma b_facts : inner G b u = 0 /\ bsq * (u0 * u0) = BB + b0 * b0 /\ b0 = inner G Bv u /\
  (forall i, (i < 4)%nat -> Bv i = b i * u0 - b0 * u i).
Proof using ST GQ.
  rewrite bsq_inner. destruct GQ as (_ & _ & N & P & Ev & Eb & _). unfold b, u, u0, b0. rewrite Ev in Eb.
  pose proof (bcon_ok G al beta ST (mag p) (ucon q) N ltac:(lra)) as (O & S & V). cbv zeta in O, S, V. rewrite <- Eb in O, S, V.
  assert (B0 : b_con q 0%nat = inner G Bv (ucon q)).
  { rewrite inner_lower. unfold Bv, Bcon, sigma4. cbn [Nat.eqb]. rewrite Eb. unfold bcon. cbn [Nat.eqb]. ring. }
  split; [exact O|]. split; [|split; [exact B0|]].
  - rewrite S. unfold BB. rewrite B0. unfold Bv, Bcon. field. lra.
  - apply four_cases; unfold Bv, Bcon; cbn [Nat.eqb]; [ring| | |]; symmetry; apply V; lia.
Qed.
Lemma u0_pos : 0 < u0. Proof using GQ. apply GQ. Qed.
Lemma bsq_pos : 0 <= bsq.
Proof using ST GQ.
  destruct b_facts as (_ & S & _). pose proof BB_pos. pose proof u0_pos. pose proof (Rle_0_sqr b0). unfold Rsqr in *.
  assert (0 < u0 * u0) by (apply Rmult_lt_0_compat; assumption). apply (Rmult_le_reg_r (u0 * u0)); [assumption|]. lra.
Qed.

(** *** the drift velocity *)
Let bp := betapar q.
Lemma bp_eq : bp * ((bsq + FluxModel.SMALL) * u0) = - b0.
Proof using ST GQ. unfold bp, betapar. fold bsq u0 b0. pose proof bsq_pos. pose proof u0_pos. pose proof small_pos. field. lra. Qed.
Lemma beta_lt1 : 0 <= bp * bp * bsq < 1.
Proof using ST GQ.
  pose proof bsq_pos as B. pose proof u0_pos as U. pose proof small_pos as S. pose proof BB_pos as P. destruct b_facts as (_ & F & _).
  split; [apply Rmult_le_pos; [apply Rle_0_sqr|assumption]|].
  assert (E : bp * bp * ((bsq + FluxModel.SMALL) * (bsq + FluxModel.SMALL)) * (u0 * u0) = b0 * b0).
  { transitivity ((bp * ((bsq + FluxModel.SMALL) * u0)) * (bp * ((bsq + FluxModel.SMALL) * u0))); [ring|]. rewrite bp_eq. ring. }
  set (t := bsq + FluxModel.SMALL) in *. assert (T : bsq < t) by (unfold t; lra). clearbody t.
  assert (U2 : 0 < u0 * u0) by (apply Rmult_lt_0_compat; assumption).
  assert (L1 : bp * bp * (t * t) <= bsq). { apply (Rmult_le_reg_r (u0 * u0)); [assumption|]. lra. }
  assert (T2 : 0 < t * t) by (apply Rmult_lt_0_compat; lra).
  apply (Rmult_lt_reg_r (t * t)); [assumption|].
  replace (bp * bp * bsq * (t * t)) with (bp * bp * (t * t) * bsq) by ring.
  apply Rle_lt_trans with (bsq * bsq); [apply Rmult_le_compat_r; assumption|].
  apply Rle_lt_trans with (bsq * t); [apply Rmult_le_compat_l; lra|]. rewrite Rmult_1_l. apply Rmult_lt_compat_r; lra.
Qed.
Let bclip := MY_MIN (bp * bp * bsq) (1 - 1 / (GAMMAMAX * GAMMAMAX)).
Let gd := 1 / sqrt (1 - bclip).
Lemma clip_lt1 : bclip < 1 /\ bclip <= bp * bp * bsq.
Proof using ST GQ. pose proof beta_lt1. unfold bclip, MY_MIN, GAMMAMAX. rcases; lra. Qed.
Lemma gd_pos : 0 < gd.
Proof using ST GQ. apply dpos; [lra|]. apply sqrt_lt_R0. pose proof clip_lt1. lra. Qed.
Lemma gd_sq : gd * gd * (1 - bclip) = 1.
Proof using ST GQ.
  pose proof clip_lt1. unfold gd. pose proof (sqrt_sqrt (1 - bclip) ltac:(lra)) as E. assert (0 < sqrt (1 - bclip)) by (apply sqrt_lt_R0; lra).
  set (s := sqrt (1 - bclip)) in *. rewrite <- E. field. lra.
Qed.
Lemma dr_eq mu : ucondr q mu = gd * (u mu + bp * b mu).
Proof. reflexivity. Qed.
Lemma dr_inner w : inner G (ucondr q) w = gd * (inner G u w + bp * inner G b w).
Proof. unfold inner, sigma4. rewrite !dr_eq. ring. Qed.
Lemma u_norm : inner G u u = -1. Proof using GQ. apply GQ. Qed.
Lemma dr_norm : inner G (ucondr q) (ucondr q) = gd * gd * (- (1 - bp * bp * bsq)).
Proof using ST GQ.
  pose proof (st_sym G al beta ST) as S. rewrite dr_inner, (inner_sym G u _ S), (inner_sym G b _ S), !dr_inner.
  destruct b_facts as (O & _). rewrite u_norm, (inner_sym G u b S), O, <- bsq_inner. ring.
Qed.
Lemma dr_unit : bp * bp * bsq <= 1 - 1 / (GAMMAMAX * GAMMAMAX) -> inner G (ucondr q) (ucondr q) = -1.
Proof using ST GQ.
  intros C. rewrite dr_norm. assert (E : bclip = bp * bp * bsq). { unfold bclip, MY_MIN. rcases; lra. }
  pose proof gd_sq as H. rewrite E in H. lra.
Qed.
Lemma dr_perp : inner G (ucondr q) Bv * (bsq + FluxModel.SMALL) = gd * b0 * FluxModel.SMALL.
Proof using ST GQ.
  pose proof (st_sym G al beta ST) as S. destruct b_facts as (O & F & E0 & EB). pose proof bp_eq as E.
  assert (X : inner G b Bv = bsq * u0).
  { transitivity (u0 * inner G b b - b0 * inner G b u); [|rewrite O, <- bsq_inner; ring].
    unfold inner, sigma4. rewrite !EB by lia. ring. }
  rewrite dr_inner, X. rewrite (inner_sym G u Bv S), <- E0.
  replace (gd * (b0 + bp * (bsq * u0)) * (bsq + FluxModel.SMALL)) with (gd * (b0 * (bsq + FluxModel.SMALL) + bsq * (bp * ((bsq + FluxModel.SMALL) * u0)))) by ring.
  rewrite E. ring.
Qed.
Lemma dr0_pos : 0 < ucondr q 0%nat.
Proof using ST GQ.
  rewrite dr_eq. fold u0 b0. change (u 0%nat) with u0. change (b 0%nat) with b0.
  apply Rmult_lt_0_compat; [apply gd_pos|]. pose proof bsq_pos. pose proof u0_pos. pose proof small_pos. pose proof BB_pos. destruct b_facts as (_ & F & _).
  assert (T : 0 < (bsq + FluxModel.SMALL) * u0) by (apply Rmult_lt_0_compat; lra).
  apply (Rmult_lt_reg_r ((bsq + FluxModel.SMALL) * u0)); [assumption|]. rewrite Rmult_0_l.
  replace ((u0 + bp * b0) * ((bsq + FluxModel.SMALL) * u0)) with (bsq * (u0 * u0) + FluxModel.SMALL * (u0 * u0) + b0 * (bp * ((bsq + FluxModel.SMALL) * u0))) by ring.
  rewrite bp_eq, F. assert (0 < FluxModel.SMALL * (u0 * u0)) by (repeat apply Rmult_lt_0_compat; assumption). lra.
Qed.

(** *** the velocity along the field *)
Lemma vpar_ok gam p' : 1 < gam -> 0 < rho p' -> 0 <= uu p' ->
  let y := vpar G gam p p' q * ucondr q 0%nat in
  let B := sqrt BB in
  -1 < y < 1 /\
  (B * enthalpy_rho0_u gam (rho p') (uu p') * ucondr q 0%nat + FluxModel.SMALL) * y = inner G u Bv * enthalpy_rho0_u gam (rho p) (uu p) * u0 * (1 - y * y).
Proof using ST GQ.
  intros g1 r1 e1. cbv zeta. unfold vpar. cbv zeta. rewrite !dot_inner. fold Bv. fold BB u. change (u 0%nat) with u0.
  pose proof dr0_pos as D0. set (d := ucondr q 0%nat) in *. set (QB := inner G u Bv * _ * u0).
  assert (W : 0 < enthalpy_rho0_u gam (rho p') (uu p')). { unfold enthalpy_rho0_u. assert (0 <= uu p' * gam) by (apply Rmult_le_pos; lra). lra. }
  set (w := enthalpy_rho0_u gam (rho p') (uu p')) in *. pose proof (sqrt_pos BB) as B0. set (B := sqrt BB) in *.
  assert (Z : 0 < B * w * d + FluxModel.SMALL). { pose proof small_pos. assert (0 <= B * w * d) by (apply Rmult_le_pos; [apply Rmult_le_pos|]; lra). lra. }
  set (z := B * w * d + FluxModel.SMALL) in *. clearbody z. set (x := 2 * QB / z).
  assert (X : x * z = 2 * QB) by (unfold x; field; lra). clearbody x.
  assert (S : 0 < 1 + sqrt (1 + x * x)) by (pose proof (sqrt_pos (1 + x * x)); lra).
  replace (x / (d * (1 + sqrt (1 + x * x))) * d) with (x / (1 + sqrt (1 + x * x))) by (field; lra).
  destruct (half_angle x) as [R E]. cbv zeta in R, E. set (y := x / (1 + sqrt (1 + x * x))) in *. split; [exact R|].
  assert (z * (2 * y) = 2 * QB * (1 - y * y)) by (rewrite <- E, <- X; ring). lra.
Qed.
End One.

(** *** the velocity that is stored *)
Lemma stored_velocity v : v 0%nat = 1 -> inner G v v < 0 -> forall i, (1 <= i < 4)%nat ->
  ucon_to_utcon gcon (fun mu => ut_calc_3vel G gcon v * v mu) i = (v i + beta i) / al.
Proof using ST.
  intros V0 T i Hi. pose proof (st_alpha G al beta ST) as A.
  assert (E : ut_calc_3vel G gcon v = / al).
  { apply (ut_timelike G al beta ST v). cbv zeta. replace (inner G _ _) with (inner G v v); [exact T|].
    unfold inner, sigma4. cbn [Nat.eqb]. rewrite V0. reflexivity. }
  rewrite E. unfold ucon_to_utcon. fold (lapse gcon). rewrite (lapse_alpha G al beta ST), (gcon_0i G al beta ST) by exact Hi.
  destruct i; [lia|]. cbn [Nat.eqb]. rewrite V0. field. lra.
Qed.

(** *** whole routine *)
Section Fix.
Variables (gdet gam scale : R) (Utoprim : cons -> prims -> prims).
Hypotheses (g1 : 1 < gam).
Notation run := (fixup1zone G gcon alpha gdet gam Utoprim scale).
Notation bsq_of q := (dot (b_con q) (b_cov q)).
Lemma weak_total p a c : exists r, weak G gcon alpha gdet gam Utoprim p a c = Some r.
Proof using ST.
  unfold weak. destruct (state_ok (padd p a c)) as [qa (-> & _)]. destruct (state_ok p) as [q (-> & _)]. eexists; reflexivity.
Qed.
(** the stages *)
Definition stage (p : prims) (q : state) (p1 : prims) (applied : bool) : Prop :=
  let '(rf, uf) := set_floors gam scale (uu p) (bsq_of q) in
  (applied = false /\ rf <= rho p /\ uf <= uu p /\ p1 = p) \/
  (applied = true /\ (rho p < rf \/ uu p < uf) /\
    ((0 < trans_of p (bsq_of q) /\ p1 = strong G gcon gam p q rf uf (trans_of p (bsq_of q))) \/
     (trans_of p (bsq_of q) <= 0 /\ weak G gcon alpha gdet gam Utoprim p rf uf = Some p1))).
Lemma run_stage p : exists q p1 applied V, good p q /\ stage p q p1 applied /\ limit_gamma G (vel p1) = (V, true) /\
  run p = Some (mkp (rho p1) (uu p1) V (mag p1), applied, true).
Proof using ST.
  destruct (state_ok p) as [q GQ]. unfold fixup1zone. pose proof GQ as (E & _). rewrite E. clear E.
  assert (L : forall U, exists V, limit_gamma G U = (V, true)).
  { intros U. unfold limit_gamma. rewrite (gamma_defined G al beta ST). destruct (Rltb _ _); eexists; reflexivity. }
  unfold stage. exists q. destruct (set_floors gam scale (uu p) (bsq_of q)) as [rf uf].
  set (ap := Rltb (rho p) rf || Rltb (uu p) uf).
  assert (AP : (ap = true /\ (rho p < rf \/ uu p < uf)) \/ (ap = false /\ rf <= rho p /\ uf <= uu p)).
  { unfold ap. destruct (Rltb_spec (rho p) rf), (Rltb_spec (uu p) uf); cbn [orb]; [left|left|left|right]; split; auto; lra. }
  clearbody ap. destruct AP as [[-> C]|[-> C]].
  - destruct (Rltb_spec 0 (trans_of p (bsq_of q))) as [T|T].
    + destruct (L (vel (strong G gcon gam p q rf uf (trans_of p (bsq_of q))))) as [V HV]. eexists _, true, V. split; [exact GQ|].
      split; [right; split; [reflexivity|]; split; [exact C|]; left; split; [exact T|reflexivity]|]. split; [exact HV|]. rewrite HV. reflexivity.
    + destruct (weak_total p rf uf) as [r W]. destruct (L (vel r)) as [V HV]. exists r, true, V. split; [exact GQ|].
      split; [right; split; [reflexivity|]; split; [exact C|]; right; split; [lra|exact W]|]. split; [exact HV|]. rewrite W, HV. reflexivity.
  - destruct (L (vel p)) as [V HV]. exists p, false, V. split; [exact GQ|]. split; [left; split; [reflexivity|]; split; [apply C|]; split; [apply C|reflexivity]|].
    split; [exact HV|]. rewrite HV. reflexivity.
Qed.
Lemma max_r a b : b <= MY_MAX a b /\ a <= MY_MAX a b.
Proof. unfold MY_MAX. rcases; lra. Qed.
Lemma min_max_floor a f : a + MY_MAX 0 (f - a) = MY_MAX a f.
Proof. unfold MY_MAX. rcases; lra. Qed.
Definition outcome (p p' : prims) (f : bool) : Prop := run p = Some (p', f, true).
Lemma total p : exists p' f, outcome p p' f.
Proof using ST. destruct (run_stage p) as (q & p1 & a & V & _ & _ & _ & E). eexists _, a. exact E. Qed.
Lemma flag_iff p p' f q : outcome p p' f -> get_state G gcon alpha p = Some q ->
  (f = true <-> rho p < fst (set_floors gam scale (uu p) (bsq_of q)) \/ uu p < snd (set_floors gam scale (uu p) (bsq_of q))).
Proof using ST.
  intros O E. destruct (run_stage p) as (q0 & p1 & a & V & GQ & S & _ & R). rewrite (state_fun p q0 q E GQ). unfold outcome in O. rewrite R in O.
  assert (f = a) by congruence. subst f. unfold stage in S. destruct (set_floors _ _ _ _) as [rf uf]. cbn [fst snd].
  destruct S as [(-> & A & B & _)|(-> & C & _)]; split; intros H; try discriminate; try assumption; [exfalso; lra|reflexivity].
Qed.
Lemma gamma_limited p p' f : outcome p p' f -> exists g, mhd_gamma_calc G (vel p') = Some g /\ 1 <= g <= 50.
Proof using ST.
  intros O. destruct (run_stage p) as (q & p1 & a & V & _ & _ & L & R). unfold outcome in O. rewrite R in O.
  assert (P : p' = mkp (rho p1) (uu p1) V (mag p1)) by congruence. subst p'. cbn [vel]. destruct (limit_ok G al beta ST _ _ L) as [_ (g & E & B & _)].
  exists g. split; [exact E|]. split; [|exact B]. rewrite (gamma_defined G al beta ST) in E. assert (g = sqrt (1 + spatial G V V)) by congruence. subst g. apply (gamma_ge1 G al beta ST).
Qed.
Lemma untouched p p' f g : outcome p p' f -> f = false -> mhd_gamma_calc G (vel p) = Some g -> g <= 50 ->
  rho p' = rho p /\ uu p' = uu p /\ vel p' = vel p /\ mag p' = mag p.
Proof using ST.
  intros O F HG B. destruct (run_stage p) as (q & p1 & a & V & _ & S & L & R). unfold outcome in O. rewrite R in O.
  assert (f = a) by congruence. assert (P : p' = mkp (rho p1) (uu p1) V (mag p1)) by congruence. subst f. unfold stage in S. destruct (set_floors _ _ _ _) as [rf uf].
  destruct S as [(_ & _ & _ & E)|(E & _)]; [|congruence]. subst p1. subst p'. cbn [rho uu vel mag].
  unfold limit_gamma in L. rewrite HG in L. unfold GAMMAMAX in L. rewrite Rltb_false in L by lra. repeat split; congruence.
Qed.
(** the floors where the inversion does not come in *)
Lemma floors_met p p' f q : outcome p p' f -> get_state G gcon alpha p = Some q ->
  (0 < trans_of p (bsq_of q) \/ (forall c g, Utoprim c g = g)) ->
  rho p' = MY_MAX (rho p) (fst (set_floors gam scale (uu p) (bsq_of q))) /\ uu p' = MY_MAX (uu p) (snd (set_floors gam scale (uu p) (bsq_of q))) /\
  (forall m, mag p' m = mag p m).
Proof using ST.
  intros O E C. destruct (run_stage p) as (q0 & p1 & a & V & GQ & S & L & R). rewrite (state_fun p q0 q E GQ) in *. unfold outcome in O. rewrite R in O.
  assert (P : p' = mkp (rho p1) (uu p1) V (mag p1)) by congruence. subst p'. cbn [rho uu mag]. unfold stage in S. destruct (set_floors _ _ _ _) as [rf uf]. cbn [fst snd].
  destruct S as [(_ & A & B & ->)|(_ & _ & [[_ ->]|[T W]])].
  - unfold MY_MAX. rcases; repeat split; lra.
  - cbn [rho uu mag strong]. repeat split; reflexivity.
  - destruct C as [C|C]; [lra|]. unfold weak in W. destruct (get_state _ _ _ (padd p rf uf)); [|discriminate]. destruct (get_state _ _ _ p); [|discriminate].
    rewrite C in W. assert (P : p1 = padd_to p (padd p rf uf)) by congruence. subst p1. cbn [padd_to padd rho uu mag]. rewrite !min_max_floor. repeat split; try reflexivity. intros; ring.
Qed.
Lemma floors_hold p p' f q : 0 < scale <= 1 -> outcome p p' f -> get_state G gcon alpha p = Some q ->
  (0 < trans_of p (bsq_of q) \/ (forall c g, Utoprim c g = g)) -> within_floors (bsq_of q) (rho p') (uu p').
Proof using ST g1.
  intros SC O E C. destruct (floors_met p p' f q O E C) as (A & B & _). pose proof (bsq_pos p q (state_good p q E)) as BP.
  pose proof (max_r (rho p) (fst (set_floors gam scale (uu p) (bsq_of q)))) as M1. pose proof (max_r (uu p) (snd (set_floors gam scale (uu p) (bsq_of q)))) as M2.
  rewrite <- A in M1. rewrite <- B in M2.
  destruct (floors_ratios gam g1 scale (uu p) (bsq_of q) (rho p') (uu p') SC BP ltac:(lra) ltac:(lra) B) as (F1 & F2 & F3).
  unfold set_floors in M1, M2. cbn [fst snd] in M1, M2. unfold rho_floor in M1. unfold u_floor in M2.
  pose proof (maxs (MY_MAX (MY_MAX (RHOMIN * scale) RHOMINLIMIT) (bsq_of q / BSQORHOMAX)) (uu p / UORHOMAX)).
  pose proof (maxs (MY_MAX (RHOMIN * scale) RHOMINLIMIT) (bsq_of q / BSQORHOMAX)). pose proof (maxs (RHOMIN * scale) RHOMINLIMIT).
  pose proof (maxs (MY_MAX (UUMIN * Rpower scale gam) UUMINLIMIT) (bsq_of q / BSQOUMAX)). pose proof (maxs (UUMIN * Rpower scale gam) UUMINLIMIT).
  unfold RHOMINLIMIT, UUMINLIMIT, RHOMINLIMIT in *. unfold within_floors. repeat split; try assumption; lra.
Qed.
(** what the weak branch adds *)
Lemma added_at_rest p rf uf q : get_state G gcon alpha (padd p rf uf) = Some q ->
  let c := primtoflux gdet gam (padd p rf uf) q in
  D c = gdet * MY_MAX 0 (rf - rho p) / al /\ (forall i, (1 <= i < 4)%nat -> Q c i = 0 /\ Bc c i = 0).
Proof using ST.
  intros E. pose proof (state_good _ _ E) as GQ. pose proof (st_alpha G al beta ST) as A. 
  destruct GQ as (_ & _ & N & P & Ev & Eb & Ec & Eg & SH). cbv zeta. cbn [padd vel mag] in *.
  assert (U0 : ucon q 0%nat = / al).
  { assert (Z : spatial G (fun _ => 0) (fun _ => 0) = 0) by (unfold spatial; ring). rewrite Z, Rplus_0_r, sqrt_1 in Eg. apply (Rmult_eq_reg_l al); [|lra]. rewrite Eg. field. lra. }
  assert (UI : forall i, (1 <= i < 4)%nat -> ucov q i = 0).
  { intros i Hi. rewrite Ev. 
    assert (W : lower (ucon q) G i = inner G (ucon q) (fun j => if Nat.eqb j i then 1 else 0)).
    { pose proof (st_sym G al beta ST) as S. rewrite (inner_sym _ _ _ S), inner_lower. unfold sigma4. destruct i as [|[|[|[|i]]]]; try lia; cbn [Nat.eqb]; ring. }
    rewrite W, (st_split G al beta ST). replace (spatial G (shifted beta (ucon q)) _) with 0.
    - destruct i; [lia|]. cbn [Nat.eqb]. ring.
    - unfold spatial. rewrite !SH by lia. ring. }
  assert (BZ : forall i, b_con q i = 0).
  { intros i. rewrite Eb. unfold bcon. destruct (Nat.eqb i 0); [ring|]. field. lra. }
  unfold primtoflux. cbn [D Q Bc rho padd mag]. split; [rewrite U0; field; lra|].
  intros i Hi. split.
  - destruct i; [lia|]. cbn [Nat.eqb]. unfold mhd_calc. cbv zeta. rewrite UI, BZ by exact Hi. cbn [Nat.eqb]. ring.
  - unfold primtoflux_B. assert (BZ' : forall m, bcon (fun _ => 0) (ucon q) (ucov q) m = 0) by (intros m; rewrite <- Eb; apply BZ). rewrite !BZ'. ring.
Qed.
End Fix.
End ST.

(** ** scale *)
Lemma rpow_anti x y a : 0 < x <= y -> 0 <= a -> Rpower y (- a) <= Rpower x (- a).
Proof.
  intros [X XY] A. rewrite !Rpower_Ropp. apply Rinv_le_contravar; [apply exp_pos|]. apply Rle_Rpower_l; [assumption|]. split; assumption.
Qed.
Lemma scale_anti R0 p1 p2 r r' : 0 < R0 -> 0 <= p1 -> 0 <= p2 -> 0 < r <= r' -> get_scale R0 p1 p2 r' <= get_scale R0 p1 p2 r.
Proof.
  intros R P1 P2 [A B]. unfold get_scale.
  assert (J : Rpower R0 (p2 - p1) * Rpower R0 (- p2) = Rpower R0 (- p1)) by (rewrite <- Rpower_plus; f_equal; ring).
  assert (K : 0 < Rpower R0 (p2 - p1)) by apply exp_pos.
  destruct (Rleb_spec r' R0), (Rleb_spec r R0); try lra.
  - apply rpow_anti; lra.
  - apply Rle_trans with (Rpower R0 (- p1)); [|apply rpow_anti; lra]. rewrite <- J. apply Rmult_le_compat_l; [lra|]. apply rpow_anti; lra.
  - apply Rmult_le_compat_l; [lra|]. apply rpow_anti; lra.
Qed.
Lemma scale_one R0 p1 p2 : 1 <= R0 -> get_scale R0 p1 p2 1 = 1.
Proof. intros R. unfold get_scale. rewrite Rleb_true by assumption. unfold Rpower. rewrite ln_1, Rmult_0_r. apply exp_0. Qed.
Lemma scale_pos R0 p1 p2 r : 0 < get_scale R0 p1 p2 r.
Proof. unfold get_scale. destruct (Rleb _ _); [apply exp_pos|]. apply Rmult_lt_0_compat; apply exp_pos. Qed.
Lemma scale_ok r : 1 <= r -> 0 < get_scale 50 2 2 r <= 1.
Proof. intros H. split; [apply scale_pos|]. rewrite <- (scale_one 50 2 2) by lra. apply scale_anti; lra. Qed.
(** ** summaries *)
Section Sum.
Variables (G : mat) (al : R) (beta : vec).
Hypothesis ST : spacetime G al beta.
Notation gcon := (fst (gcon_func G)).
Lemma drift_ok p q : get_state G gcon (lapse gcon) p = Some q ->
  let bsq := inner G (b_con q) (b_con q) in
  let bp := betapar q in
  0 < ucondr q 0%nat /\ 0 <= bp * bp * bsq < 1 /\
  (bp * bp * bsq <= 1 - 1 / (50 * 50) -> inner G (ucondr q) (ucondr q) = -1) /\
  exists k, 0 < k /\ (forall mu, ucondr q mu = k * (ucon q mu + bp * b_con q mu)) /\
    inner G (ucondr q) (Bcon p) * (bsq + / 10 ^ 20) = k * b_con q 0%nat * / 10 ^ 20.
Proof using ST.
  intros E. pose proof (state_good G al beta ST p q E) as GQ. cbv zeta. rewrite <- (bsq_inner G al beta p q GQ).
  split; [exact (dr0_pos G al beta ST p q GQ)|]. split; [exact (beta_lt1 G al beta ST p q GQ)|]. split; [exact (dr_unit G al beta ST p q GQ)|].
  eexists. split; [exact (gd_pos G al beta ST p q GQ)|]. split; [exact (dr_eq q)|exact (dr_perp G al beta ST p q GQ)].
Qed.
Lemma gamma_total gdet gam scale Utoprim p : exists p' f, fixup1zone G gcon (lapse gcon) gdet gam Utoprim scale p = Some (p', f, true) /\
    exists g, mhd_gamma_calc G (vel p') = Some g /\ 1 <= g <= 50.
Proof using ST.
  destruct (total G al beta ST gdet gam scale Utoprim p) as (p' & f & O). exists p', f. split; [exact O|].
  exact (gamma_limited G al beta ST gdet gam scale Utoprim p p' f O).
Qed.
Lemma parallel_ok gam p p' q : get_state G gcon (lapse gcon) p = Some q -> 1 < gam -> 0 < rho p' -> 0 <= uu p' ->
  let y := vpar G gam p p' q * ucondr q 0%nat in
  let w p := rho p + gam * uu p in
  -1 < y < 1 /\
  (sqrt (spatial G (mag p) (mag p)) * w p' * ucondr q 0%nat + / 10 ^ 20) * y = inner G (ucon q) (Bcon p) * w p * ucon q 0%nat * (1 - y * y).
Proof using ST.
  intros E g1 r1 e1. pose proof (state_good G al beta ST p q E) as GQ. cbv zeta. rewrite <- (BB_spatial G al beta ST p).
  rewrite (Rmult_comm gam (uu p)), (Rmult_comm gam (uu p')). exact (vpar_ok G al beta ST p q GQ gam p' g1 r1 e1).
Qed.
End Sum.
