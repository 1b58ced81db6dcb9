From Coq Require Import Reals Bool List Lia Lra.
From Verif Require Import RLib FluxModel GeomModel GeomSpec GeomProofs SpaceProofs FrameProofs NullProofs EosGModel EosGProofs FloorModel FloorProofs VchModel VchSpec.
Import ListNotations.
Open Scope R_scope.

(** *** Quadratics *)
Lemma quad_gap A B C v : A > 0 -> A * v * v - B * v + C < 0 -> 0 < B * B - 4 * A * C.
Proof.
  intros HA H. pose proof (Rle_0_sqr (2 * A * v - B)) as S. unfold Rsqr in S.
  assert (4 * A * (A * v * v - B * v + C) < 0) by nra. nra.
Qed.
Lemma quad_fact A B C s v : A <> 0 -> s * s = B * B - 4 * A * C ->
  A * v * v - B * v + C = A * (v - (B - s) / (2 * A)) * (v - (B + s) / (2 * A)).
Proof. intros HA HS. replace C with ((B * B - s * s) / (4 * A)) by (rewrite HS; field; exact HA). field. exact HA. Qed.
Lemma two_roots A B C s : 0 < A -> 0 < s -> s * s = B * B - 4 * A * C ->
  let lo := (B - s) / (2 * A) in let hi := (B + s) / (2 * A) in
  lo < hi /\ (forall v, A * v * v - B * v + C = 0 <-> v = lo \/ v = hi) /\
  (forall v, A * v * v - B * v + C < 0 <-> lo < v < hi) /\ (forall v, A * v * v - B * v + C <= 0 <-> lo <= v <= hi).
Proof.
  intros HA Hs S lo hi. assert (L : lo < hi).
  { unfold lo, hi, Rdiv. apply Rmult_lt_compat_r; [apply Rinv_0_lt_compat; lra|lra]. }
  assert (F : forall v, A * v * v - B * v + C = A * ((v - lo) * (v - hi))).
  { intros v. rewrite (quad_fact A B C s v) by (lra || exact S). unfold lo, hi. ring. }
  clearbody lo hi. split; [exact L|]. split; [|split]; intros v; rewrite F.
  - split; [intros H|intros [->| ->]; ring].
    apply Rmult_integral in H. destruct H as [H|H]; [lra|]. apply Rmult_integral in H. destruct H; [left|right]; lra.
  - split.
    + intros H. destruct (Rle_lt_dec v lo) as [D|D].
      * assert (0 <= (lo - v) * (hi - v)) by (apply Rmult_le_pos; lra). assert (0 <= A * ((lo - v) * (hi - v))) by (apply Rmult_le_pos; lra). lra.
      * split; [exact D|]. destruct (Rle_lt_dec hi v) as [D'|D']; [|exact D'].
        assert (0 <= (v - lo) * (v - hi)) by (apply Rmult_le_pos; lra). assert (0 <= A * ((v - lo) * (v - hi))) by (apply Rmult_le_pos; lra). lra.
    + intros [D D']. assert (0 < (v - lo) * (hi - v)) by (apply Rmult_lt_0_compat; lra).
      assert (0 < A * ((v - lo) * (hi - v))) by (apply Rmult_lt_0_compat; lra). lra.
  - split.
    + intros H. destruct (Rlt_le_dec v lo) as [D|D].
      * assert (0 < (lo - v) * (hi - v)) by (apply Rmult_lt_0_compat; lra). assert (0 < A * ((lo - v) * (hi - v))) by (apply Rmult_lt_0_compat; lra). lra.
      * split; [exact D|]. destruct (Rlt_le_dec hi v) as [D'|D']; [|exact D'].
        assert (0 < (v - lo) * (v - hi)) by (apply Rmult_lt_0_compat; lra). assert (0 < A * ((v - lo) * (v - hi))) by (apply Rmult_lt_0_compat; lra). lra.
    + intros [D D']. assert (0 <= (v - lo) * (hi - v)) by (apply Rmult_le_pos; lra).
      assert (0 <= A * ((v - lo) * (hi - v))) by (apply Rmult_le_pos; lra). lra.
Qed.
Lemma abs_between lo hi v : lo <= v <= hi -> Rabs v <= Rmax (Rabs lo) (Rabs hi).
Proof. intros H. apply Rabs_le. unfold Rmax, Rabs in *. rcases; repeat destruct (Rcase_abs _); repeat destruct (Rle_dec _ _); lra. Qed.
Lemma my_max_rmax a b : MY_MAX a b = Rmax a b.
Proof. unfold MY_MAX, Rmax. destruct (Rltb_spec b a); destruct (Rle_dec a b); lra. Qed.

Lemma three_cases (P : nat -> Prop) : P 1%nat -> P 2%nat -> P 3%nat -> forall i, (1 <= i < 4)%nat -> P i.
Proof. intros A B C i Hi. destruct i as [|[|[|[|i]]]]; try lia; assumption. Qed.

Lemma pair_front js v u : (1 <= js < 4)%nat -> pair (front js v) u = u js - v * u 0%nat.
Proof. revert js. apply three_cases; unfold pair, front, sigma4; cbn [Nat.eqb]; ring. Qed.
Lemma inner_front C js v : symmetric C -> (1 <= js < 4)%nat ->
  inner C (front js v) (front js v) = C js js - 2 * v * C 0%nat js + v * v * C 0%nat 0%nat.
Proof.
  intros S. revert js. apply three_cases; unfold inner, front, sigma4; cbn [Nat.eqb];
    rewrite (S 1%nat 0%nat), (S 2%nat 0%nat), (S 3%nat 0%nat) by lia; ring.
Qed.
Lemma raise_front C js v : (1 <= js < 4)%nat -> raise (front js v) C 0%nat = C 0%nat js - v * C 0%nat 0%nat.
Proof. revert js. apply three_cases; unfold raise, front; cbn [Nat.eqb]; ring. Qed.

Section ST.
Variables (G : mat) (al : R) (beta : vec).
Hypothesis ST : spacetime G al beta.
Notation gcon := (fst (gcon_func G)).

Lemma inner_raise_pair T k : inner G T (raise k gcon) = pair k T.
Proof using ST.
  destruct (st_inv G al beta ST) as [I _]. pose proof (gcon_sym G al beta ST) as S.
  set (C := gcon) in *. clearbody C. unfold inner, pair, raise.
  transitivity (sigma4 (fun i => T i * sigma4 (fun l => sigma4 (fun j => G i j * C j l) * k l))).
  - unfold sigma4. ring.
  - unfold sigma4 at 1 2. rewrite !(fun i l Hi Hl => I i l Hi Hl) by lia. unfold sigma4, delta. cbn [Nat.eqb]. ring.
Qed.
Lemma perp_causal u v : inner G u u <= 0 -> u 0%nat <> 0 -> inner G u v = 0 -> 0 <= inner G v v.
Proof using ST.
  intros U N O. rewrite !(st_split G al beta ST) in *.
  pose proof (sp_cs G al beta ST (shifted beta u) (shifted beta v)) as CS.
  pose proof (sp_nonneg G al beta ST (shifted beta u)) as Nu. pose proof (sp_nonneg G al beta ST (shifted beta v)) as Nv.
  pose proof (st_alpha G al beta ST) as Ha.
  set (X := spatial G (shifted beta u) (shifted beta u)) in *. set (Y := spatial G (shifted beta v) (shifted beta v)) in *.
  set (W := spatial G (shifted beta u) (shifted beta v)) in *. set (a := u 0%nat) in *. set (b := v 0%nat) in *. clearbody X Y W a b.
  assert (EW : W = al * al * a * b) by lra. rewrite EW in CS.
  assert (A2 : 0 < al * al) by (apply Rmult_lt_0_compat; lra).
  assert (a2 : 0 < a * a) by (destruct (Rtotal_order a 0) as [|[|]]; [nra|contradiction|nra]).
  assert (X1 : X * Y <= al * al * (a * a) * Y) by (apply Rmult_le_compat_r; lra).
  assert (X2 : (al * al * (a * a)) * (al * al * (b * b)) <= (al * al * (a * a)) * Y).
  { replace ((al * al * (a * a)) * (al * al * (b * b))) with (al * al * a * b * (al * al * a * b)) by ring. lra. }
  apply Rmult_le_reg_l in X2; [lra|]. apply Rmult_lt_0_compat; lra.
Qed.
Lemma front_causal T js v : inner G T T <= 0 -> T 0%nat <> 0 -> (1 <= js < 4)%nat -> T js = v * T 0%nat ->
  0 <= inner gcon (front js v) (front js v).
Proof using ST.
  intros N Z J E. rewrite <- (inner_raise G al beta ST). apply (perp_causal T); [exact N|exact Z|].
  rewrite inner_raise_pair, pair_front by exact J. lra.
Qed.
Lemma front_timelike T js v : inner G T T < 0 -> (1 <= js < 4)%nat -> T js = v * T 0%nat ->
  0 < inner gcon (front js v) (front js v).
Proof using ST.
  intros N J E. rewrite <- (inner_raise G al beta ST). apply (perp_spacelike G al beta ST T); [exact N| |].
  - rewrite inner_raise_pair, pair_front by exact J. lra.
  - destruct (nonzero_vec (raise (front js v) gcon)) as [Z|NZ]; [exfalso|exact NZ].
    set (B := fun i : nat => if Nat.eqb i js then 1 else 0).
    pose proof (inner_raise_pair B (front js v)) as P. rewrite pair_front in P by exact J.
    assert (inner G B (raise (front js v) gcon) = 0).
    { unfold inner, sigma4. rewrite !Z by lia. ring. }
    assert (B js = 1) by (unfold B; rewrite Nat.eqb_refl; reflexivity).
    assert (B 0%nat = 0) by (unfold B; destruct js; [lia|reflexivity]). rewrite H0, H1 in P. lra.
Qed.
Lemma g00_neg : gcon 0%nat 0%nat < 0.
Proof using ST.
  rewrite (gcon_00 G al beta ST). pose proof (st_alpha G al beta ST). assert (0 < / (al * al)) by (apply Rinv_0_lt_compat, Rmult_lt_0_compat; lra). lra.
Qed.
Lemma front_form js v : (1 <= js < 4)%nat ->
  inner gcon (front js v) (front js v) = gcon js js - 2 * v * gcon 0%nat js + v * v * gcon 0%nat 0%nat.
Proof using ST. apply inner_front, (gcon_sym G al beta ST). Qed.

(** *** Light *)
Section Mu.
Variable mu : nat.
Hypothesis MU : (1 <= mu < 4)%nat.
Let g00 := gcon 0%nat 0%nat.
Let g0m := gcon 0%nat mu.
Let gmm := gcon mu mu.
Let disc := g0m * g0m - gmm * g00.
Lemma normal_time : inner G (raise (unit_cov 0) gcon) (raise (unit_cov 0) gcon) < 0.
Proof using ST.
  rewrite (inner_raise G al beta ST). pose proof g00_neg. replace (inner gcon (unit_cov 0) (unit_cov 0)) with (gcon 0%nat 0%nat); [assumption|].
  unfold inner, unit_cov, sigma4. cbn [Nat.eqb]. ring.
Qed.
Lemma disc_pos : 0 < disc.
Proof using ST MU.
  pose proof g00_neg as N. fold g00 in N.
  pose proof (front_timelike (raise (unit_cov 0) gcon) mu (g0m / g00) normal_time MU) as F.
  rewrite front_form in F by exact MU. fold g00 g0m gmm in F.
  assert (E : raise (unit_cov 0) gcon mu = g0m / g00 * raise (unit_cov 0) gcon 0%nat).
  { unfold raise, unit_cov. cbn [Nat.eqb]. rewrite ((gcon_sym G al beta ST) mu 0%nat) by lia. fold g00 g0m. field. lra. }
  specialize (F E). unfold disc. clearbody g00 g0m gmm. clear E.
  replace (gmm - 2 * (g0m / g00) * g0m + g0m / g00 * (g0m / g00) * g00) with ((g0m * g0m - gmm * g00) / - g00) in F by (field; lra).
  assert (0 < (g0m * g0m - gmm * g00) / - g00 * - g00) by (apply Rmult_lt_0_compat; lra).
  replace ((g0m * g0m - gmm * g00) / - g00 * - g00) with (g0m * g0m - gmm * g00) in H by (field; lra). exact H.
Qed.
(** the two light speeds *)
Definition cl : R := (g0m + sqrt disc) / g00.
Definition cr : R := (g0m - sqrt disc) / g00.
Lemma light_roots : cl < cr /\ (forall v, inner gcon (front mu v) (front mu v) = 0 <-> v = cl \/ v = cr) /\
  (forall v, 0 <= inner gcon (front mu v) (front mu v) <-> cl <= v <= cr).
Proof using ST MU.
  pose proof disc_pos as D. pose proof g00_neg as N. fold g00 in N.
  destruct (two_roots (- g00) (-2 * g0m) (- gmm) (2 * sqrt disc)) as (L & Z & _ & P).
  - lra.
  - pose proof (sqrt_lt_R0 disc D). lra.
  - replace (2 * sqrt disc * (2 * sqrt disc)) with (4 * (sqrt disc * sqrt disc)) by ring. rewrite sqrt_sqrt by lra. unfold disc. ring.
  - cbv zeta in L, Z, P.
    assert (E1 : (-2 * g0m - 2 * sqrt disc) / (2 * - g00) = cl) by (unfold cl; field; lra).
    assert (E2 : (-2 * g0m + 2 * sqrt disc) / (2 * - g00) = cr) by (unfold cr; field; lra). rewrite E1, E2 in *.
    split; [exact L|]. split; intros v; rewrite front_form by exact MU; fold g00 g0m gmm.
    + rewrite <- Z. split; intros H; lra.
    + rewrite <- P. split; intros H; lra.
Qed.
Lemma light_speed_is : light_phase_speed gcon mu = Rmax (Rabs cl) (Rabs cr).
Proof using ST MU.
  pose proof disc_pos as D. pose proof g00_neg as N. fold g00 in N. unfold light_phase_speed. fold g00 g0m gmm. fold disc.
  rewrite Rleb_true by lra. rewrite my_max_rmax.
  replace ((- g0m + sqrt disc) / g00) with (- cr) by (unfold cr; field; lra).
  replace ((- g0m - sqrt disc) / g00) with (- cl) by (unfold cl; field; lra). rewrite !Rabs_Ropp. apply Rmax_comm.
Qed.
Lemma light_pos : 0 < light_phase_speed gcon mu.
Proof using ST MU.
  rewrite light_speed_is. destruct light_roots as (L & _). unfold Rmax, Rabs. repeat destruct (Rcase_abs _); repeat destruct (Rle_dec _ _); lra.
Qed.
Lemma light_bound K : causal G K -> Rabs (K mu) <= light_phase_speed gcon mu * K 0%nat.
Proof using ST MU.
  intros (N & P). set (v := K mu / K 0%nat). assert (E : K mu = v * K 0%nat) by (unfold v; field; lra).
  pose proof (front_causal K mu v N ltac:(lra) MU E) as F. destruct light_roots as (_ & _ & B). apply B in F.
  rewrite E, Rabs_mult, (Rabs_right (K 0%nat)) by lra. apply Rmult_le_compat_r; [lra|]. rewrite light_speed_is. apply abs_between, F.
Qed.
Lemma light_attained : exists K, lightlike G K /\ Rabs (K mu) = light_phase_speed gcon mu * K 0%nat.
Proof using ST MU.
  destruct light_roots as (L & Z & _). pose proof g00_neg as N0. fold g00 in N0. pose proof disc_pos as D.
  assert (W : exists v, (v = cl \/ v = cr) /\ Rabs v = light_phase_speed gcon mu).
  { rewrite light_speed_is. unfold Rmax. destruct (Rle_dec _ _); [exists cr|exists cl]; split; auto. }
  destruct W as (v & V & A). assert (F : inner gcon (front mu v) (front mu v) = 0) by (apply Z, V).
  set (k := front mu v) in *. set (K := raise k gcon).
  assert (K0 : K 0%nat = g0m - v * g00).
  { apply raise_front, MU. }
  assert (KN : K 0%nat <> 0).
  { rewrite K0. pose proof (sqrt_lt_R0 disc D). destruct V as [-> | ->]; unfold cl, cr; [replace (g0m - (g0m + sqrt disc) / g00 * g00) with (- sqrt disc) by (field; lra)|
      replace (g0m - (g0m - sqrt disc) / g00 * g00) with (sqrt disc) by (field; lra)]; lra. }
  assert (KK : inner G K K = 0) by (unfold K; rewrite (inner_raise G al beta ST); exact F).
  assert (KM : K mu = v * K 0%nat).
  { pose proof (inner_raise_pair K k) as P. fold K in P. rewrite KK in P. unfold k in P. rewrite pair_front in P by exact MU. lra. }
  exists (fun i => K i * / K 0%nat). split; [split|].
  - replace (inner G (fun i => K i * / K 0%nat) (fun i => K i * / K 0%nat)) with (inner G K K * / K 0%nat * / K 0%nat) by (unfold inner, sigma4; ring).
    rewrite KK. ring.
  - rewrite Rinv_r by exact KN. lra.
  - rewrite Rinv_r by exact KN. rewrite KM. replace (v * K 0%nat * / K 0%nat) with v by (field; exact KN). lra.
Qed.
End Mu.

(** *** Characteristic speeds *)
Section Chars.
Variables (p : prims) (q : state) (js : nat) (c2 : R).
Hypothesis GQ : get_state G gcon (lapse gcon) p = Some q.
Hypothesis JS : (1 <= js < 4)%nat.
Hypothesis C2 : 0 < c2 <= 1.
Let u := ucon q.
Lemma unit_u : inner G u u = -1 /\ 0 < u 0%nat.
Proof using ST GQ. pose proof (state_good G al beta ST p q GQ) as (_ & _ & N & P & _). split; assumption. Qed.
Lemma chars_ok : exists vmax vmin, speeds gcon q js c2 = Speeds vmax vmin /\ vmin < vmax /\
  (forall v, wave gcon u c2 (front js v) <-> v = vmin \/ v = vmax) /\ vmin * u 0%nat < u js < vmax * u 0%nat.
Proof using ST GQ JS C2.
  destruct unit_u as (N & P). pose proof g00_neg as N0.
  set (v0 := u js / u 0%nat). assert (E0 : u js = v0 * u 0%nat) by (unfold v0; field; lra).
  pose proof (front_timelike u js v0 ltac:(lra) JS E0) as F. rewrite front_form in F by exact JS.
  assert (Sy : gcon js 0%nat = gcon 0%nat js) by (apply (gcon_sym G al beta ST); lia).
  unfold speeds.
  assert (D1 : dot (raise (unit_cov js) gcon) (unit_cov js) = gcon js js).
  { clear - JS. revert js JS. apply three_cases; unfold dot, sum4, raise, unit_cov; cbn [Nat.eqb]; ring. }
  assert (D2 : dot (raise (unit_cov 0) gcon) (unit_cov 0) = gcon 0%nat 0%nat) by (unfold dot, sum4, raise, unit_cov; cbn [Nat.eqb]; ring).
  assert (D3 : dot (unit_cov js) (ucon q) = u js) by (clear - JS; unfold u; revert js JS; apply three_cases; unfold dot, sum4, unit_cov; cbn [Nat.eqb]; ring).
  assert (D4 : dot (unit_cov 0) (ucon q) = u 0%nat) by (unfold u, dot, sum4, unit_cov; cbn [Nat.eqb]; ring).
  assert (D5 : dot (raise (unit_cov js) gcon) (unit_cov 0) = gcon 0%nat js).
  { clear - JS. revert js JS. apply three_cases; unfold dot, sum4, raise, unit_cov; cbn [Nat.eqb]; ring. }
  rewrite D1, D2, D3, D4, D5. clear D1 D2 D3 D4 D5.
  assert (WV : forall v, wave gcon u c2 (front js v) <->
    (u js - v * u 0%nat) * (u js - v * u 0%nat) = c2 * (gcon js js - 2 * v * gcon 0%nat js + v * v * gcon 0%nat 0%nat + (u js - v * u 0%nat) * (u js - v * u 0%nat))).
  { intros v. unfold wave. rewrite pair_front, front_form by exact JS. reflexivity. }
  set (g00 := gcon 0%nat 0%nat) in *. set (g0m := gcon 0%nat js) in *. set (gmm := gcon js js) in *.
  set (u0 := u 0%nat) in *. set (um := u js) in *. clearbody g00 g0m gmm u0 um. clear N Sy.
  set (A := u0 * u0 - (g00 + u0 * u0) * c2). set (B := 2 * (um * u0 - (g0m + um * u0) * c2)). set (C := um * um - (gmm + um * um) * c2).
  assert (HA : 0 < A).
  { unfold A. replace (u0 * u0 - (g00 + u0 * u0) * c2) with (u0 * u0 * (1 - c2) + (- g00) * c2) by ring.
    assert (0 <= u0 * u0 * (1 - c2)) by (apply Rmult_le_pos; [apply Rle_0_sqr|lra]). assert (0 < - g00 * c2) by (apply Rmult_lt_0_compat; lra). lra. }
  assert (FQ : forall v, A * v * v - B * v + C = (um - v * u0) * (um - v * u0) - c2 * (gmm - 2 * v * g0m + v * v * g00 + (um - v * u0) * (um - v * u0))).
  { intros v. unfold A, B, C. ring. }
  assert (F0 : A * v0 * v0 - B * v0 + C < 0).
  { rewrite FQ. replace (um - v0 * u0) with 0 by lra. assert (0 < c2 * (gmm - 2 * v0 * g0m + v0 * v0 * g00)) by (apply Rmult_lt_0_compat; lra). lra. }
  pose proof (quad_gap A B C v0 HA F0) as HD. set (d := B * B - 4 * A * C) in *.
  cbv zeta. rewrite (Rltb_false d 0) by lra. cbn [andb negb].
  assert (e10 : 0 < / 10 ^ 10) by (apply Rinv_0_lt_compat; lra). set (e10' := / 10 ^ 10) in *. clearbody e10'. rewrite (Rltb_false d (- e10')) by lra.
  destruct (Reqb_spec A 0) as [Z|_]; [lra|].
  pose proof (sqrt_lt_R0 d HD) as HS. destruct (two_roots A B C (sqrt d) HA HS) as (L & Z & I & _); [exact (sqrt_sqrt d (Rlt_le _ _ HD))|].
  cbv zeta in L, Z, I.
  replace (- (- B + sqrt d) / (2 * A)) with ((B - sqrt d) / (2 * A)) by (field; lra).
  replace (- (- B - sqrt d) / (2 * A)) with ((B + sqrt d) / (2 * A)) by (field; lra).
  rewrite Rltb_false by lra. exists ((B + sqrt d) / (2 * A)), ((B - sqrt d) / (2 * A)). split; [reflexivity|]. split; [exact L|]. split.
  - intros v. rewrite WV, <- Z, FQ. split; intros H; lra.
  - apply I in F0. set (lo := (B - sqrt d) / (2 * A)) in *. set (hi := (B + sqrt d) / (2 * A)) in *. clearbody lo hi.
    rewrite E0. split; apply Rmult_lt_compat_r; lra.
Qed.
Lemma wave_spacelike v : wave gcon u c2 (front js v) -> 0 <= inner gcon (front js v) (front js v).
Proof using C2.
  unfold wave. set (x := pair _ _). set (y := inner _ _ _). clearbody x y. intros H.
  assert (0 <= (1 - c2) * (x * x)) by (apply Rmult_le_pos; [lra|apply Rle_0_sqr]).
  assert (0 <= c2 * y) by lra. apply (Rmult_le_reg_l c2); lra.
Qed.
End Chars.

(** *** The fast speed *)
Section Fast.
Variables (gam : R) (p : prims) (q : state).
Hypothesis GQ : get_state G gcon (lapse gcon) p = Some q.
Hypothesis GAM : 1 < gam <= 2.
Let r := Rabs (rho p + FluxModel.SMALL).
Let e := Rabs (uu p + FluxModel.SMALL).
Hypothesis NZ : 0 < r.
Let w := r + e + pressure_rho0_u gam r e.
Let bsq := inner G (b_con q) (b_con q).
Definition cs2v : R := gam * pressure_rho0_u gam r e / w.
Definition va2v : R := bsq / (bsq + w + FluxModel.SMALL).
Lemma w_pos : 0 < w /\ 0 <= e /\ w = r + gam * e.
Proof using NZ GAM.
  assert (0 <= e) by apply Rabs_pos. unfold w, pressure_rho0_u. assert (0 <= gam * e) by (apply Rmult_le_pos; lra). lra.
Qed.
Lemma cs2_range : 0 <= cs2v < 1.
Proof using NZ GAM.
  destruct w_pos as (W & E & WE). unfold cs2v, pressure_rho0_u.
  assert (0 <= gam * ((gam - 1) * e)) by (apply Rmult_le_pos; [lra|apply Rmult_le_pos; lra]).
  assert (gam * ((gam - 1) * e) < w).
  { rewrite WE. assert (0 <= gam * e * (2 - gam)) by (apply Rmult_le_pos; [apply Rmult_le_pos; lra|lra]). nra. }
  split; [apply Rmult_le_pos; [assumption|apply Rlt_le, Rinv_0_lt_compat, W]|]. apply ratio_lt1; assumption.
Qed.
Lemma bsq_nonneg : 0 <= bsq.
Proof using ST GQ.
  pose proof (state_good G al beta ST p q GQ) as H. unfold bsq. rewrite <- (bsq_inner G al beta p q H). apply (bsq_pos G al beta ST p q H).
Qed.
Lemma va2_range : 0 <= va2v < 1.
Proof using ST GQ NZ GAM.
  destruct w_pos as (W & _). pose proof bsq_nonneg as B. pose proof small_pos as S. unfold va2v.
  split; [apply Rmult_le_pos; [assumption|apply Rlt_le, Rinv_0_lt_compat; lra]|]. apply ratio_lt1; lra.
Qed.
Lemma cms2_is : cms2_of gam p q = Some (cs2v, Rmax FluxModel.SMALL (fast2 cs2v va2v)) /\ 0 < Rmax FluxModel.SMALL (fast2 cs2v va2v) <= 1.
Proof using ST GQ NZ GAM.
  destruct w_pos as (W & E & WE). pose proof cs2_range as CR. pose proof va2_range as VR. pose proof small_pos as S. pose proof bsq_nonneg as B.
  assert (EN : enthalpy_rho0_u gam r e = w) by (unfold enthalpy_rho0_u; lra).
  assert (CS : cs2_of gam r e = Some cs2v).
  { unfold cs2_of. rewrite EN. destruct (Reqb_spec w 0) as [Z|_]; [lra|]. fold cs2v. rewrite Rltb_false by lra.
    unfold sound_speed_rho0_u. rewrite EN. fold cs2v. rewrite sqrt_sqrt by lra. reflexivity. }
  assert (BE : dot (b_con q) (b_cov q) = bsq) by (apply (bsq_inner G al beta p q), (state_good G al beta ST p q GQ)).
  unfold cms2_of. fold r e. rewrite CS, BE, EN, (Rabs_right w) by lra. fold va2v.
  assert (M : MY_MAX 0 va2v = va2v) by (rewrite my_max_rmax; apply Rmax_right; lra). rewrite M.
  assert (FE : cs2v + va2v - cs2v * va2v = fast2 cs2v va2v) by (unfold fast2; ring). rewrite FE.
  assert (FR : 0 <= fast2 cs2v va2v < 1).
  { unfold fast2. assert (0 < (1 - cs2v) * (1 - va2v)) by (apply Rmult_lt_0_compat; lra).
    assert ((1 - cs2v) * (1 - va2v) <= 1 * 1) by (apply Rmult_le_compat; lra). lra. }
  assert (S1 : FluxModel.SMALL < 1).
  { unfold FluxModel.SMALL. rewrite <- Rinv_1. apply Rinv_lt_contravar; lra. }
  set (f := fast2 cs2v va2v) in *. clearbody f. split.
  - f_equal. f_equal. rewrite Rabs_right by lra. unfold Rmax. destruct (Rltb_spec f FluxModel.SMALL); destruct (Rle_dec FluxModel.SMALL f); lra.
  - unfold Rmax. destruct (Rle_dec FluxModel.SMALL f); lra.
Qed.
Lemma vchar_ok js : (1 <= js < 4)%nat -> exists vmax vmin, mhd_vchar gcon gam p q js = Speeds vmax vmin /\ vmin < vmax /\
  (forall v, wave gcon (ucon q) (Rmax FluxModel.SMALL (fast2 cs2v va2v)) (front js v) <-> v = vmin \/ v = vmax) /\
  vmin * ucon q 0%nat < ucon q js < vmax * ucon q 0%nat.
Proof using ST GQ NZ GAM.
  intros J. destruct cms2_is as (E & C). pose proof cs2_range as CR. unfold mhd_vchar. rewrite E. set (c2 := Rmax _ _) in *. clearbody c2.
  rewrite (Rltb_false cs2v 0), (Rltb_false c2 0), (Rltb_false 1 c2), (Rltb_false 1 cs2v) by lra. cbn [orb].
  apply (chars_ok p q js c2 GQ J C).
Qed.
Lemma vchar_light js vmax vmin : (1 <= js < 4)%nat -> mhd_vchar gcon gam p q js = Speeds vmax vmin ->
  Rabs vmax <= light_phase_speed gcon js /\ Rabs vmin <= light_phase_speed gcon js.
Proof using ST GQ NZ GAM.
  intros J E. destruct (vchar_ok js J) as (a & b & E' & _ & Z & _). rewrite E in E'. injection E' as <- <-.
  destruct cms2_is as (_ & C). destruct (light_roots js J) as (_ & _ & B). rewrite (light_speed_is js J).
  split; apply abs_between, B, (wave_spacelike q js _ C), Z; auto.
Qed.
End Fast.
End ST.

(** *** Crossing times *)
Section Cross.
Variable dx : nat -> R.
Hypothesis DX : forall mu, (1 <= mu < 4)%nat -> 0 < dx mu.
Definition rate (gcon : mat) : R := light_phase_speed gcon 1 / dx 1%nat + light_phase_speed gcon 2 / dx 2%nat + light_phase_speed gcon 3 / dx 3%nat.
Lemma cell_min l : forall d, let r := fold_left (fun d (c : R) => if Rltb c d then c else d) l d in r <= d /\ forall c, In c l -> r <= c.
Proof using.
  induction l as [|c l IH]; intros d; cbn [fold_left]; [split; [lra|intros c []]|].
  specialize (IH (if Rltb c d then c else d)). cbv zeta in IH. destruct IH as (A & B). cbv zeta. split.
  - destruct (Rltb_spec c d); lra.
  - intros x [->|X]; [|apply B, X]. destruct (Rltb_spec x d); lra.
Qed.
Lemma zone_min zones : forall d, let r := fold_left (fun d gcon => let l := dt_local dx gcon in if Rltb l d then l else d) zones d in
  r <= d /\ forall g, In g zones -> r <= dt_local dx g.
Proof using.
  induction zones as [|g l IH]; intros d; cbn [fold_left]; [split; [lra|intros c []]|].
  specialize (IH (if Rltb (dt_local dx g) d then dt_local dx g else d)). cbv zeta in *. destruct IH as (A & B). split.
  - destruct (Rltb_spec (dt_local dx g) d); lra.
  - intros x [->|X]; [|apply B, X]. destruct (Rltb_spec (dt_local dx x) d); lra.
Qed.
Lemma dt_light_le gcon mu : (1 <= mu < 4)%nat -> dt_light dx gcon <= dx mu / light_phase_speed gcon mu.
Proof using.
  intros MU. unfold dt_light. pose proof (cell_min (map (fun mu => dx mu / light_phase_speed gcon mu) [1; 2; 3]%nat) (10 ^ 30)) as (_ & B).
  cbn [map fold_left] in *. cbv zeta. apply B. revert mu MU. apply three_cases; cbn; auto.
Qed.

Section In.
Variables (G : mat) (al : R) (beta : vec).
Hypothesis ST : spacetime G al beta.
Notation gcon := (fst (gcon_func G)).
Lemma rate_pos : 0 < rate gcon.
Proof using ST DX.
  unfold rate. assert (forall mu, (1 <= mu < 4)%nat -> 0 < light_phase_speed gcon mu / dx mu).
  { intros mu M. apply dpos; [apply (light_pos G al beta ST mu M)|apply DX, M]. }
  pose proof (H 1%nat ltac:(lia)). pose proof (H 2%nat ltac:(lia)). pose proof (H 3%nat ltac:(lia)). lra.
Qed.
Lemma dt_local_is : dt_local dx gcon = / rate gcon.
Proof using ST DX.
  unfold dt_local, rate. cbn [fold_left].
  pose proof (light_pos G al beta ST 1%nat ltac:(lia)). pose proof (light_pos G al beta ST 2%nat ltac:(lia)). pose proof (light_pos G al beta ST 3%nat ltac:(lia)).
  pose proof (DX 1%nat ltac:(lia)). pose proof (DX 2%nat ltac:(lia)). pose proof (DX 3%nat ltac:(lia)).
  unfold Rdiv at 1. rewrite Rmult_1_l. f_equal. set (a := light_phase_speed _ 1) in *. set (b := light_phase_speed _ 2) in *. set (c := light_phase_speed _ 3) in *.
  clearbody a b c. field. repeat split; lra.
Qed.
Lemma cross_zone K mu : causal G K -> (1 <= mu < 4)%nat -> Rabs (K mu) * dt_light dx gcon <= dx mu * K 0%nat.
Proof using ST DX.
  intros C M. pose proof (light_bound G al beta ST mu M K C) as B. pose proof (dt_light_le gcon mu M) as L.
  pose proof (light_pos G al beta ST mu M) as P. pose proof (DX mu M) as D. destruct C as (_ & K0).
  set (c := light_phase_speed gcon mu) in *. set (d := dt_light dx gcon) in *. clearbody c d.
  destruct (Rle_lt_dec d 0) as [N|N].
  { assert (0 <= Rabs (K mu) * - d) by (apply Rmult_le_pos; [apply Rabs_pos|lra]). assert (0 <= dx mu * K 0%nat) by (apply Rmult_le_pos; lra). lra. }
  apply Rle_trans with (c * K 0%nat * d); [apply Rmult_le_compat_r; lra|].
  apply (Rmult_le_compat_l (c * K 0%nat)) in L; [|apply Rmult_le_pos; lra].
  replace (c * K 0%nat * (dx mu / c)) with (dx mu * K 0%nat) in L by (field; lra). exact L.
Qed.
Lemma cross_sum (v : nat -> R) dt : (forall mu, (1 <= mu < 4)%nat -> Rabs (v mu) <= light_phase_speed gcon mu) -> 0 <= dt <= dt_local dx gcon ->
  (Rabs (v 1%nat) / dx 1%nat + Rabs (v 2%nat) / dx 2%nat + Rabs (v 3%nat) / dx 3%nat) * dt <= 1.
Proof using ST DX.
  intros V (D0 & D). rewrite dt_local_is in D. pose proof rate_pos as RP.
  assert (S : Rabs (v 1%nat) / dx 1%nat + Rabs (v 2%nat) / dx 2%nat + Rabs (v 3%nat) / dx 3%nat <= rate gcon).
  { unfold rate. assert (T : forall mu, (1 <= mu < 4)%nat -> Rabs (v mu) / dx mu <= light_phase_speed gcon mu / dx mu).
    { intros mu M. apply Rmult_le_compat_r; [apply Rlt_le, Rinv_0_lt_compat, DX, M|apply V, M]. }
    pose proof (T 1%nat ltac:(lia)). pose proof (T 2%nat ltac:(lia)). pose proof (T 3%nat ltac:(lia)). lra. }
  apply Rle_trans with (rate gcon * dt); [apply Rmult_le_compat_r; assumption|].
  apply (Rmult_le_compat_l (rate gcon)) in D; [|lra]. rewrite Rinv_r in D by lra. exact D.
Qed.
Lemma cross_light K dt : causal G K -> 0 <= dt <= dt_local dx gcon ->
  (Rabs (K 1%nat) / dx 1%nat + Rabs (K 2%nat) / dx 2%nat + Rabs (K 3%nat) / dx 3%nat) * dt <= K 0%nat.
Proof using ST DX.
  intros C D. pose proof (cross_sum (fun mu => K mu / K 0%nat) dt) as H. assert (K0 : 0 < K 0%nat) by apply C.
  assert (A : forall mu, Rabs (K mu / K 0%nat) = Rabs (K mu) / K 0%nat).
  { intros mu. unfold Rdiv. rewrite Rabs_mult, (Rabs_right (/ K 0%nat)); [reflexivity|]. apply Rle_ge, Rlt_le, Rinv_0_lt_compat, K0. }
  cbv beta in H. rewrite !A in H.
  assert (P : forall mu, (1 <= mu < 4)%nat -> Rabs (K mu / K 0%nat) <= light_phase_speed gcon mu).
  { intros mu M. rewrite A. pose proof (light_bound G al beta ST mu M K C) as B.
    apply (Rmult_le_reg_r (K 0%nat)); [exact K0|]. replace (Rabs (K mu) / K 0%nat * K 0%nat) with (Rabs (K mu)) by (field; lra). exact B. }
  specialize (H P D). pose proof (DX 1%nat ltac:(lia)). pose proof (DX 2%nat ltac:(lia)). pose proof (DX 3%nat ltac:(lia)).
  set (a := Rabs (K 1%nat)) in *. set (b := Rabs (K 2%nat)) in *. set (c := Rabs (K 3%nat)) in *. set (k := K 0%nat) in *.
  apply (Rmult_le_compat_r k) in H; [|lra]. clearbody a b c k.
  replace ((a / k / dx 1%nat + b / k / dx 2%nat + c / k / dx 3%nat) * dt * k) with ((a / dx 1%nat + b / dx 2%nat + c / dx 3%nat) * dt) in H
    by (field; repeat split; lra). lra.
Qed.
End In.
Lemma min_le zones G : In (fst (gcon_func G)) zones -> dt_light_min dx zones <= dt_local dx (fst (gcon_func G)).
Proof using. intros I. apply (zone_min zones (1 / FluxModel.SMALL)), I. Qed.
Lemma all_zones cour zones G al beta dt K : 0 <= cour -> spacetime G al beta -> In (fst (gcon_func G)) zones -> 0 <= dt <= cour * dt_light_min dx zones -> causal G K ->
  (Rabs (K 1%nat) / dx 1%nat + Rabs (K 2%nat) / dx 2%nat + Rabs (K 3%nat) / dx 3%nat) * dt <= cour * K 0%nat.
Proof using DX.
  intros CO ST I D C. pose proof (min_le zones G I) as M. pose proof (rate_pos G al beta ST) as RP.
  assert (0 < dt_local dx (fst (gcon_func G))) by (rewrite (dt_local_is G al beta ST); apply Rinv_0_lt_compat, RP).
  pose proof (cross_light G al beta ST K (dt_local dx (fst (gcon_func G))) C ltac:(lra)) as H'.
  set (s := Rabs (K 1%nat) / dx 1%nat + Rabs (K 2%nat) / dx 2%nat + Rabs (K 3%nat) / dx 3%nat) in *.
  assert (S0 : 0 <= s).
  { unfold s. assert (T : forall mu, (1 <= mu < 4)%nat -> 0 <= Rabs (K mu) / dx mu).
    { intros mu U. apply Rmult_le_pos; [apply Rabs_pos|apply Rlt_le, Rinv_0_lt_compat, DX, U]. }
    pose proof (T 1%nat ltac:(lia)). pose proof (T 2%nat ltac:(lia)). pose proof (T 3%nat ltac:(lia)). lra. }
  clearbody s. assert (dt <= cour * dt_local dx (fst (gcon_func G))).
  { apply Rle_trans with (cour * dt_light_min dx zones); [lra|]. apply Rmult_le_compat_l; assumption. }
  apply Rle_trans with (s * (cour * dt_local dx (fst (gcon_func G)))); [apply Rmult_le_compat_l; assumption|].
  apply (Rmult_le_compat_l cour) in H'; [|exact CO]. lra.
Qed.
Lemma all_speeds cour zones G al beta dt gam p q v : 0 <= cour -> spacetime G al beta -> In (fst (gcon_func G)) zones -> 0 <= dt <= cour * dt_light_min dx zones ->
  get_state G (fst (gcon_func G)) (lapse (fst (gcon_func G))) p = Some q -> 1 < gam <= 2 -> 0 < Rabs (rho p + FluxModel.SMALL) ->
  (forall mu, (1 <= mu < 4)%nat -> exists vmax vmin, mhd_vchar (fst (gcon_func G)) gam p q mu = Speeds vmax vmin /\ (v mu = vmax \/ v mu = vmin)) ->
  (Rabs (v 1%nat) / dx 1%nat + Rabs (v 2%nat) / dx 2%nat + Rabs (v 3%nat) / dx 3%nat) * dt <= cour.
Proof using DX.
  intros CO ST I D GQ GA NZ V. pose proof (min_le zones G I) as M. pose proof (rate_pos G al beta ST) as RP.
  set (gc := fst (gcon_func G)) in *.
  assert (L0 : 0 < dt_local dx gc) by (unfold gc; rewrite (dt_local_is G al beta ST); apply Rinv_0_lt_compat, RP).
  pose proof (cross_sum G al beta ST v (dt_local dx gc)) as H'.
  assert (B : forall mu, (1 <= mu < 4)%nat -> Rabs (v mu) <= light_phase_speed gc mu).
  { intros mu U. destruct (V mu U) as (a & b & E & [-> | ->]); apply (vchar_light G al beta ST gam p q GQ GA NZ mu a b U E). }
  specialize (H' B). fold gc in H'. specialize (H' ltac:(lra)).
  set (s := Rabs (v 1%nat) / dx 1%nat + Rabs (v 2%nat) / dx 2%nat + Rabs (v 3%nat) / dx 3%nat) in *.
  assert (S0 : 0 <= s).
  { unfold s. assert (T : forall mu, (1 <= mu < 4)%nat -> 0 <= Rabs (v mu) / dx mu).
    { intros mu U. apply Rmult_le_pos; [apply Rabs_pos|apply Rlt_le, Rinv_0_lt_compat, DX, U]. }
    pose proof (T 1%nat ltac:(lia)). pose proof (T 2%nat ltac:(lia)). pose proof (T 3%nat ltac:(lia)). lra. }
  clearbody s. assert (dt <= cour * dt_local dx gc).
  { apply Rle_trans with (cour * dt_light_min dx zones); [lra|]. apply Rmult_le_compat_l; assumption. }
  apply Rle_trans with (s * (cour * dt_local dx gc)); [apply Rmult_le_compat_l; assumption|].
  apply (Rmult_le_compat_l cour) in H'; [|exact CO]. lra.
Qed.
End Cross.

Lemma fast_speeds G al beta gam p q js : spacetime G al beta -> get_state G (fst (gcon_func G)) (lapse (fst (gcon_func G))) p = Some q ->
  1 < gam <= 2 -> 0 < Rabs (rho p + FluxModel.SMALL) -> (1 <= js < 4)%nat ->
  let r := Rabs (rho p + FluxModel.SMALL) in let e := Rabs (uu p + FluxModel.SMALL) in let P := (gam - 1) * e in
  let w := r + e + P in let bsq := inner G (b_con q) (b_con q) in
  let cs2 := gam * P / w in let va2 := bsq / (bsq + w + FluxModel.SMALL) in
  let c2 := Rmax FluxModel.SMALL (fast2 cs2 va2) in
  0 <= cs2 < 1 /\ 0 <= va2 < 1 /\ 0 < c2 <= 1 /\
  exists vmax vmin, mhd_vchar (fst (gcon_func G)) gam p q js = Speeds vmax vmin /\ vmin < vmax /\
  (forall v, wave (fst (gcon_func G)) (ucon q) c2 (front js v) <-> v = vmin \/ v = vmax) /\
  vmin * ucon q 0%nat < ucon q js < vmax * ucon q 0%nat.
Proof.
  intros ST GQ GA NZ J. cbv zeta.
  exact (conj (cs2_range gam p GA NZ) (conj (va2_range G al beta ST gam p q GQ GA NZ) (conj (proj2 (cms2_is G al beta ST gam p q GQ GA NZ))
    (vchar_ok G al beta ST gam p q GQ GA NZ js J)))).
Qed.
