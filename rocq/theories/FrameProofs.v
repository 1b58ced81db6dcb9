(** Connection, tetrads, null vectors, inflow check, Kerr-Schild metric. *)
From Coq Require Import Reals Bool Lia Lra.
From Verif Require Import RLib FluxModel GeomModel GeomSpec GeomProofs SpaceProofs.
Open Scope R_scope.

(** ** Connection *)
Lemma dgcov_sym sg X i j k : (forall Y, symmetric (sg Y)) -> (i < 4)%nat -> (j < 4)%nat -> dgcov sg X i j k = dgcov sg X j i k.
Proof. intros S Hi Hj. unfold dgcov. now rewrite (S (bump X k DELTA) i j Hi Hj), (S (bump X k (- DELTA)) i j Hi Hj). Qed.
Lemma dgcov_quotient sg X i j k : dgcov sg X i j k =
  (sg (bump X k DELTA) i j - sg (bump X k (- DELTA)) i j) / (2 * DELTA).
Proof.
  unfold dgcov. f_equal. unfold bump. rewrite Nat.eqb_refl. ring.
Qed.
Lemma conn_low_sym sg X i j k : (forall Y, symmetric (sg Y)) -> (i < 4)%nat -> (j < 4)%nat -> (k < 4)%nat ->
  conn_low sg X i j k = conn_low sg X i k j.
Proof. intros S Hi Hj Hk. unfold conn_low. rewrite (dgcov_sym sg X k j i S Hk Hj). ring. Qed.
Lemma conn_sym sg gcon X i j k : (forall Y, symmetric (sg Y)) -> (i < 4)%nat -> (j < 4)%nat -> (k < 4)%nat ->
  conn_func sg gcon X i j k = conn_func sg gcon X i k j.
Proof.
  intros S Hi Hj Hk. unfold conn_func, sum4. rewrite !(fun l Hl => conn_low_sym sg X l j k S Hl Hj Hk) by lia. reflexivity.
Qed.
Lemma conn_lowered sg gcon X i j k : inverse (sg X) gcon -> (i < 4)%nat ->
  sigma4 (fun l => sg X i l * conn_func sg gcon X l j k) = conn_low sg X i j k.
Proof.
  intros I Hi. unfold conn_func.
  transitivity (sigma4 (fun m => sigma4 (fun l => sg X i l * gcon l m) * conn_low sg X m j k)).
  - unfold sigma4, sum4. ring.
  - unfold sigma4 at 1. rewrite !(fun m Hm => I i m Hi Hm) by lia. revert i Hi.
    apply four_cases; unfold delta; cbn [Nat.eqb]; ring.
Qed.
Lemma conn_compat sg gcon X i j k : (forall Y, symmetric (sg Y)) -> inverse (sg X) gcon ->
  (i < 4)%nat -> (j < 4)%nat -> (k < 4)%nat ->
  (sg (bump X k DELTA) i j - sg (bump X k (- DELTA)) i j) / (2 * DELTA) =
  sigma4 (fun l => sg X j l * conn_func sg gcon X l i k) + sigma4 (fun l => sg X i l * conn_func sg gcon X l j k).
Proof.
  intros S I Hi Hj Hk. rewrite <- dgcov_quotient, !conn_lowered by assumption. unfold conn_low.
  rewrite (dgcov_sym sg X j i k S Hj Hi), (dgcov_sym sg X k i j S Hk Hi), (dgcov_sym sg X k j i S Hk Hj). lra.
Qed.

(** ** Tetrads *)
Lemma normalize_some G V e : normalize G V = Some e ->
  exists n, 0 < n /\ (forall mu, e mu = V mu / n) /\ n * n = Rabs (inner G V V).
Proof.
  unfold normalize. rewrite dot2_inner. set (n := sqrt (Rabs (inner G V V))).
  destruct (Reqb_spec n 0) as [E|N]; [discriminate|]. intros E. injection E as <-.
  exists n. assert (0 <= n) by apply sqrt_pos. split; [lra|]. split; [reflexivity|]. apply sqrt_sqrt, Rabs_pos.
Qed.
Lemma project_some G a b c : project_out G a b = Some c ->
  exists t, (forall mu, c mu = a mu - t * b mu) /\ t * inner G b b = inner G a b.
Proof.
  unfold project_out. rewrite !dot2_inner. destruct (Reqb_spec (inner G b b) 0) as [E|N]; [discriminate|].
  intros E. injection E as <-. exists (inner G a b / inner G b b). split; intros; field; exact N.
Qed.
Lemma inner_sub G a b c t d : (forall mu, c mu = a mu - t * b mu) -> inner G c d = inner G a d - t * inner G b d.
Proof. intros E. unfold inner, sigma4. rewrite !E. ring. Qed.
Lemma inner_div G a c n d : n <> 0 -> (forall mu, c mu = a mu / n) -> inner G c d = inner G a d / n.
Proof. intros N E. unfold inner, sigma4. rewrite !E. field. exact N. Qed.
Lemma normalize_sign G V e : symmetric G -> normalize G V = Some e ->
  inner G e e = inner G V V / Rabs (inner G V V) /\ inner G V V <> 0.
Proof.
  intros S H. destruct (normalize_some _ _ _ H) as (n & Hn & E & N).
  rewrite (inner_div G V e n e) by (auto; lra). rewrite (inner_sym G V e S), (inner_div G V e n V) by (auto; lra).
  rewrite <- N. split; [field; lra|]. intros Z. rewrite Z, Rabs_R0 in N. nra.
Qed.
Lemma normalize_unit G V e : symmetric G -> normalize G V = Some e -> 0 < inner G V V -> inner G e e = 1.
Proof. intros S H P. rewrite (proj1 (normalize_sign _ _ _ S H)), Rabs_right by lra. field. lra. Qed.
Lemma normalize_time G V e : symmetric G -> normalize G V = Some e -> inner G V V < 0 -> inner G e e = -1.
Proof. intros S H P. rewrite (proj1 (normalize_sign _ _ _ S H)), Rabs_left by lra. field. lra. Qed.
Lemma normalize_perp G V e w : normalize G V = Some e -> inner G V w = 0 -> inner G e w = 0.
Proof.
  intros H P. destruct (normalize_some _ _ _ H) as (n & Hn & E & _).
  rewrite (inner_div G V e n w) by (auto; lra). rewrite P. field. lra.
Qed.
Lemma project_perp G a b c : project_out G a b = Some c -> inner G c b = 0.
Proof. intros H. destruct (project_some _ _ _ _ H) as (t & E & T). rewrite (inner_sub G a b c t b E). lra. Qed.
Lemma project_keep G a b c w : project_out G a b = Some c -> inner G a w = 0 -> inner G b w = 0 -> inner G c w = 0.
Proof. intros H A B. destruct (project_some _ _ _ _ H) as (t & E & T). rewrite (inner_sub G a b c t w E), A, B. ring. Qed.
Lemma inner_zero G v : (forall i, (i < 4)%nat -> v i = 0) -> inner G v v = 0.
Proof. intros H. unfold inner, sigma4. rewrite !H by lia. ring. Qed.
Lemma nonzero_vec v : (forall i, (i < 4)%nat -> v i = 0) \/ (exists i, (i < 4)%nat /\ v i <> 0).
Proof.
  destruct (Req_dec (v 0%nat) 0) as [E0|]; [|right; exists 0%nat; split; [lia|assumption]].
  destruct (Req_dec (v 1%nat) 0) as [E1|]; [|right; exists 1%nat; split; [lia|assumption]].
  destruct (Req_dec (v 2%nat) 0) as [E2|]; [|right; exists 2%nat; split; [lia|assumption]].
  destruct (Req_dec (v 3%nat) 0) as [E3|]; [|right; exists 3%nat; split; [lia|assumption]].
  left. now apply four_cases.
Qed.

Section TET.
Variables (G : mat) (alpha : R) (beta : vec).
Hypothesis ST : spacetime G alpha beta.
Let SY : symmetric G := st_sym G alpha beta ST.

(** A spacelike step: orthogonal to a timelike vector and not null *)
Lemma unit_step u a e : inner G u u = -1 -> inner G u a = 0 -> normalize G a = Some e -> inner G e e = 1.
Proof.
  intros U P H. apply (normalize_unit G a e SY H).
  apply (perp_spacelike G alpha beta ST u a); [lra|exact P|].
  destruct (nonzero_vec a) as [Z|N]; [|exact N]. exfalso. apply (proj2 (normalize_sign G a e SY H)). now apply inner_zero.
Qed.
Lemma step_defined u a : inner G u u = -1 -> inner G u a = 0 -> ~ (forall i, (i < 4)%nat -> a i = 0) -> exists e, normalize G a = Some e.
Proof.
  intros U P N. assert (Q : 0 < inner G a a).
  { apply (perp_spacelike G alpha beta ST u a); [lra|exact P|]. destruct (nonzero_vec a); [contradiction|assumption]. }
  unfold normalize. rewrite dot2_inner. destruct (Reqb_spec (sqrt (Rabs (inner G a a))) 0) as [E|]; [|eauto].
  exfalso. apply sqrt_eq_0 in E; [|apply Rabs_pos]. rewrite Rabs_right in E by lra. lra.
Qed.

Definition ortho (e0 e1 e2 e3 : vec) : Prop :=
  inner G e0 e0 = -1 /\ inner G e1 e1 = 1 /\ inner G e2 e2 = 1 /\ inner G e3 e3 = 1 /\
  inner G e1 e0 = 0 /\ inner G e2 e0 = 0 /\ inner G e2 e1 = 0 /\ inner G e3 e0 = 0 /\ inner G e3 e1 = 0 /\ inner G e3 e2 = 0.

Lemma gs_ortho v0 v1 v2 v3 e0 e1 e2 e3 : inner G v0 v0 < 0 ->
  gram_schmidt G v0 v1 v2 v3 = Some (e0, e1, e2, e3) -> ortho e0 e1 e2 e3.
Proof.
  intros T. unfold gram_schmidt.
  destruct (normalize G v0) as [f0|] eqn:N0; [|discriminate].
  destruct (project_out G v1 f0) as [a1|] eqn:P1; [|discriminate].
  destruct (normalize G a1) as [f1|] eqn:N1; [|discriminate].
  destruct (project_out G v2 f0) as [a2|] eqn:P2; [|discriminate].
  destruct (project_out G a2 f1) as [b2|] eqn:P2'; [|discriminate].
  destruct (normalize G b2) as [f2|] eqn:N2; [|discriminate].
  destruct (project_out G v3 f0) as [a3|] eqn:P3; [|discriminate].
  destruct (project_out G a3 f1) as [b3|] eqn:P3'; [|discriminate].
  destruct (project_out G b3 f2) as [c3|] eqn:P3''; [|discriminate].
  destruct (normalize G c3) as [f3|] eqn:N3; [|discriminate].
  intros E. injection E as -> -> -> ->.
  assert (U : inner G e0 e0 = -1) by (apply (normalize_time G v0); assumption).
  assert (Q1 : inner G a1 e0 = 0) by (eapply project_perp; eassumption).
  assert (E1 : inner G e1 e1 = 1) by (apply (unit_step e0 a1); [exact U|rewrite inner_sym by exact SY; exact Q1|exact N1]).
  assert (E10 : inner G e1 e0 = 0) by (apply (normalize_perp G a1); assumption).
  assert (Q2 : inner G a2 e0 = 0) by (eapply project_perp; eassumption).
  assert (Q20 : inner G b2 e0 = 0) by (eapply project_keep; eassumption).
  assert (Q21 : inner G b2 e1 = 0) by (eapply project_perp; eassumption).
  assert (E2 : inner G e2 e2 = 1) by (apply (unit_step e0 b2); [exact U|rewrite inner_sym by exact SY; exact Q20|exact N2]).
  assert (E20 : inner G e2 e0 = 0) by (apply (normalize_perp G b2); assumption).
  assert (E21 : inner G e2 e1 = 0) by (apply (normalize_perp G b2); assumption).
  assert (Q3 : inner G a3 e0 = 0) by (eapply project_perp; eassumption).
  assert (Q30 : inner G b3 e0 = 0) by (eapply project_keep; eassumption).
  assert (Q31 : inner G b3 e1 = 0) by (eapply project_perp; eassumption).
  assert (R30 : inner G c3 e0 = 0) by (eapply project_keep; eassumption).
  assert (R31 : inner G c3 e1 = 0) by (eapply project_keep; eassumption).
  assert (R32 : inner G c3 e2 = 0) by (eapply project_perp; eassumption).
  assert (E3 : inner G e3 e3 = 1) by (apply (unit_step e0 c3); [exact U|rewrite inner_sym by exact SY; exact R30|exact N3]).
  repeat split; try assumption; apply (normalize_perp G c3); assumption.
Qed.

(** Linear combinations *)
Lemma proj_def a b : inner G b b <> 0 -> exists c t, project_out G a b = Some c /\ (forall mu, c mu = a mu - t * b mu).
Proof.
  intros N. destruct (project_out G a b) as [c|] eqn:P.
  - destruct (project_some _ _ _ _ P) as (t & E & _). eauto.
  - exfalso. unfold project_out in P. rewrite dot2_inner in P. destruct (Reqb_spec (inner G b b) 0); [contradiction|discriminate].
Qed.
Lemma gs_defined v0 v1 v2 v3 : inner G v0 v0 < 0 -> independent v0 v1 v2 v3 -> gram_schmidt G v0 v1 v2 v3 <> None.
Proof.
  intros T I. unfold gram_schmidt.
  assert (D0 : exists e, normalize G v0 = Some e).
  { unfold normalize. rewrite dot2_inner. destruct (Reqb_spec (sqrt (Rabs (inner G v0 v0))) 0) as [E|]; [|eauto].
    exfalso. apply sqrt_eq_0 in E; [|apply Rabs_pos]. rewrite Rabs_left in E by lra. lra. }
  destruct D0 as (e0 & N0). rewrite N0.
  assert (U : inner G e0 e0 = -1) by (apply (normalize_time G v0); assumption).
  destruct (normalize_some _ _ _ N0) as (n0 & Hn0 & L0 & _).
  destruct (proj_def v1 e0) as (a1 & t1 & P1 & L1); [lra|]. rewrite P1.
  assert (Q1 : inner G a1 e0 = 0) by (eapply project_perp; eassumption).
  destruct (step_defined e0 a1) as (e1 & N1); [exact U|rewrite inner_sym by exact SY; exact Q1| |].
  { intros Z. destruct (I (- t1 / n0) 1 0 0) as (_ & X & _); [|lra].
    intros i Hi. specialize (Z i Hi). rewrite L1, L0 in Z. etransitivity; [|exact Z]. field. lra. }
  rewrite N1.
  assert (E1 : inner G e1 e1 = 1) by (apply (unit_step e0 a1); [exact U|rewrite inner_sym by exact SY; exact Q1|exact N1]).
  destruct (normalize_some _ _ _ N1) as (n1 & Hn1 & M1 & _).
  assert (E10 : inner G e1 e0 = 0) by (apply (normalize_perp G a1); assumption).
  destruct (proj_def v2 e0) as (a2 & t2 & P2 & L2); [lra|]. rewrite P2.
  destruct (proj_def a2 e1) as (b2 & s2 & P2' & L2'); [lra|]. rewrite P2'.
  assert (Q2 : inner G a2 e0 = 0) by (eapply project_perp; eassumption).
  assert (Q20 : inner G b2 e0 = 0) by (eapply project_keep; eassumption).
  assert (Q21 : inner G b2 e1 = 0) by (eapply project_perp; eassumption).
  destruct (step_defined e0 b2) as (e2 & N2); [exact U|rewrite inner_sym by exact SY; exact Q20| |].
  { intros Z. destruct (I (- t2 / n0 + s2 * t1 / (n1 * n0)) (- s2 / n1) 1 0) as (_ & _ & X & _); [|lra].
    intros i Hi. specialize (Z i Hi). rewrite L2', L2, M1, L1, L0 in Z. etransitivity; [|exact Z]. field. lra. }
  rewrite N2.
  assert (E2 : inner G e2 e2 = 1) by (apply (unit_step e0 b2); [exact U|rewrite inner_sym by exact SY; exact Q20|exact N2]).
  destruct (normalize_some _ _ _ N2) as (n2 & Hn2 & M2 & _).
  assert (E20 : inner G e2 e0 = 0) by (apply (normalize_perp G b2); assumption).
  destruct (proj_def v3 e0) as (a3 & t3 & P3 & L3); [lra|]. rewrite P3.
  destruct (proj_def a3 e1) as (b3 & s3 & P3' & L3'); [lra|]. rewrite P3'.
  destruct (proj_def b3 e2) as (c3 & r3 & P3'' & L3''); [lra|]. rewrite P3''.
  assert (Q3 : inner G a3 e0 = 0) by (eapply project_perp; eassumption).
  assert (Q30 : inner G b3 e0 = 0) by (eapply project_keep; eassumption).
  assert (R30 : inner G c3 e0 = 0) by (eapply project_keep; eassumption).
  destruct (step_defined e0 c3) as (e3 & N3); [exact U|rewrite inner_sym by exact SY; exact R30| |].
  { intros Z.
    destruct (I (- t3 / n0 + s3 * t1 / (n1 * n0) - r3 / n2 * (- t2 / n0 + s2 * t1 / (n1 * n0)))
                (- s3 / n1 + r3 * s2 / (n2 * n1)) (- r3 / n2) 1) as (_ & _ & _ & X); [|lra].
    intros i Hi. specialize (Z i Hi). rewrite L3'', L3', L3, M2, L2', L2, M1, L1, L0 in Z. etransitivity; [|exact Z]. field. lra. }
  rewrite N3. discriminate.
Qed.
(** A relation with non-zero last coefficient makes the construction fail. *)
Lemma gs_fails v0 v1 v2 v3 a b c : inner G v0 v0 < 0 -> (forall i, (i < 4)%nat -> v3 i = a * v0 i + b * v1 i + c * v2 i) ->
  gram_schmidt G v0 v1 v2 v3 = None.
Proof.
  intros T D. destruct (gram_schmidt G v0 v1 v2 v3) as [[[[e0 e1] e2] e3]|] eqn:H; [|reflexivity]. exfalso.
  pose proof (gs_ortho _ _ _ _ _ _ _ _ T H) as (_ & _ & _ & E33 & _ & _ & _ & E30 & E31 & E32).
  unfold gram_schmidt in H.
  destruct (normalize G v0) as [f0|] eqn:N0; [|discriminate].
  destruct (project_out G v1 f0) as [a1|] eqn:P1; [|discriminate].
  destruct (normalize G a1) as [f1|] eqn:N1; [|discriminate].
  destruct (project_out G v2 f0) as [a2|] eqn:P2; [|discriminate].
  destruct (project_out G a2 f1) as [b2|] eqn:P2'; [|discriminate].
  destruct (normalize G b2) as [f2|] eqn:N2; [|discriminate].
  destruct (project_out G v3 f0) as [a3|] eqn:P3; [|discriminate].
  destruct (project_out G a3 f1) as [b3|] eqn:P3'; [|discriminate].
  destruct (project_out G b3 f2) as [c3|] eqn:P3''; [|discriminate].
  destruct (normalize G c3) as [f3|] eqn:N3; [|discriminate].
  injection H as -> -> -> ->.
  destruct (normalize_some _ _ _ N0) as (n0 & Hn0 & L0 & _).
  destruct (normalize_some _ _ _ N1) as (n1 & Hn1 & M1 & _).
  destruct (normalize_some _ _ _ N2) as (n2 & Hn2 & M2 & _).
  destruct (normalize_some _ _ _ N3) as (n3 & Hn3 & M3 & _).
  destruct (project_some _ _ _ _ P1) as (t1 & L1 & _).
  destruct (project_some _ _ _ _ P2) as (t2 & L2 & _).
  destruct (project_some _ _ _ _ P2') as (s2 & L2' & _).
  destruct (project_some _ _ _ _ P3) as (t3 & L3 & _).
  destruct (project_some _ _ _ _ P3') as (s3 & L3' & _).
  destruct (project_some _ _ _ _ P3'') as (r3 & L3'' & _).
  assert (K : exists x y z, forall i, (i < 4)%nat -> e3 i = x * e0 i + y * e1 i + z * e2 i).
  { exists ((a * n0 + b * t1 + c * t2 - t3) / n3), ((b * n1 + c * s2 - s3) / n3), ((c * n2 - r3) / n3).
    intros i Hi. rewrite M3, L3'', L3', L3, D by exact Hi.
    assert (V0 : v0 i = n0 * e0 i) by (rewrite L0; field; lra).
    assert (V1 : v1 i = n1 * e1 i + t1 * e0 i) by (rewrite M1, L1; field; lra).
    assert (V2 : v2 i = n2 * e2 i + s2 * e1 i + t2 * e0 i) by (rewrite M2, L2', L2; field; lra).
    rewrite V0, V1, V2. field. lra. }
  destruct K as (x & y & z & K).
  assert (Q : inner G e3 e3 = x * inner G e3 e0 + y * inner G e3 e1 + z * inner G e3 e2).
  { unfold inner, sigma4. rewrite !K by lia. ring. }
  rewrite E30, E31, E32, E33 in Q. lra.
Qed.
End TET.

(** The tetrad as matrices *)
Section TET2.
Variables (G : mat) (alpha : R) (beta : vec).
Hypothesis ST : spacetime G alpha beta.
Lemma start_time U trial : fst (fst (fst (start_vectors G U trial))) = U.
Proof.
  unfold start_vectors. destruct (Rltb _ _); [|reflexivity].
  destruct (_ && _); [reflexivity|]. destruct (_ && _); reflexivity.
Qed.
Lemma tetrad_ortho U trial Econ Ecov : inner G U U < 0 -> make_tetrad G U trial = Some (Econ, Ecov) ->
  forall a b, (a < 4)%nat -> (b < 4)%nat -> inner G (Econ a) (Econ b) = eta a b.
Proof.
  intros T. unfold make_tetrad. pose proof (start_time U trial) as SV.
  destruct (start_vectors G U trial) as [[[v0 v1] v2] v3]. cbn [fst] in SV. subst v0.
  destruct (gram_schmidt G U v1 v2 v3) as [[[[e0 e1] e2] e3]|] eqn:H; [|discriminate].
  intros E. injection E as <- _.
  destruct (gs_ortho G alpha beta ST _ _ _ _ _ _ _ _ T H) as (E0 & E1 & E2 & E3 & E10 & E20 & E21 & E30 & E31 & E32).
  pose proof (st_sym G alpha beta ST) as S.
  apply two_cases; unfold eta; cbn [Nat.eqb]; try assumption;
    rewrite inner_sym by exact S; assumption.
Qed.
Lemma tetrad_cov U trial Econ Ecov : make_tetrad G U trial = Some (Econ, Ecov) ->
  forall a mu, Ecov a mu = eta a a * lower (Econ a) G mu.
Proof.
  unfold make_tetrad. destruct (start_vectors G U trial) as [[[v0 v1] v2] v3].
  destruct (gram_schmidt G v0 v1 v2 v3) as [[[[e0 e1] e2] e3]|] eqn:H; [|discriminate].
  intros E. injection E as <- <-. intros a mu. unfold eta. rewrite Nat.eqb_refl. destruct (Nat.eqb_spec a 0); ring.
Qed.
Lemma tetrad_inv U trial Econ Ecov : inner G U U < 0 -> make_tetrad G U trial = Some (Econ, Ecov) ->
  inverse Ecov (fun nu b => Econ b nu).
Proof.
  intros T H a b Ha Hb. transitivity (eta a a * inner G (Econ b) (Econ a)).
  - rewrite inner_lower. unfold sigma4. rewrite !(tetrad_cov U trial Econ Ecov H). ring.
  - rewrite (tetrad_ortho U trial Econ Ecov T H b a Hb Ha). clear T H. revert a b Ha Hb. apply two_cases; unfold eta, delta; cbn [Nat.eqb]; ring.
Qed.
Lemma tetrad_roundtrip U trial Econ Ecov K : inner G U U < 0 -> make_tetrad G U trial = Some (Econ, Ecov) ->
  same4 (coord_to_tetrad Ecov (tetrad_to_coord Econ K)) K /\ same4 (tetrad_to_coord Econ (coord_to_tetrad Ecov K)) K.
Proof.
  intros T H. pose proof (tetrad_inv _ _ _ _ T H) as I. pose proof (inverse_comm _ _ I) as J.
  split; intros i Hi.
  - transitivity (sigma4 (fun b => sigma4 (fun nu => Ecov i nu * Econ b nu) * K b)).
    + unfold coord_to_tetrad, tetrad_to_coord, sum4, sigma4. ring.
    + unfold sigma4 at 1. rewrite !(fun b Hb => I i b Hi Hb) by lia. revert i Hi. apply four_cases; unfold delta; cbn [Nat.eqb]; ring.
  - transitivity (sigma4 (fun b => sigma4 (fun nu => Econ nu i * Ecov nu b) * K b)).
    + unfold coord_to_tetrad, tetrad_to_coord, sum4, sigma4. ring.
    + unfold sigma4 at 1. rewrite !(fun b Hb => J i b Hi Hb) by lia. revert i Hi. apply four_cases; unfold delta; cbn [Nat.eqb]; ring.
Qed.
Lemma tetrad_time U trial Econ Ecov : inner G U U = -1 -> make_tetrad G U trial = Some (Econ, Ecov) -> same4 (Econ 0%nat) U.
Proof.
  intros T. unfold make_tetrad. pose proof (start_time U trial) as SV.
  destruct (start_vectors G U trial) as [[[v0 v1] v2] v3]. cbn [fst] in SV. subst v0. unfold gram_schmidt.
  destruct (normalize G U) as [f0|] eqn:N0; [|discriminate].
  destruct (project_out G v1 f0) as [a1|] eqn:P1; [|discriminate].
  destruct (normalize G a1) as [f1|] eqn:N1; [|discriminate].
  destruct (project_out G v2 f0) as [a2|] eqn:P2; [|discriminate].
  destruct (project_out G a2 f1) as [b2|] eqn:P2'; [|discriminate].
  destruct (normalize G b2) as [f2|] eqn:N2; [|discriminate].
  destruct (project_out G v3 f0) as [a3|] eqn:P3; [|discriminate].
  destruct (project_out G a3 f1) as [b3|] eqn:P3'; [|discriminate].
  destruct (project_out G b3 f2) as [c3|] eqn:P3''; [|discriminate].
  destruct (normalize G c3) as [f3|] eqn:N3; [|discriminate].
  intros E. injection E as <- _. intros i _. destruct (normalize_some _ _ _ N0) as (n & Hn & L & Q).
  rewrite T in Q. replace (Rabs (-1)) with 1 in Q by (rewrite Rabs_left; lra).
  assert (n = 1) by nra. subst n. rewrite L. field.
Qed.
Lemma tetrad_defined U trial : inner G U U < 0 ->
  (let '(v0, v1, v2, v3) := start_vectors G U trial in independent v0 v1 v2 v3) -> exists E, make_tetrad G U trial = Some E.
Proof.
  intros T. unfold make_tetrad. pose proof (start_time U trial) as SV.
  destruct (start_vectors G U trial) as [[[v0 v1] v2] v3]. cbn [fst] in SV. subst v0. intros I.
  pose proof (gs_defined G alpha beta ST U v1 v2 v3 T I) as D.
  destruct (gram_schmidt G U v1 v2 v3) as [[[[e0 e1] e2] e3]|]; [eauto|contradiction].
Qed.
End TET2.

(** A slice whose coordinate axes are oblique: the trial vector is closest to
    axis 1 although it lies in the plane of axes 2 and 3. *)
Definition oblique : mat := fun i j => match i, j with
  | 0%nat, 0%nat => -1 | 1%nat, 1%nat | 2%nat, 2%nat | 3%nat, 3%nat => 1
  | 1%nat, 2%nat | 2%nat, 1%nat | 1%nat, 3%nat | 3%nat, 1%nat => 1 / 2
  | 2%nat, 3%nat | 3%nat, 2%nat => - (2 / 5) | _, _ => 0 end.
Definition no_shift : vec := fun _ => 0.
Lemma oblique_st : spacetime oblique 1 no_shift.
Proof.
  split; [|split; [lra|split; [|split]]].
  - unfold symmetric. apply two_cases; reflexivity.
  - intros p Hp. unfold spatial, oblique.
    set (x := p 1%nat) in *. set (y := p 2%nat) in *. set (z := p 3%nat) in *.
    replace (_ + _ + _) with ((x + y / 2 + z / 2) * (x + y / 2 + z / 2) + 3 / 4 * ((y - 13 / 15 * z) * (y - 13 / 15 * z)) + 14 / 75 * (z * z)) by field.
    assert (Sq : forall w, w <> 0 -> 0 < w * w) by (intros w Hy; destruct (Rtotal_order w 0) as [|[|]]; [nra|contradiction|nra]).
    pose proof (Rle_0_sqr (x + y / 2 + z / 2)) as A. pose proof (Rle_0_sqr (y - 13 / 15 * z)) as B. pose proof (Rle_0_sqr z) as C. unfold Rsqr in *.
    destruct (Req_dec z 0) as [Z|Z]; [|apply Sq in Z; lra].
    destruct (Req_dec y 0) as [Y|Y]; [|assert (D : y - 13 / 15 * z <> 0) by lra; apply Sq in D; lra].
    assert (X : x <> 0) by tauto. assert (D : x + y / 2 + z / 2 <> 0) by lra. apply Sq in D. lra.
  - unfold spatial, oblique, no_shift. ring.
  - intros [|[|[|[|i]]]] Hi; try lia; unfold oblique, no_shift; ring.
Qed.
Definition oblique_trial : vec := fun i => match i with 2%nat | 3%nat => 1 | _ => 0 end.
Lemma oblique_bad : inner oblique (unit_vec 0) (unit_vec 0) = -1 /\ make_tetrad oblique (unit_vec 0) oblique_trial = None /\
  independent (unit_vec 0) (unit_vec 1) (unit_vec 2) oblique_trial.
Proof.
  assert (U : inner oblique (unit_vec 0) (unit_vec 0) = -1).
  { unfold inner, sigma4, unit_vec, oblique. cbn [Nat.eqb]. ring. }
  split; [exact U|]. split.
  - assert (X1 : xness oblique oblique_trial 1 = 1).
    { unfold xness, sum4, oblique, oblique_trial. rewrite Rabs_R1, sqrt_1. rewrite Rabs_right by lra. lra. }
    assert (X2 : xness oblique oblique_trial 2 = 3 / 5).
    { unfold xness, sum4, oblique, oblique_trial. rewrite Rabs_R1, sqrt_1. rewrite Rabs_right by lra. lra. }
    assert (X3 : xness oblique oblique_trial 3 = 3 / 5).
    { unfold xness, sum4, oblique, oblique_trial. rewrite Rabs_R1, sqrt_1. rewrite Rabs_right by lra. lra. }
    assert (SV : start_vectors oblique (unit_vec 0) oblique_trial = (unit_vec 0, oblique_trial, unit_vec 2, unit_vec 3)).
    { unfold start_vectors. rewrite X1, X2, X3.
      rewrite Rltb_true; [|unfold dot2, sum4, oblique, oblique_trial; lra]. rewrite Rltb_true by lra. reflexivity. }
    unfold make_tetrad. rewrite SV.
    rewrite (gs_fails oblique 1 no_shift oblique_st (unit_vec 0) oblique_trial (unit_vec 2) (unit_vec 3) 0 1 (-1)); [reflexivity|lra|].
    apply four_cases; unfold unit_vec, oblique_trial; cbn [Nat.eqb]; ring.
  - intros a b c d H.
    assert (H0 := H 0%nat ltac:(lia)). assert (H1 := H 1%nat ltac:(lia)). assert (H2 := H 2%nat ltac:(lia)). assert (H3 := H 3%nat ltac:(lia)).
    unfold unit_vec, oblique_trial in *. cbn [Nat.eqb] in *. lra.
Qed.
(** Orthogonal axes: the largest overlap is also a component, so the start
    vectors are independent. *)
Lemma start_independent G U trial : symmetric G -> U 0%nat <> 0 ->
  (let '(v0, v1, v2, v3) := start_vectors G U trial in
   (v1 = trial -> trial 1%nat * U 0%nat <> trial 0%nat * U 1%nat) ->
   (v2 = trial -> trial 2%nat * U 0%nat <> trial 0%nat * U 2%nat) ->
   (v3 = trial -> trial 3%nat * U 0%nat <> trial 0%nat * U 3%nat) -> independent v0 v1 v2 v3).
Proof.
  intros S N. 
  assert (D : forall k v, (1 <= k < 4)%nat -> v k * U 0%nat <> v 0%nat * U k -> 
     forall w : nat -> vec, w 0%nat = U -> w k = v -> (forall m, (1 <= m < 4)%nat -> m <> k -> w m = unit_vec m) ->
     independent (w 0%nat) (w 1%nat) (w 2%nat) (w 3%nat)).
  { intros k v Hk NZ w W0 Wk Wm a b c d H.
    assert (H0 := H 0%nat ltac:(lia)). assert (H1 := H 1%nat ltac:(lia)). assert (H2 := H 2%nat ltac:(lia)). assert (H3 := H 3%nat ltac:(lia)).
    rewrite W0 in *.
    destruct k as [|[|[|[|k]]]]; try lia.
    - rewrite Wk, (Wm 2%nat), (Wm 3%nat) in * by lia. unfold unit_vec in *. cbn [Nat.eqb] in *.
      assert (H4 : b * (v 1%nat * U 0%nat - v 0%nat * U 1%nat) = 0).
      { pose proof (f_equal (Rmult (U 0%nat)) H1). pose proof (f_equal (Rmult (U 1%nat)) H0). lra. }
      assert (b = 0) by (apply Rmult_integral in H4; destruct H4; [assumption|exfalso; apply NZ; lra]). subst b.
      assert (a = 0) by (assert (X : a * U 0%nat = 0) by lra; apply Rmult_integral in X; tauto). subst a. lra.
    - rewrite Wk, (Wm 1%nat), (Wm 3%nat) in * by lia. unfold unit_vec in *. cbn [Nat.eqb] in *.
      assert (H4 : c * (v 2%nat * U 0%nat - v 0%nat * U 2%nat) = 0).
      { pose proof (f_equal (Rmult (U 0%nat)) H2). pose proof (f_equal (Rmult (U 2%nat)) H0). lra. }
      assert (c = 0) by (apply Rmult_integral in H4; destruct H4; [assumption|exfalso; apply NZ; lra]). subst c.
      assert (a = 0) by (assert (X : a * U 0%nat = 0) by lra; apply Rmult_integral in X; tauto). subst a. lra.
    - rewrite Wk, (Wm 1%nat), (Wm 2%nat) in * by lia. unfold unit_vec in *. cbn [Nat.eqb] in *.
      assert (H4 : d * (v 3%nat * U 0%nat - v 0%nat * U 3%nat) = 0).
      { pose proof (f_equal (Rmult (U 0%nat)) H3). pose proof (f_equal (Rmult (U 3%nat)) H0). lra. }
      assert (d = 0) by (apply Rmult_integral in H4; destruct H4; [assumption|exfalso; apply NZ; lra]). subst d.
      assert (a = 0) by (assert (X : a * U 0%nat = 0) by lra; apply Rmult_integral in X; tauto). subst a. lra. }
  unfold start_vectors. destruct (Rltb _ _).
  - destruct (_ && _); [|destruct (_ && _)].
    + intros A _ _. apply (D 1%nat trial ltac:(lia) (A eq_refl) (fun m => match m with 0%nat => U | 1%nat => trial | _ => unit_vec m end)); try reflexivity.
      intros [|[|m]] ? ?; [lia|lia|reflexivity].
    + intros _ A _. apply (D 2%nat trial ltac:(lia) (A eq_refl) (fun m => match m with 0%nat => U | 2%nat => trial | _ => unit_vec m end)); try reflexivity.
      intros [|[|[|m]]] ? ?; try lia; reflexivity.
    + intros _ _ A. apply (D 3%nat trial ltac:(lia) (A eq_refl) (fun m => match m with 0%nat => U | 3%nat => trial | _ => unit_vec m end)); try reflexivity.
      intros [|[|[|[|m]]]] ? ?; try lia; reflexivity.
  - intros _ _ _. apply (D 1%nat (unit_vec 1) ltac:(lia)) with (w := fun m => match m with 0%nat => U | _ => unit_vec m end); try reflexivity.
    + unfold unit_vec. cbn [Nat.eqb]. lra.
    + intros [|m] ? ?; [lia|reflexivity].
Qed.
