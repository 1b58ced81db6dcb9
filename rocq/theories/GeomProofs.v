From Coq Require Import Reals Bool Lia Lra.
From Verif Require Import RLib FluxModel GeomModel GeomSpec.
Open Scope R_scope.

Lemma four_cases (P : nat -> Prop) : P 0%nat -> P 1%nat -> P 2%nat -> P 3%nat -> forall i, (i < 4)%nat -> P i.
Proof. intros A B C D i H. destruct i as [|[|[|[|i]]]]; trivial; lia. Qed.
Lemma two_cases (P : nat -> nat -> Prop) :
  P 0%nat 0%nat -> P 0%nat 1%nat -> P 0%nat 2%nat -> P 0%nat 3%nat ->
  P 1%nat 0%nat -> P 1%nat 1%nat -> P 1%nat 2%nat -> P 1%nat 3%nat ->
  P 2%nat 0%nat -> P 2%nat 1%nat -> P 2%nat 2%nat -> P 2%nat 3%nat ->
  P 3%nat 0%nat -> P 3%nat 1%nat -> P 3%nat 2%nat -> P 3%nat 3%nat ->
  forall i j, (i < 4)%nat -> (j < 4)%nat -> P i j.
Proof. intros. destruct i as [|[|[|[|i]]]]; try lia; destruct j as [|[|[|[|j]]]]; try lia; assumption. Qed.

(** ** 4x4 inverse *)
Lemma adj_right g : forall i j, (i < 4)%nat -> (j < 4)%nat ->
  sigma4 (fun k => g i k * unflat (adjoint (flat g)) k j) = determinant (flat g) * delta i j.
Proof.
  apply two_cases; unfold sigma4, unflat, adjoint, determinant, MINOR, flat, delta;
  cbn [Nat.mul Nat.add Nat.eqb]; cbn -[Rmult Rplus Rminus Ropp]; ring.
Qed.
Lemma adj_left g : forall i j, (i < 4)%nat -> (j < 4)%nat ->
  sigma4 (fun k => unflat (adjoint (flat g)) i k * g k j) = determinant (flat g) * delta i j.
Proof.
  apply two_cases; unfold sigma4, unflat, adjoint, determinant, MINOR, flat, delta;
  cbn [Nat.mul Nat.add Nat.eqb]; cbn -[Rmult Rplus Rminus Ropp]; ring.
Qed.
Lemma gcon_inverse g : determinant (flat g) <> 0 ->
  inverse g (fst (gcon_func g)) /\ inverse (fst (gcon_func g)) g.
Proof.
  intros H. unfold gcon_func, invert. cbv zeta. cbn [fst]. split; intros i j Hi Hj.
  - pose proof (adj_right g i j Hi Hj) as E. unfold sigma4, unflat in *.
    apply (f_equal (fun x => x * (1 / determinant (flat g)))) in E.
    transitivity (determinant (flat g) * delta i j * (1 / determinant (flat g))); [rewrite <- E; ring|field; exact H].
  - pose proof (adj_left g i j Hi Hj) as E. unfold sigma4, unflat in *.
    apply (f_equal (fun x => x * (1 / determinant (flat g)))) in E.
    transitivity (determinant (flat g) * delta i j * (1 / determinant (flat g))); [rewrite <- E; ring|field; exact H].
Qed.
Lemma det_mul A B : 
  determinant (flat (fun i j => sigma4 (fun k => A i k * B k j))) = determinant (flat A) * determinant (flat B).
Proof.
  unfold determinant, MINOR, flat, sigma4. cbn -[Rmult Rplus Rminus Ropp].
  ring.
Qed.

(** A right inverse is a left inverse. *)
Lemma det_ext A B : (forall i j, (i < 4)%nat -> (j < 4)%nat -> A i j = B i j) -> determinant (flat A) = determinant (flat B).
Proof.
  intros H. unfold determinant, MINOR, flat. cbn [Nat.mul Nat.add Nat.div Nat.modulo Nat.divmod fst snd Nat.sub].
  rewrite !H by lia. reflexivity.
Qed.
Lemma det_delta : determinant (flat delta) = 1.
Proof. unfold determinant, MINOR, flat, delta. cbn -[Rmult Rplus Rminus Ropp]. ring. Qed.
Lemma inverse_comm A B : inverse A B -> inverse B A.
Proof.
  intros H. assert (D : determinant (flat A) * determinant (flat B) = 1).
  { rewrite <- det_mul, <- det_delta. apply det_ext. exact H. }
  assert (N : determinant (flat A) <> 0) by (intros E; rewrite E in D; lra).
  destruct (gcon_inverse A N) as [R L]. set (C := fst (gcon_func A)) in *. clearbody C.
  assert (E : forall i j, (i < 4)%nat -> (j < 4)%nat -> C i j = B i j).
  { intros i j Hi Hj.
    transitivity (sigma4 (fun k => C i k * delta k j)).
    - unfold sigma4. revert j Hj. apply four_cases; unfold delta; cbn [Nat.eqb]; ring.
    - transitivity (sigma4 (fun k => C i k * sigma4 (fun l => A k l * B l j))).
      + unfold sigma4 at 1 2. rewrite !(fun k (Hk : (k < 4)%nat) => H k j Hk Hj) by lia. reflexivity.
      + transitivity (sigma4 (fun l => sigma4 (fun k => C i k * A k l) * B l j)).
        * unfold sigma4. ring.
        * unfold sigma4 at 1. rewrite !(fun k (Hk : (k < 4)%nat) => L i k Hi Hk) by lia.
          revert i Hi. apply four_cases; unfold delta; cbn [Nat.eqb]; ring. }
  intros i j Hi Hj. rewrite <- (L i j Hi Hj). unfold sigma4. rewrite !E by lia. reflexivity.
Qed.

Lemma raise_lower g h u : inverse h g -> same4 (raise (lower u g) h) u.
Proof.
  intros H i Hi.
  transitivity (sigma4 (fun j => sigma4 (fun k => h i k * g k j) * u j)).
  - unfold raise, lower, sigma4. ring.
  - unfold sigma4 at 1. rewrite !(fun k (Hk : (k < 4)%nat) => H i k Hi Hk) by lia.
    revert i Hi. apply four_cases; unfold delta; cbn [Nat.eqb]; ring.
Qed.

(** ** Boyer-Lindquist *)
Lemma sincos th : cos th * cos th = 1 - sin th * sin th.
Proof. pose proof (sin2_cos2 th). unfold Rsqr in *. lra. Qed.
Lemma abs_sqr x : Rabs x * Rabs x = x * x.
Proof. rewrite <- Rabs_mult. apply Rabs_right. pose proof (Rle_0_sqr x). unfold Rsqr in *. lra. Qed.

Lemma bl_inverse a r th : r <> 0 -> r * r - 2 * r + a * a <> 0 -> r * r + a * a * (cos th * cos th) <> 0 ->
  / 10 ^ 20 <= Rabs (sin th) -> inverse (bl_gcov a r th) (bl_gcon a r th).
Proof.
  intros Hr HD Hmu Hs.
  assert (E20 : 0 < / 10 ^ 20) by (apply Rinv_0_lt_compat, pow_lt; lra).
  assert (S0 : sin th <> 0) by (intros E; rewrite E, Rabs_R0 in Hs; lra).
  assert (EQ : Rltb (Rabs (sin th)) (/ 10 ^ 20) = false) by now apply Rltb_false.
  unfold inverse, bl_gcov, bl_gcon. cbv zeta. rewrite EQ. clear EQ Hs E20.
  set (s := sin th) in *. set (c := cos th) in *.
  assert (CC : c * c = 1 - s * s) by apply sincos.
  assert (AA : Rabs s * Rabs s = s * s) by apply abs_sqr.
  replace (a * a * c * c) with (a * a * (c * c)) by ring. rewrite CC in *.
  replace (r * r * Rabs s * Rabs s) with (r * r * (s * s)) by (rewrite <- AA; ring). rewrite AA.
  clear CC AA. clearbody s. clear c.
  assert (M : 1 + a * a * (1 - s * s) / (r * r) <> 0).
  { intros E. apply Hmu. replace (r * r + a * a * (1 - s * s)) with ((1 + a * a * (1 - s * s) / (r * r)) * (r * r)) by (field; auto). rewrite E. ring. }
  assert (D : 1 - 2 / r + a * a / (r * r) <> 0).
  { intros E. apply HD. replace (r * r - 2 * r + a * a) with ((1 - 2 / r + a * a / (r * r)) * (r * r)) by (field; auto). rewrite E. ring. }
  assert (HD' : (r - 2) * r + a * a <> 0) by (replace ((r - 2) * r + a * a) with (r * r - 2 * r + a * a) by ring; exact HD).
  apply two_cases; unfold sigma4, delta; cbn [Nat.eqb]; try ring; field; repeat split; auto.
Qed.

Lemma bl_det a r th : r <> 0 -> r * r - 2 * r + a * a <> 0 -> r * r + a * a * (cos th * cos th) <> 0 ->
  bl_gdet a r th * bl_gdet a r th = - determinant (flat (bl_gcov a r th)).
Proof.
  intros Hr HD Hmu. unfold bl_gdet. rewrite cos_2a.
  unfold determinant, MINOR, flat, bl_gcov. cbn [Nat.mul Nat.add Nat.div Nat.modulo Nat.divmod fst snd Nat.sub]. cbv zeta.
  set (s := sin th) in *. set (c := cos th) in *.
  assert (CC : c * c = 1 - s * s) by apply sincos.
  assert (AA : Rabs s * Rabs s = s * s) by apply abs_sqr.
  replace (a * a * c * c) with (a * a * (c * c)) by ring.
  replace (cos th * cos th) with (c * c) by reflexivity.
  rewrite CC in *.
  replace (r * r * Rabs s * Rabs s) with (r * r * (s * s)) by (rewrite <- AA; ring). rewrite AA.
  match goal with |- ?x * Rabs s * ?y * (?x * Rabs s * ?y) = _ => replace (x * Rabs s * y * (x * Rabs s * y)) with (x * y * x * y * (s * s)) by (rewrite <- AA; ring) end.
  clear CC AA. clearbody s. clear c.
  assert (M : 1 + a * a * (1 - s * s) / (r * r) <> 0).
  { intros E. apply Hmu. replace (r * r + a * a * (1 - s * s)) with ((1 + a * a * (1 - s * s) / (r * r)) * (r * r)) by (field; auto). rewrite E. ring. }
  assert (D : 1 - 2 / r + a * a / (r * r) <> 0).
  { intros E. apply HD. replace (r * r - 2 * r + a * a) with ((1 - 2 / r + a * a / (r * r)) * (r * r)) by (field; auto). rewrite E. ring. }
  assert (HD' : (r - 2) * r + a * a <> 0) by (replace ((r - 2) * r + a * a) with (r * r - 2 * r + a * a) by ring; exact HD).
  field. repeat split; auto.
Qed.
