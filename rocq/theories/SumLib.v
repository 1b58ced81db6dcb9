(** Finite sums over lists with values in a commutative monoid. *)
From Coq Require Import ZArith List Bool Lia Permutation.
Import ListNotations.

Section Sum.
Context {M : Type} (zero : M) (plus : M -> M -> M).
Hypothesis plus_comm : forall a b, plus a b = plus b a.
Hypothesis plus_assoc : forall a b c, plus a (plus b c) = plus (plus a b) c.
Hypothesis plus_zero : forall a, plus zero a = a.

Definition gsum {X} (f : X -> M) (l : list X) : M :=
  fold_right (fun x s => plus (f x) s) zero l.

Lemma plus_zero_r a : plus a zero = a.
Proof. now rewrite plus_comm. Qed.

Lemma gsum_app {X} (f : X -> M) l1 l2 : gsum f (l1 ++ l2) = plus (gsum f l1) (gsum f l2).
Proof. induction l1 as [|x l1 IH]; cbn; [now rewrite plus_zero|]. fold (gsum f (l1 ++ l2)).
  rewrite IH. unfold gsum at 1. now rewrite plus_assoc. Qed.

Lemma gsum_cons {X} (f : X -> M) x l : gsum f (x :: l) = plus (f x) (gsum f l).
Proof. reflexivity. Qed.

Lemma gsum_ext {X} (f g : X -> M) l : (forall x, In x l -> f x = g x) -> gsum f l = gsum g l.
Proof. induction l as [|x l IH]; intros H; [reflexivity|]. rewrite !gsum_cons, IH, H; cbn; auto.
  intros; apply H; cbn; auto. Qed.

Lemma gsum_zero {X} (l : list X) : gsum (fun _ => zero) l = zero.
Proof. induction l as [|x l IH]; [reflexivity|]. rewrite gsum_cons, IH. apply plus_zero. Qed.

Lemma gsum_plus {X} (f g : X -> M) l :
  gsum (fun x => plus (f x) (g x)) l = plus (gsum f l) (gsum g l).
Proof.
  induction l as [|x l IH]; [cbn; now rewrite plus_zero|]. rewrite !gsum_cons, IH.
  rewrite <- !plus_assoc. f_equal. rewrite !plus_assoc. f_equal. apply plus_comm.
Qed.

Lemma gsum_perm {X} (f : X -> M) l1 l2 : Permutation l1 l2 -> gsum f l1 = gsum f l2.
Proof.
  induction 1; trivial.
  - rewrite !gsum_cons. now f_equal.
  - rewrite !gsum_cons, !plus_assoc. f_equal. apply plus_comm.
  - congruence.
Qed.

Lemma gsum_rev {X} (f : X -> M) l : gsum f (rev l) = gsum f l.
Proof. apply gsum_perm, Permutation_sym, Permutation_rev. Qed.

Lemma gsum_map {X Y} (g : X -> Y) (f : Y -> M) l : gsum f (map g l) = gsum (fun x => f (g x)) l.
Proof. induction l as [|x l IH]; [reflexivity|]. cbn [map]. now rewrite !gsum_cons, IH. Qed.

Lemma gsum_flat_map {X Y} (g : X -> list Y) (f : Y -> M) l :
  gsum f (flat_map g l) = gsum (fun x => gsum f (g x)) l.
Proof. induction l as [|x l IH]; [reflexivity|]. cbn [flat_map]. now rewrite gsum_app, gsum_cons, IH. Qed.

Lemma gsum_swap {X Y} (f : X -> Y -> M) l1 l2 :
  gsum (fun x => gsum (f x) l2) l1 = gsum (fun y => gsum (fun x => f x y) l1) l2.
Proof.
  induction l1 as [|x l1 IH]; [cbn; symmetry; apply gsum_zero|].
  rewrite gsum_cons, IH, <- gsum_plus. apply gsum_ext. reflexivity.
Qed.

(** Collapsing a sum with a single non-zero index. *)
Lemma gsum_single {X} (dec : forall x y : X, {x = y} + {x <> y}) (f : X -> M) l a :
  NoDup l -> In a l -> gsum (fun x => if dec x a then f x else zero) l = f a.
Proof.
  induction l as [|x l IH]; intros ND H; [destruct H|].
  apply NoDup_cons_iff in ND as [Hx ND]. rewrite gsum_cons. destruct (dec x a) as [->|Hn].
  - rewrite (gsum_ext _ (fun _ => zero)), gsum_zero, plus_zero_r; trivial.
    intros y Hy. destruct (dec y a) as [->|]; [tauto|trivial].
  - rewrite plus_zero. apply IH; trivial. destruct H; [congruence|trivial].
Qed.

Lemma gsum_none {X} (dec : forall x y : X, {x = y} + {x <> y}) (f : X -> M) l a :
  ~ In a l -> gsum (fun x => if dec x a then f x else zero) l = zero.
Proof.
  intros H. rewrite (gsum_ext _ (fun _ => zero)), gsum_zero; trivial.
  intros y Hy. destruct (dec y a) as [->|]; [tauto|trivial].
Qed.

(** Re-indexing along a partial bijection of a finite set. *)
Lemma gsum_reindex {X} (dec : forall x y : X, {x = y} + {x <> y}) (l : list X)
    (lft rgt : X -> option X) (h : X -> X -> M) :
  NoDup l ->
  (forall x y, In x l -> lft x = Some y -> In y l /\ rgt y = Some x) ->
  (forall x y, In x l -> rgt x = Some y -> In y l /\ lft y = Some x) ->
  gsum (fun c => match lft c with Some b => h b c | None => zero end) l =
  gsum (fun b => match rgt b with Some c => h b c | None => zero end) l.
Proof.
  intros ND HL HR.
  transitivity (gsum (fun c => gsum (fun b =>
      match lft c with Some b' => if dec b b' then h b c else zero | None => zero end) l) l).
  { apply gsum_ext. intros c Hc. destruct (lft c) as [b|] eqn:E.
    - symmetry. apply (gsum_single dec (fun x => h x c)); trivial. now apply HL in E.
    - now rewrite gsum_zero. }
  rewrite gsum_swap. apply gsum_ext. intros b Hb.
  destruct (rgt b) as [c|] eqn:E.
  - destruct (HR _ _ Hb E) as [Hc Ec].
    rewrite <- (gsum_single dec (fun x => h b x) l c ND Hc).
    apply gsum_ext. intros c' Hc'. destruct (dec c' c) as [->|Hn].
    + rewrite Ec. destruct (dec b b); congruence.
    + destruct (lft c') as [b'|] eqn:E'; trivial. destruct (dec b b') as [<-|]; trivial.
      destruct (HL _ _ Hc' E') as [_ G]. congruence.
  - rewrite (gsum_ext _ (fun _ => zero)); [apply gsum_zero|].
    intros c' Hc'. destruct (lft c') as [b'|] eqn:E'; trivial.
    destruct (dec b b') as [<-|]; trivial. destruct (HL _ _ Hc' E') as [_ G]. congruence.
Qed.

(** A total bijection of a finite set. *)
Lemma gsum_bij {X} (dec : forall x y : X, {x = y} + {x <> y}) (l : list X)
    (lft rgt : X -> X) (f : X -> M) :
  NoDup l ->
  (forall x, In x l -> In (lft x) l /\ rgt (lft x) = x) ->
  (forall x, In x l -> In (rgt x) l /\ lft (rgt x) = x) ->
  gsum (fun c => f (lft c)) l = gsum f l.
Proof.
  intros ND HL HR.
  apply (gsum_reindex dec l (fun x => Some (lft x)) (fun x => Some (rgt x)) (fun b _ => f b)); trivial.
  - intros x y Hx [= <-]. destruct (HL x Hx) as [H1 H2]. split; congruence.
  - intros x y Hx [= <-]. destruct (HR x Hx) as [H1 H2]. split; congruence.
Qed.
End Sum.

(** Integer sums, and equality of all sums as permutation. *)
Definition zs {X} (f : X -> Z) (l : list X) : Z := gsum 0%Z Z.add f l.

Lemma perm_of_sums {X} (dec : forall x y : X, {x = y} + {x <> y}) (l1 l2 : list X) :
  (forall f : X -> Z, zs f l1 = zs f l2) -> Permutation l1 l2.
Proof.
  intros H. apply (Permutation_count_occ dec). intros x.
  assert (G : forall l, zs (fun y => if dec y x then 1%Z else 0%Z) l = Z.of_nat (count_occ dec l x)).
  { induction l as [|y l IH]; [reflexivity|]. unfold zs in *. rewrite gsum_cons, IH.
    cbn [count_occ]. destruct (dec y x); lia. }
  specialize (H (fun y => if dec y x then 1%Z else 0%Z)). rewrite !G in H. lia.
Qed.

Ltac zlaws := intros; lia.
