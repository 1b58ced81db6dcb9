From Coq Require Import Reals Bool ZArith List Lia Lra.
From Verif Require Import RLib XLib IntLib BinModel BinSpec BinProofs LagModel LagSpec.
Import ListNotations.
Open Scope R_scope.

(** ** Sums *)
Lemma sum_to_ext n f g : (forall i, (i < n)%nat -> f i = g i) -> sum_to n f = sum_to n g.
Proof. induction n as [|n IH]; intros H; cbn [sum_to]; [reflexivity|]. rewrite IH by (intros; apply H; lia). rewrite H by lia. reflexivity. Qed.
Lemma sum_to_zero n f : (forall i, (i < n)%nat -> f i = 0) -> sum_to n f = 0.
Proof. induction n as [|n IH]; intros H; cbn [sum_to]; [reflexivity|]. rewrite IH by (intros; apply H; lia). rewrite H by lia. lra. Qed.
Lemma sum_to_one n f k : (k < n)%nat -> (forall i, (i < n)%nat -> i <> k -> f i = 0) -> sum_to n f = f k.
Proof.
  induction n as [|n IH]; intros K H; [lia|]. cbn [sum_to]. destruct (Nat.eq_dec k n) as [E|E].
  - rewrite sum_to_zero by (intros; apply H; lia). subst k. lra.
  - rewrite IH by (auto; try lia; intros; apply H; lia). rewrite (H n) by lia. lra.
Qed.

(** ** Polynomials of degree below n *)
Definition below (n : nat) (f : R -> R) : Prop := exists c, (length c <= n)%nat /\ forall x, f x = poly c x.
Lemma below_le n k f : (n <= k)%nat -> below n f -> below k f.
Proof. intros L (c & A & B). exists c. split; [lia|exact B]. Qed.
Lemma below_ext n f g : (forall x, f x = g x) -> below n f -> below n g.
Proof. intros E (c & A & B). exists c. split; [exact A|]. intros x. rewrite <- E. apply B. Qed.
Lemma below_scale n a f : below n f -> below n (fun x => a * f x).
Proof.
  intros (c & A & B). exists (map (Rmult a) c). rewrite map_length. split; [exact A|]. intros x. rewrite B. clear A B.
  induction c as [|b c IH]; cbn; [ring|]. rewrite <- IH. ring.
Qed.
Fixpoint padd (c d : list R) : list R :=
  match c, d with [], d => d | c, [] => c | a :: c, b :: d => (a + b) :: padd c d end.
Lemma padd_poly c : forall d x, poly (padd c d) x = poly c x + poly d x.
Proof. induction c as [|a c IH]; intros [|b d] x; cbn; try ring. rewrite IH. ring. Qed.
Lemma padd_length c : forall d n, (length c <= n)%nat -> (length d <= n)%nat -> (length (padd c d) <= n)%nat.
Proof. induction c as [|a c IH]; intros [|b d] n A B; cbn in *; try lia. destruct n as [|n]; [lia|]. specialize (IH d n). lia. Qed.
Lemma below_add n f g : below n f -> below n g -> below n (fun x => f x + g x).
Proof.
  intros (c & A & B) (d & C & D). exists (padd c d). split; [now apply padd_length|]. intros x. rewrite padd_poly, B, D. reflexivity.
Qed.
Lemma below_zero n : below n (fun _ => 0).
Proof. exists []. split; [cbn; lia|reflexivity]. Qed.
Lemma below_const n a : below (S n) (fun _ => a).
Proof. exists [a]. split; [cbn; lia|]. intros x. cbn. ring. Qed.
Lemma below_linear n f a : below n f -> below (S n) (fun x => f x * (x - a)).
Proof.
  intros B. apply (below_ext _ (fun x => x * f x + (- a) * f x)); [intros; ring|]. apply below_add.
  - destruct B as (c & A & B). exists (0 :: c). cbn [length]. split; [lia|]. intros x. cbn. rewrite B. ring.
  - apply below_scale, (below_le n); [lia|exact B].
Qed.
Lemma below_sum n k f : (forall i, (i < k)%nat -> below n (f i)) -> below n (fun x => sum_to k (fun i => f i x)).
Proof.
  induction k as [|k IH]; intros H; cbn [sum_to]; [apply below_zero|]. apply below_add; [apply IH; intros; apply H; lia|apply H; lia].
Qed.
(** division by x - a *)
Fixpoint quot (c : list R) (a : R) : list R := match c with [] => [] | _ :: c => poly c a :: quot c a end.
Lemma quot_poly c a x : poly c x - poly c a = (x - a) * poly (quot c a) x.
Proof. induction c as [|b c IH]; cbn; [ring|]. replace (poly c x) with (poly c a + (x - a) * poly (quot c a) x) by lra. ring. Qed.
Lemma quot_length c a : length (quot c a) = length c.
Proof. induction c; cbn; auto. Qed.
Lemma quot_tail b c a : exists d, (length d <= length c)%nat /\ forall x, poly (quot (b :: c) a) x = poly d x.
Proof.
  revert b. induction c as [|b' c IH]; intros b; [exists []; split; [cbn; lia|intros; cbn; ring]|].
  destruct (IH b') as (d & A & B). cbn [quot] in *. exists (poly (b' :: c) a :: d). cbn [length] in *. split; [lia|].
  intros x. specialize (B x). cbn [poly] in *. rewrite B. reflexivity.
Qed.
Lemma roots_zero n : forall f l, below n f -> NoDup l -> length l = n -> (forall a, In a l -> f a = 0) -> forall x, f x = 0.
Proof.
  induction n as [|n IH]; intros f l (c & A & B) N L Z x.
  - destruct c; [|cbn in A; lia]. rewrite B. reflexivity.
  - destruct l as [|a l]; [discriminate|]. inversion N as [|? ? N1 N2]; subst.
    assert (Q : exists d, (length d <= n)%nat /\ forall x, poly c x - poly c a = (x - a) * poly d x).
    { destruct c as [|b c]; [exists []; split; [cbn; lia|intros; cbn; ring]|]. destruct (quot_tail b c a) as (d & D1 & D2).
      exists d. cbn in A. split; [lia|]. intros y. rewrite quot_poly, D2. reflexivity. }
    destruct Q as (d & D1 & D2).
    assert (FA : poly c a = 0) by (rewrite <- B; apply Z; now left).
    assert (D0 : forall y, poly d y = 0).
    { apply (IH (poly d) l); [exists d; auto|exact N2|cbn in L; lia|]. intros y Y.
      assert (y <> a) by (intros ->; contradiction). assert (PY : poly c y = 0) by (rewrite <- B; apply Z; now right).
      specialize (D2 y). rewrite PY, FA in D2. assert ((y - a) * poly d y = 0) by lra. apply Rmult_integral in H0. destruct H0; [lra|assumption]. }
    rewrite B. specialize (D2 x). rewrite FA, D0 in D2. lra.
Qed.

(** ** The basis *)
Definition factor (j : nat) (xv : list R) (x : R) (l : R) (m : nat) : R :=
  if Nat.eqb m j then l else l * ((x - nth m xv 0) / (nth j xv 0 - nth m xv 0)).
Lemma basis_fold j x xv : (2 <= length xv)%nat -> lagrange_basis j x xv = fold_left (factor j xv x) (seq 0 (length xv)) 1.
Proof.
  intros L. unfold lagrange_basis. destruct (Nat.eqb_spec (length xv) 0); [lia|]. destruct (Nat.eqb_spec (length xv) 1); [lia|]. reflexivity.
Qed.
(** value at node i of a product over the nodes of a list *)
Lemma fold_zero j xv x l : forall a, a = 0 -> fold_left (factor j xv x) l a = 0.
Proof. induction l as [|m l IH]; intros a A; cbn [fold_left]; [exact A|]. apply IH. unfold factor. destruct (Nat.eqb m j); subst; lra. Qed.
Lemma fold_hit i j xv l : forall a, In i l -> i <> j -> fold_left (factor j xv (nth i xv 0)) l a = 0.
Proof.
  induction l as [|m l IH]; intros a I N; [destruct I|]. cbn [fold_left]. destruct I as [->|I]; [|now apply IH].
  apply fold_zero. unfold factor. destruct (Nat.eqb_spec i j); [congruence|]. unfold Rdiv. rewrite Rminus_diag_eq by reflexivity. ring.
Qed.
Lemma fold_own j xv l : forall a, (forall m, In m l -> m <> j -> nth m xv 0 <> nth j xv 0) -> fold_left (factor j xv (nth j xv 0)) l a = a.
Proof.
  induction l as [|m l IH]; intros a D; [reflexivity|]. cbn [fold_left]. rewrite IH by (intros; apply D; [now right|assumption]).
  unfold factor. destruct (Nat.eqb_spec m j); [reflexivity|]. pose proof (D m (or_introl eq_refl) n). field. lra.
Qed.
Lemma nodes_distinct xv m j : NoDup xv -> (m < length xv)%nat -> (j < length xv)%nat -> m <> j -> nth m xv 0 <> nth j xv 0.
Proof. intros N A B D E. apply D. exact (proj1 (NoDup_nth xv 0) N m j A B E). Qed.
Lemma one_node (xv : list R) : length xv = 1%nat -> exists a, xv = [a].
Proof. destruct xv as [|a [|]]; intros H; try discriminate. eauto. Qed.
Lemma basis_node xv i j : NoDup xv -> (i < length xv)%nat -> (j < length xv)%nat ->
  lagrange_basis j (nth i xv 0) xv = if Nat.eqb i j then 1 else 0.
Proof.
  intros N I J. destruct (Nat.eq_dec (length xv) 1) as [L|L].
  - assert (i = 0 /\ j = 0)%nat as [-> ->] by lia. unfold lagrange_basis. rewrite L. reflexivity.
  - rewrite basis_fold by lia. destruct (Nat.eqb_spec i j) as [E|E].
    + subst i. apply fold_own. intros m M D. apply nodes_distinct; auto. apply in_seq in M. lia.
    + apply fold_hit; [apply in_seq; lia|exact E].
Qed.
Lemma fold_below j xv l : forall n g, below n g -> NoDup l ->
  below (n + length l - (if in_dec Nat.eq_dec j l then 1 else 0)) (fun x => fold_left (factor j xv x) l (g x)).
Proof.
  induction l as [|m l IH]; intros n g B N; cbn [fold_left length].
  - apply (below_le n); [|exact B]. destruct (in_dec Nat.eq_dec j []) as [H|H]; [destruct H|lia].
  - inversion N as [|? ? N1 N2]; subst. destruct (Nat.eq_dec m j) as [E|E].
    + subst m. specialize (IH n g B N2). destruct (in_dec Nat.eq_dec j l) as [H|H]; [contradiction|].
      destruct (in_dec Nat.eq_dec j (j :: l)) as [K|K]; [|exfalso; apply K; now left].
      apply (below_le (n + length l - 0)); [lia|]. eapply below_ext; [|exact IH]. intros x. cbv beta. unfold factor at 3. rewrite Nat.eqb_refl. reflexivity.
    + assert (BL : below (S n) (fun x => factor j xv x (g x) m)).
      { eapply below_ext; [|apply (below_linear _ (fun x => / (nth j xv 0 - nth m xv 0) * g x) (nth m xv 0)), below_scale, B].
        intros x. cbv beta. unfold factor. destruct (Nat.eqb_spec m j); [contradiction|]. unfold Rdiv. ring. }
      specialize (IH (S n) _ BL N2). eapply below_le; [|exact IH].
      destruct (in_dec Nat.eq_dec j l) as [H|H], (in_dec Nat.eq_dec j (m :: l)) as [K|K]; try lia.
      exfalso. destruct K as [K|K]; [congruence|contradiction].
Qed.
Lemma basis_below xv j : (j < length xv)%nat -> below (length xv) (fun x => lagrange_basis j x xv).
Proof.
  intros J. destruct (Nat.eq_dec (length xv) 1) as [L|L].
  - rewrite L. eapply below_ext; [|apply (below_const 0 1)]. intros x. unfold lagrange_basis. rewrite L. reflexivity.
  - pose proof (fold_below j xv (seq 0 (length xv)) 1 (fun _ => 1) (below_const 0 1) (seq_NoDup _ _)) as B.
    rewrite seq_length in B. destruct (in_dec Nat.eq_dec j (seq 0 (length xv))) as [H|H]; [|exfalso; apply H, in_seq; lia].
    eapply below_le; [|eapply below_ext; [|exact B]]; [lia|]. intros x. cbv beta. rewrite basis_fold by lia. reflexivity.
Qed.
Lemma exact_on c xv x : NoDup xv -> xv <> [] -> (length c <= length xv)%nat ->
  sum_to (length xv) (fun j => poly c (nth j xv 0) * lagrange_basis j x xv) = poly c x.
Proof.
  intros N E L.
  assert (Z : sum_to (length xv) (fun j => poly c (nth j xv 0) * lagrange_basis j x xv) + -1 * poly c x = 0); [|lra].
  apply (roots_zero (length xv) (fun x => sum_to (length xv) (fun j => poly c (nth j xv 0) * lagrange_basis j x xv) + -1 * poly c x) xv); auto.
  - apply below_add.
    + apply below_sum. intros i I. apply below_scale, basis_below, I.
    + apply below_scale. exists c. auto.
  - intros a A. apply (In_nth _ _ 0) in A as (i & I & <-). rewrite (sum_to_one _ _ i I).
    + rewrite basis_node, Nat.eqb_refl by auto. ring.
    + intros j J D. rewrite basis_node by auto. destruct (Nat.eqb_spec i j); [congruence|ring].
Qed.
Lemma partition xv x : NoDup xv -> xv <> [] -> sum_to (length xv) (fun j => lagrange_basis j x xv) = 1.
Proof.
  intros N E. pose proof (exact_on [1] xv x N E) as H. cbn [length poly] in H.
  rewrite Rmult_0_r, Rplus_0_r in H. rewrite <- H by (destruct xv; [congruence|cbn; lia]).
  apply sum_to_ext. intros. ring.
Qed.

(** ** The grid *)
Lemma nearby_length m dir i0 : length (get_nearby_coords m dir i0) = 3%nat.
Proof. reflexivity. Qed.
Lemma nearby_nth m dir i0 i : (i < 3)%nat -> nth i (get_nearby_coords m dir i0) 0 = coord m CENT (fun _ => (i0 - LA_STRIDE + Z.of_nat i)%Z) dir.
Proof. intros H. destruct i as [|[|[|]]]; try lia; reflexivity. Qed.
Lemma coord_diff m dir a b : coord m CENT (fun _ => b) dir - coord m CENT (fun _ => a) dir = IZR (b - a) * dx m dir.
Proof.
  unfold coord, coord1. destruct (centred CENT dir) eqn:E.
  - rewrite !plus_IZR, minus_IZR. ring.
  - destruct dir as [|[|[|[|]]]]; discriminate.
Qed.
Lemma nearby_NoDup m dir i0 : dx m dir <> 0 -> NoDup (get_nearby_coords m dir i0).
Proof.
  intros D. apply (NoDup_nth _ 0). rewrite nearby_length. intros i j I J E. rewrite !nearby_nth in E by assumption.
  assert (Q : IZR ((i0 - LA_STRIDE + Z.of_nat j) - (i0 - LA_STRIDE + Z.of_nat i)) * dx m dir = 0) by (rewrite <- coord_diff; lra).
  apply Rmult_integral in Q. destruct Q as [Q|Q]; [|contradiction]. apply eq_IZR_R0 in Q. lia.
Qed.
Lemma quadratic m dir i0 x (g : R -> R) c : dx m dir <> 0 -> (length c <= 3)%nat -> (forall y, g y = poly c y) ->
  sum_to 3 (fun i => g (coord m CENT (fun _ => (i0 - LA_STRIDE + Z.of_nat i)%Z) dir) * lagrange_basis i x (get_nearby_coords m dir i0)) = g x.
Proof.
  intros D L G. rewrite G. rewrite <- (exact_on c (get_nearby_coords m dir i0) x); [|apply nearby_NoDup, D|discriminate|exact L].
  rewrite nearby_length. apply sum_to_ext. intros i I. rewrite nearby_nth, G by exact I. reflexivity.
Qed.
(** the triple loop as a sum *)
Lemma fold3 (a : option R) (f : nat -> R) (s : option R -> nat -> option R) :
  (forall x i, (i < 3)%nat -> s (Some x) i = Some (x + f i)) ->
  forall x, a = Some x -> fold_left s (seq 0 LA_NP) a = Some (x + sum_to 3 f).
Proof. intros H x ->. cbn [seq LA_NP fold_left sum_to]. rewrite !H by lia. f_equal. ring. Qed.
Lemma triquad_as c x y z : triquad c x y z = sum_to 3 (fun a => (sum_to 3 (fun b => (sum_to 3 (fun d => c a b d * z ^ d)) * y ^ b)) * x ^ a).
Proof. unfold triquad. cbn [sum_to]. ring. Qed.
Lemma offset_idx n2 n3 size i j k ip : (ip + size * (k + n3 * (j + n2 * i)))%Z = offset n2 n3 size i j k ip.
Proof. unfold offset. ring. Qed.

Section Grid.
Variables (m : grid) (N1 N2 N3 size : Z) (v : list R) (c : nat -> nat -> nat -> R) (ip : Z).
(** in the zones of the stencil the array holds the values of the polynomial at the centres *)
Variables (i0 j0 k0 : Z).
Hypothesis dx0 : forall dir, dx m dir <> 0.
Hypothesis data : forall i j k, (i0 - 1 <= i <= i0 + 1 -> j0 - 1 <= j <= j0 + 1 -> k0 - 1 <= k <= k0 + 1 ->
  rd v (offset (N2 + 2 * NG) (N3 + 2 * NG) size i j k ip) =
  Some (triquad c (coord m CENT (fun _ => i) 1%nat) (coord m CENT (fun _ => j) 2%nat) (coord m CENT (fun _ => k) 3%nat)))%Z.
Lemma grid_exact X : Xtoijk m (fun n => Fin (X n)) 1 = Some i0 -> Xtoijk m (fun n => Fin (X n)) 2 = Some j0 -> Xtoijk m (fun n => Fin (X n)) 3 = Some k0 ->
  lagrange_interp_grid_3d m N2 N3 size v X ip = Some (triquad c (X 1%nat) (X 2%nat) (X 3%nat)).
Proof using dx0 data.
  intros E1 E2 E3. unfold lagrange_interp_grid_3d. cbv zeta. rewrite E1, E2, E3.
  set (x i := coord m CENT (fun _ => (i0 - LA_STRIDE + Z.of_nat i)%Z) 1%nat).
  set (y i := coord m CENT (fun _ => (j0 - LA_STRIDE + Z.of_nat i)%Z) 2%nat).
  set (z i := coord m CENT (fun _ => (k0 - LA_STRIDE + Z.of_nat i)%Z) 3%nat).
  set (lx i := lagrange_basis i (X 1%nat) (get_nearby_coords m 1 i0)).
  set (ly i := lagrange_basis i (X 2%nat) (get_nearby_coords m 2 j0)).
  set (lz i := lagrange_basis i (X 3%nat) (get_nearby_coords m 3 k0)).
  etransitivity.
  { apply (fold3 _ (fun i => sum_to 3 (fun j => sum_to 3 (fun k => triquad c (x i) (y j) (z k) * lx i * ly j * lz k)))) with (x := 0); [|reflexivity].
    intros a i I. apply fold3 with (f := fun j => sum_to 3 (fun k => triquad c (x i) (y j) (z k) * lx i * ly j * lz k)); [|reflexivity]. clear a. intros a j J.
    apply fold3 with (f := fun k => triquad c (x i) (y j) (z k) * lx i * ly j * lz k); [|reflexivity]. clear a. intros a k K.
    rewrite offset_idx, data; [reflexivity|unfold LA_STRIDE; lia..]. }
  f_equal. rewrite Rplus_0_l.
  assert (Qz : forall x y, sum_to 3 (fun k => triquad c x y (z k) * lz k) = triquad c x y (X 3%nat)).
  { intros a b. apply (quadratic m 3 k0 (X 3%nat) (triquad c a b)
      [sum_to 3 (fun p => sum_to 3 (fun q => c p q 0%nat * a ^ p * b ^ q)); sum_to 3 (fun p => sum_to 3 (fun q => c p q 1%nat * a ^ p * b ^ q)); sum_to 3 (fun p => sum_to 3 (fun q => c p q 2%nat * a ^ p * b ^ q))]); [apply dx0|cbn; lia|].
    intros w. unfold triquad. cbn [sum_to poly]. ring. }
  assert (Qy : forall x z, sum_to 3 (fun j => triquad c x (y j) z * ly j) = triquad c x (X 2%nat) z).
  { intros a b. apply (quadratic m 2 j0 (X 2%nat) (fun y => triquad c a y b)
      [sum_to 3 (fun p => sum_to 3 (fun q => c p 0%nat q * a ^ p * b ^ q)); sum_to 3 (fun p => sum_to 3 (fun q => c p 1%nat q * a ^ p * b ^ q)); sum_to 3 (fun p => sum_to 3 (fun q => c p 2%nat q * a ^ p * b ^ q))]); [apply dx0|cbn; lia|].
    intros w. unfold triquad. cbn [sum_to poly]. ring. }
  assert (Qx : forall y z, sum_to 3 (fun i => triquad c (x i) y z * lx i) = triquad c (X 1%nat) y z).
  { intros a b. apply (quadratic m 1 i0 (X 1%nat) (fun x => triquad c x a b)
      [sum_to 3 (fun p => sum_to 3 (fun q => c 0%nat p q * a ^ p * b ^ q)); sum_to 3 (fun p => sum_to 3 (fun q => c 1%nat p q * a ^ p * b ^ q)); sum_to 3 (fun p => sum_to 3 (fun q => c 2%nat p q * a ^ p * b ^ q))]); [apply dx0|cbn; lia|].
    intros w. unfold triquad. cbn [sum_to poly]. ring. }
  clearbody x y z lx ly lz.
  rewrite <- (Qx (X 2%nat) (X 3%nat)). apply sum_to_ext. intros i _.
  rewrite <- (Qy (x i) (X 3%nat)).
  transitivity (lx i * sum_to 3 (fun j => ly j * sum_to 3 (fun k => triquad c (x i) (y j) (z k) * lz k))); [cbn [sum_to]; ring|].
  rewrite (Rmult_comm (sum_to 3 _) (lx i)). f_equal. apply sum_to_ext. intros j _. rewrite Qz. ring.
Qed.
End Grid.

(** ** Bounds *)
Lemma offset_in n1 n2 n3 size i j k ip : (0 <= i < n1 -> 0 <= j < n2 -> 0 <= k < n3 -> 0 <= ip < size ->
  0 <= offset n2 n3 size i j k ip < n1 * n2 * n3 * size)%Z.
Proof.
  intros I J K P. unfold offset.
  assert (A : (0 <= i * n2 + j < n1 * n2)%Z) by nia.
  assert (B : (0 <= (i * n2 + j) * n3 + k < n1 * n2 * n3)%Z) by nia. nia.
Qed.
Lemma fold_ok (s : option R -> nat -> option R) l a : (forall x i, In i l -> exists y, s (Some x) i = Some y) -> (exists x, a = Some x) ->
  exists y, fold_left s l a = Some y.
Proof.
  revert a. induction l as [|i l IH]; intros a H [x ->]; cbn [fold_left]; [eauto|].
  apply IH; [intros; apply H; now right|]. apply H. now left.
Qed.
Lemma fold_none {B} (s : option R -> B -> option R) l : (forall i, s None i = None) -> fold_left s l None = None.
Proof. intros H. induction l as [|i l IH]; [reflexivity|]. cbn [fold_left]. now rewrite H. Qed.

Lemma grid_defined m N1 N2 N3 size v X ip i0 j0 k0 :
  Xtoijk m (fun n => Fin (X n)) 1 = Some i0 -> Xtoijk m (fun n => Fin (X n)) 2 = Some j0 -> Xtoijk m (fun n => Fin (X n)) 3 = Some k0 ->
  Z.of_nat (length v) = ((N1 + 2 * NG) * (N2 + 2 * NG) * (N3 + 2 * NG) * size)%Z -> (0 <= ip < size)%Z ->
  (1 <= i0 <= N1 + 2 * NG - 2)%Z -> (1 <= j0 <= N2 + 2 * NG - 2)%Z -> (1 <= k0 <= N3 + 2 * NG - 2)%Z ->
  exists f, lagrange_interp_grid_3d m N2 N3 size v X ip = Some f.
Proof.
  intros E1 E2 E3 L P I J K. unfold lagrange_interp_grid_3d. cbv zeta. rewrite E1, E2, E3.
  apply fold_ok; [|eauto]. intros a i Hi. apply fold_ok; [|eauto]. clear a. intros a j Hj. apply fold_ok; [|eauto]. clear a. intros a k Hk.
  apply in_seq in Hi. apply in_seq in Hj. apply in_seq in Hk. unfold LA_NP, LA_STRIDE in *. rewrite offset_idx.
  destruct (rd_some v (offset (N2 + 2 * NG) (N3 + 2 * NG) size (i0 - 1 + Z.of_nat i) (j0 - 1 + Z.of_nat j) (k0 - 1 + Z.of_nat k) ip)) as [w W].
  { rewrite L. apply offset_in; lia. }
  rewrite W. eauto.
Qed.
Lemma zone_of m (X : nat -> R) dir (lo hi : Z) : 0 < dx m dir -> (0 <= lo)%Z -> (hi < 2147483647)%Z ->
  coord m CORN (fun _ => lo) dir <= X dir < coord m CORN (fun _ => (hi + 1)%Z) dir ->
  exists i, Xtoijk m (fun n => Fin (X n)) dir = Some i /\ (lo <= i <= hi)%Z.
Proof.
  intros D L H B. unfold coord in B. cbn [centred] in B. unfold coord1 in B.
  set (q := (X dir - start m dir) / dx m dir + IZR NG - IZR (gs m dir)).
  assert (Q : X dir = start m dir + (q - IZR NG + IZR (gs m dir)) * dx m dir) by (unfold q; field; lra).
  assert (BL : IZR lo <= q).
  { apply Rnot_lt_le. intros C. assert (C' : (q - IZR NG + IZR (gs m dir)) * dx m dir < IZR (lo + gs m dir - NG) * dx m dir); [|lra].
    apply Rmult_lt_compat_r; [exact D|]. rewrite minus_IZR, plus_IZR. lra. }
  assert (BH : q < IZR (hi + 1)).
  { apply Rnot_le_lt. intros C. assert (C' : IZR (hi + 1 + gs m dir - NG) * dx m dir <= (q - IZR NG + IZR (gs m dir)) * dx m dir); [|lra].
    apply Rmult_le_compat_r; [lra|]. rewrite minus_IZR, plus_IZR. lra. }
  exists (Int_part q). destruct (Int_part_bounds q) as [F1 F2].
  assert (lo <= Int_part q <= hi)%Z.
  { split; apply Z.lt_succ_r, lt_IZR; [rewrite succ_IZR; lra|]. rewrite succ_IZR. rewrite plus_IZR in BH. lra. }
  split; [|assumption].
  apply (position m (X dir) (fun _ => Int_part q) dir D); [lia|].
  unfold coord. cbn [centred]. unfold coord1. rewrite !minus_IZR, !plus_IZR, Q. split.
  - apply Rplus_le_compat_l, Rmult_le_compat_r; lra.
  - apply Rplus_lt_compat_l, Rmult_lt_compat_r; lra.
Qed.
Lemma grid_inside m N1 N2 N3 size v X ip : (forall dir, 0 < dx m dir) ->
  (forall n, In n [N1; N2; N3] -> 0 < n /\ n + 2 * NG < 2147483647)%Z ->
  Z.of_nat (length v) = ((N1 + 2 * NG) * (N2 + 2 * NG) * (N3 + 2 * NG) * size)%Z -> (0 <= ip < size)%Z ->
  (forall dir n, In (dir, n) [(1%nat, N1); (2%nat, N2); (3%nat, N3)] ->
    coord m CORN (fun _ => 1%Z) dir <= X dir < coord m CORN (fun _ => (n + 2 * NG - 1)%Z) dir) ->
  exists f, lagrange_interp_grid_3d m N2 N3 size v X ip = Some f.
Proof.
  intros D N L P B.
  assert (Q : forall dir n, In (dir, n) [(1%nat, N1); (2%nat, N2); (3%nat, N3)] -> (0 < n /\ n + 2 * NG < 2147483647)%Z ->
    exists i, Xtoijk m (fun n => Fin (X n)) dir = Some i /\ (1 <= i <= n + 2 * NG - 2)%Z).
  { intros dir n H [n0 n1]. apply zone_of; [apply D|lia|lia|].
    specialize (B dir n H). replace (n + 2 * NG - 2 + 1)%Z with (n + 2 * NG - 1)%Z by lia. exact B. }
  destruct (Q 1%nat N1) as (i0 & E1 & B1); [cbn; tauto|apply N; cbn; tauto|].
  destruct (Q 2%nat N2) as (j0 & E2 & B2); [cbn; tauto|apply N; cbn; tauto|].
  destruct (Q 3%nat N3) as (k0 & E3 & B3); [cbn; tauto|apply N; cbn; tauto|].
  eapply grid_defined; eassumption.
Qed.
(** in the outermost ghost zone of the first direction the stencil leaves the array *)
Lemma grid_outer m N2 N3 size v X ip j0 k0 :
  Xtoijk m (fun n => Fin (X n)) 1 = Some 0%Z -> Xtoijk m (fun n => Fin (X n)) 2 = Some j0 -> Xtoijk m (fun n => Fin (X n)) 3 = Some k0 ->
  (0 <= ip < size)%Z -> (1 <= j0 <= N2 + 2 * NG - 2)%Z -> (1 <= k0 <= N3 + 2 * NG - 2)%Z ->
  lagrange_interp_grid_3d m N2 N3 size v X ip = None.
Proof.
  intros E1 E2 E3 P J K. unfold lagrange_interp_grid_3d. cbv zeta. rewrite E1, E2, E3. unfold LA_NP, LA_STRIDE. cbn [seq]. 
  set (sj := (N2 + 2 * NG)%Z) in *. set (sk := (N3 + 2 * NG)%Z) in *.
  assert (Q : rd v (ip + size * (k0 - 1 + Z.of_nat 0 + sk * (j0 - 1 + Z.of_nat 0 + sj * (0 - 1 + Z.of_nat 0))))%Z = None).
  { unfold rd. destruct (Z.ltb_spec (ip + size * (k0 - 1 + Z.of_nat 0 + sk * (j0 - 1 + Z.of_nat 0 + sj * (0 - 1 + Z.of_nat 0)))) 0) as [|G]; [reflexivity|].
    exfalso. assert (A : (k0 - 1 + sk * (j0 - 1 - sj) <= -1)%Z) by nia.
    replace (k0 - 1 + Z.of_nat 0 + sk * (j0 - 1 + Z.of_nat 0 + sj * (0 - 1 + Z.of_nat 0)))%Z with (k0 - 1 + sk * (j0 - 1 - sj))%Z in G by lia. nia. }
  cbn [fold_left]. rewrite Q. reflexivity.
Qed.
Lemma grid_example :
  sum_to 3 (fun j => poly [0; 0; 1] (nth j [0; 1; 2] 0) * lagrange_basis j 3 [0; 1; 2]) = 9 /\
  (exists m : grid, (forall dir, 0 < dx m dir) /\
    Xtoijk m (fun n => Fin (nth n [0; 1 / 3; 1 / 3; 1 / 3] 0)) 1 = Some 3%Z /\
    Xtoijk m (fun n => Fin (nth n [0; -5 / 2; 1 / 3; 1 / 3] 0)) 1 = Some 0%Z).
Proof.
  split; [etransitivity; [apply (exact_on [0; 0; 1] [0; 1; 2] 3); [|discriminate|cbn; lia]|cbn [poly]; ring]|].
  - repeat constructor; cbn; intuition lra.
  - exists {| start := fun _ => 0; dx := fun _ => 1; gs := fun _ => 0%Z |}. split; [intros; cbn [dx]; lra|].
    split.
    + apply (position {| start := fun _ => 0; dx := fun _ => 1; gs := fun _ => 0%Z |} (1 / 3) (fun _ => 3%Z) 1); [cbn [dx]; lra|lia|].
      unfold coord, coord1. cbn [centred start dx gs]. change (3 + 0 - NG)%Z with 0%Z. change (3 + 1 + 0 - NG)%Z with 1%Z. lra.
    + apply (position {| start := fun _ => 0; dx := fun _ => 1; gs := fun _ => 0%Z |} (-5 / 2) (fun _ => 0%Z) 1); [cbn [dx]; lra|lia|].
      unfold coord, coord1. cbn [centred start dx gs]. change (0 + 0 - NG)%Z with (-3)%Z. change (0 + 1 + 0 - NG)%Z with (-2)%Z. lra.
Qed.
