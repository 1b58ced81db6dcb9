(** Proofs about the four-current. *)
From Coq Require Import Reals Bool ZArith List Lia Lra.
From Verif Require Import RLib GeomModel GeomSpec FluxModel PermModel CurModel CurSpec.
Open Scope R_scope.

Ltac below n H := destruct n as [|[|[|[|n]]]]; [| | | |exfalso; lia].
Definition sgn (a b c d : nat) : Z := let z := Z.of_nat in
  ((z b - z a) * (z c - z a) * (z d - z a) * (z c - z b) * (z d - z b) * (z d - z c) / 12)%Z.
Lemma sgn_all : forallb (fun a => forallb (fun b => forallb (fun c => forallb (fun d => let z := Z.of_nat in
    match antisym (z a) (z b) (z c) (z d) with Some x => (x =? sgn a b c d)%Z | None => false end &&
    (12 * sgn a b c d =? (z b - z a) * (z c - z a) * (z d - z a) * (z c - z b) * (z d - z b) * (z d - z c))%Z) (seq 0 4)) (seq 0 4)) (seq 0 4)) (seq 0 4) = true.
Proof. vm_compute. reflexivity. Qed.
Lemma sgn_is a b c d : (a < 4)%nat -> (b < 4)%nat -> (c < 4)%nat -> (d < 4)%nat -> antisym (Z.of_nat a) (Z.of_nat b) (Z.of_nat c) (Z.of_nat d) = Some (sgn a b c d) /\ levi a b c d = IZR (sgn a b c d).
Proof.
  intros A B C D. pose proof sgn_all as H. rewrite forallb_forall in H. specialize (H a ltac:(apply in_seq; lia)). rewrite forallb_forall in H. specialize (H b ltac:(apply in_seq; lia)).
  rewrite forallb_forall in H. specialize (H c ltac:(apply in_seq; lia)). rewrite forallb_forall in H. specialize (H d ltac:(apply in_seq; lia)). cbv zeta in H.
  apply andb_prop in H. destruct H as [H1 H2]. split.
  - destruct (antisym _ _ _ _); [|discriminate]. f_equal. apply Z.eqb_eq, H1.
  - apply Z.eqb_eq in H2. apply (f_equal IZR) in H2. rewrite !mult_IZR, !minus_IZR, <- !INR_IZR_INZ in H2. unfold levi. lra.
Qed.
Lemma symbol_is a b c d : (a < 4)%nat -> (b < 4)%nat -> (c < 4)%nat -> (d < 4)%nat -> symbol a b c d = Some (levi a b c d).
Proof. intros A B C D. destruct (sgn_is a b c d A B C D) as [E L]. unfold symbol. rewrite E, L. reflexivity. Qed.
Lemma lev a b c d : ((a <? 4) && (b <? 4) && (c <? 4) && (d <? 4))%nat = true -> levi a b c d = IZR (sgn a b c d).
Proof. intros H. repeat (apply andb_prop in H; destruct H as [H ?]). apply sgn_is; apply Nat.ltb_lt; assumption. Qed.
Ltac signs := repeat match goal with |- context [levi ?a ?b ?c ?d] => let z := eval vm_compute in (sgn a b c d) in rewrite (lev a b c d eq_refl : levi a b c d = IZR z) end.
Definition T (v w : nat -> R) (m n : nat) : R := - s4 (fun k => s4 (fun l => levi m n k l * v k * w l)).
Lemma Fcon_is p ge u m n : (m < 4)%nat -> (n < 4)%nat -> gdet ge <> 0 -> ucon_calc (gcov ge) (gcon ge) (alpha ge) (vel p) = Some u ->
  Fcon_calc p m n ge = Some (T (lower u (gcov ge)) (lower (bcon (CurModel.field p) u (lower u (gcov ge))) (gcov ge)) m n).
Proof.
  intros M N G E. unfold Fcon_calc. destruct (Nat.eqb_spec m n) as [<-|D].
  - f_equal. unfold T, s4, levi. assert (Z : INR m - INR m = 0) by ring. rewrite !Z. unfold Rdiv. rewrite !Rmult_0_l. ring.
  - rewrite E. cbv zeta. set (v := lower u _). set (w := lower _ _). unfold loop4. rewrite !symbol_is by lia. f_equal. unfold T, s4. field. exact G.
Qed.
(** only two terms are left *)
Definition table (v w : nat -> R) (m n : nat) : R :=
  let t a b := v a * w b - v b * w a in
  match m, n return R with
  | 0%nat, 1%nat => t 3%nat 2%nat | 0%nat, 2%nat => t 1%nat 3%nat | 0%nat, 3%nat => t 2%nat 1%nat
  | 1%nat, 0%nat => t 2%nat 3%nat | 2%nat, 0%nat => t 3%nat 1%nat | 3%nat, 0%nat => t 1%nat 2%nat
  | 1%nat, 2%nat => t 3%nat 0%nat | 2%nat, 1%nat => t 0%nat 3%nat
  | 1%nat, 3%nat => t 0%nat 2%nat | 3%nat, 1%nat => t 2%nat 0%nat
  | 2%nat, 3%nat => t 1%nat 0%nat | 3%nat, 2%nat => t 0%nat 1%nat
  | _, _ => 0
  end.
Lemma T_table v w m n : (m < 4)%nat -> (n < 4)%nat -> T v w m n = table v w m n.
Proof. intros M N. below m M; below n N; unfold T, s4, table; signs; ring. Qed.
Lemma T_anti v w m n : (m < 4)%nat -> (n < 4)%nat -> T v w m n = - T v w n m.
Proof. intros M N. rewrite !T_table by assumption. below m M; below n N; unfold table; ring. Qed.
Lemma T_u v w m : (m < 4)%nat -> s4 (fun n => T v w m n * v n) = 0.
Proof. intros M. unfold s4. rewrite !T_table by lia. below m M; unfold table; ring. Qed.
Lemma T_b v w m : (m < 4)%nat -> s4 (fun n => T v w m n * w n) = 0.
Proof. intros M. unfold s4. rewrite !T_table by lia. below m M; unfold table; ring. Qed.
Lemma T_dual v w m n : (m < 4)%nat -> (n < 4)%nat -> 1 / 2 * s4 (fun a => s4 (fun c => levi m n a c * T v w a c)) = w m * v n - w n * v m.
Proof. intros M N. unfold s4. rewrite !T_table by lia. below m M; below n N; signs; unfold table; field. Qed.
Lemma tensor p ge u : gdet ge <> 0 -> ucon_calc (gcov ge) (gcon ge) (alpha ge) (vel p) = Some u ->
  let v := lower u (gcov ge) in let w := lower (bcon (CurModel.field p) u v) (gcov ge) in
  exists F : nat -> nat -> R, (forall m n, (m < 4)%nat -> (n < 4)%nat -> Fcon_calc p m n ge = Some (F m n) /\ F m n = - F n m /\
      1 / 2 * s4 (fun a => s4 (fun c => levi m n a c * F a c)) = w m * v n - w n * v m) /\
    (forall m, (m < 4)%nat -> s4 (fun n => F m n * v n) = 0 /\ s4 (fun n => F m n * w n) = 0).
Proof.
  intros G E v w. exists (T v w). split.
  - intros m n M N. split; [apply Fcon_is; assumption|]. split; [apply T_anti; assumption|apply T_dual; assumption].
  - intros m M. split; [apply T_u, M|apply T_b, M].
Qed.
(** ** Flat space *)
Definition flat_geom : geom := {| gcov := eta; gcon := eta; alpha := 1; gdet := 1 |}.
Definition uflat (p : prim) : nat -> R := fun j => if Nat.eqb j 0 then sqrt (1 + square (vel p)) / 1 else vel p j - sqrt (1 + square (vel p)) * 1 * eta 0 j.
Lemma square_pos a : 0 <= square a.
Proof. unfold square. pose proof (pow2_ge_0 (a 1%nat)). pose proof (pow2_ge_0 (a 2%nat)). pose proof (pow2_ge_0 (a 3%nat)). lra. Qed.
Lemma ucon_flat p : ucon_calc eta eta 1 (vel p) = Some (uflat p).
Proof.
  unfold ucon_calc, mhd_gamma_calc. replace (qsq_of eta (vel p)) with (square (vel p)) by (unfold qsq_of, square, eta; cbn [Nat.eqb]; ring).
  pose proof (square_pos (vel p)). rewrite Rltb_false by lra. reflexivity.
Qed.
Definition Fflat (p : prim) (m n : nat) : R :=
  let E := electric (vel p) (CurModel.field p) in let B := CurModel.field p in
  match m, n return R with
  | 0%nat, 1%nat => E 1%nat | 0%nat, 2%nat => E 2%nat | 0%nat, 3%nat => E 3%nat
  | 1%nat, 0%nat => - E 1%nat | 2%nat, 0%nat => - E 2%nat | 3%nat, 0%nat => - E 3%nat
  | 1%nat, 2%nat => B 3%nat | 2%nat, 3%nat => B 1%nat | 3%nat, 1%nat => B 2%nat
  | 2%nat, 1%nat => - B 3%nat | 3%nat, 2%nat => - B 1%nat | 1%nat, 3%nat => - B 2%nat
  | _, _ => 0
  end.
Lemma Fcon_flat p m n : (m < 4)%nat -> (n < 4)%nat -> Fcon_calc p m n flat_geom = Some (Fflat p m n).
Proof.
  intros M N. rewrite (Fcon_is p flat_geom (uflat p) m n M N); [|cbn [flat_geom gdet]; lra|apply ucon_flat]. f_equal.
  assert (Q : 0 < sqrt (1 + square (vel p))) by (apply sqrt_lt_R0; pose proof (square_pos (vel p)); lra).
  below m M; below n N; rewrite T_table by lia; cbn [Fflat flat_geom gcov table]; unfold electric, cross, lower, bcon, uflat, eta; cbn [Nat.eqb]; field; lra.
Qed.
Definition mid (P Ps : zone -> prim) (z : zone) : prim := centred P Ps z.
Lemma Fflat_ext p q m n : (forall i, vel p i = vel q i) -> (forall i, CurModel.field p i = CurModel.field q i) -> Fflat p m n = Fflat q m n.
Proof.
  intros V B. unfold Fflat, electric, cross, square. repeat rewrite V. repeat rewrite B. reflexivity.
Qed.
Section Flat.
Variable dx : nat -> R.
Variable dt : R.
Variables P Ps : zone -> prim.
Definition Ec (z : zone) : nat -> R := electric (midway (vel (P z)) (vel (Ps z))) (midway (CurModel.field (P z)) (CurModel.field (Ps z))).
Definition Bc (z : zone) : nat -> R := midway (CurModel.field (P z)) (CurModel.field (Ps z)).
Definition midp (z : zone) : prim := {| vel := midway (vel (P z)) (vel (Ps z)); CurModel.field := Bc z |}.
Lemma at_flat p m n z : (m < 4)%nat -> (n < 4)%nat -> at_zone (fun _ _ => flat_geom) p m n z = Some (Fflat (p z) m n).
Proof. intros M N. unfold at_zone. destruct z as [[i j] k]. apply Fcon_flat; assumption. Qed.
Lemma centred_flat m n z : Fflat (centred P Ps z) m n = Fflat (midp z) m n.
Proof. apply Fflat_ext; intros i; cbn [centred midp vel CurModel.field]; unfold Bc, midway; lra. Qed.
Lemma shift_is d n z : shift d n z = neighbour d n z.
Proof. reflexivity. Qed.
Lemma current_flat nstep z m : nstep <> 0%Z -> (m < 4)%nat -> current_calc (fun _ _ => flat_geom) dx dt nstep P Ps z m = Some (/ (4 * PI) *
  ((Fflat (P z) 0 m - Fflat (Ps z) 0 m) / dt + central dx 1 (fun z => Fflat (midp z) 1 m) z + central dx 2 (fun z => Fflat (midp z) 2 m) z + central dx 3 (fun z => Fflat (midp z) 3 m) z)).
Proof.
  intros N M. unfold current_calc. rewrite (proj2 (Z.eqb_neq _ _) N). cbv zeta. rewrite !at_flat by lia. rewrite !centred_flat, !shift_is. cbn [diff].
  f_equal. unfold central. f_equal. destruct z as [[i j] k]. cbn [flat_geom gdet]. rewrite Rmult_1_r. unfold Rdiv. rewrite Rmult_1_l. reflexivity.
Qed.
Lemma charge_flat nstep z : nstep <> 0%Z -> current_calc (fun _ _ => flat_geom) dx dt nstep P Ps z 0 = Some (- divergence dx Ec z / (4 * PI)).
Proof.
  intros N. rewrite current_flat by (auto; lia). f_equal. cbn [Fflat midp vel CurModel.field]. unfold divergence, central.
  unfold Ec, Bc. unfold Rdiv. ring.
Qed.
Lemma ampere_flat nstep z m : nstep <> 0%Z -> (1 <= m < 4)%nat -> current_calc (fun _ _ => flat_geom) dx dt nstep P Ps z m =
  Some (- (curl dx Bc z m - (electric (vel (P z)) (CurModel.field (P z)) m - electric (vel (Ps z)) (CurModel.field (Ps z)) m) / dt) / (4 * PI)).
Proof.
  intros N M. rewrite current_flat by (auto; lia). f_equal. destruct m as [|[|[|[|m]]]]; [exfalso; lia| | | |exfalso; lia];
  cbn [Fflat midp vel CurModel.field curl]; unfold central, Rdiv; ring.
Qed.
End Flat.
(** ** Total charge *)
Lemma zsum_ext s n f g : (forall i, (s <= i < s + Z.of_nat n)%Z -> f i = g i) -> zsum s n f = zsum s n g.
Proof. induction n as [|n IH]; intros H; cbn [zsum]; [reflexivity|]. rewrite IH by (intros; apply H; lia). rewrite H by lia. reflexivity. Qed.
Lemma zsum_0 s n : zsum s n (fun _ => 0) = 0.
Proof. induction n as [|n IH]; cbn [zsum]; lra. Qed.
Lemma zsum_plus s n f g : zsum s n (fun i => f i + g i) = zsum s n f + zsum s n g.
Proof. induction n as [|n IH]; cbn [zsum]; lra. Qed.
Lemma zsum_scal s n c f : zsum s n (fun i => c * f i) = c * zsum s n f.
Proof. induction n as [|n IH]; cbn [zsum]; [lra|]. rewrite IH. lra. Qed.
Lemma zsum_swap s t n m f : zsum s n (fun i => zsum t m (fun j => f i j)) = zsum t m (fun j => zsum s n (fun i => f i j)).
Proof. induction n as [|n IH]; cbn [zsum]; [symmetry; apply zsum_0|]. rewrite IH, <- zsum_plus. reflexivity. Qed.
Lemma telescope s n f : zsum s n (fun i => f (i + 1)%Z - f (i + -1)%Z) = f (s + Z.of_nat n)%Z + f (s + Z.of_nat n - 1)%Z - f s - f (s - 1)%Z.
Proof.
  induction n as [|n IH]; cbn [zsum]; [replace (s + Z.of_nat 0)%Z with s by lia; ring|]. rewrite IH.
  replace (s + Z.of_nat (S n))%Z with (s + Z.of_nat n + 1)%Z by lia. replace (s + Z.of_nat n + 1 - 1)%Z with (s + Z.of_nat n)%Z by lia.
  replace (s + Z.of_nat n + -1)%Z with (s + Z.of_nat n - 1)%Z by lia. ring.
Qed.
Lemma telescope_0 s n f c : (forall i, f (i + Z.of_nat n)%Z = f i) -> zsum s n (fun i => (f (i + 1)%Z - f (i + -1)%Z) / c) = 0.
Proof.
  intros H. rewrite (zsum_ext _ _ _ (fun i => / c * (f (i + 1)%Z - f (i + -1)%Z))) by (intros; unfold Rdiv; ring).
  rewrite zsum_scal, telescope. rewrite (H s). replace (s + Z.of_nat n - 1)%Z with (s - 1 + Z.of_nat n)%Z by lia. rewrite (H (s - 1)%Z). ring.
Qed.
Section Charge.
Variable ggeom : Z -> Z -> geom.
Variable dx : nat -> R.
Variable dt : R.
Variables P Ps : zone -> prim.
Variables n1 n2 n3 : nat.
Hypothesis G1 : forall i j, ggeom (i + Z.of_nat n1)%Z j = ggeom i j.
Hypothesis G2 : forall i j, ggeom i (j + Z.of_nat n2)%Z = ggeom i j.
Hypothesis G0 : forall i j, gdet (ggeom i j) <> 0.
Hypothesis P1 : forall i j k, P ((i + Z.of_nat n1)%Z, j, k) = P (i, j, k) /\ Ps ((i + Z.of_nat n1)%Z, j, k) = Ps (i, j, k).
Hypothesis P2 : forall i j k, P (i, (j + Z.of_nat n2)%Z, k) = P (i, j, k) /\ Ps (i, (j + Z.of_nat n2)%Z, k) = Ps (i, j, k).
Hypothesis P3 : forall i j k, P (i, j, (k + Z.of_nat n3)%Z) = P (i, j, k) /\ Ps (i, j, (k + Z.of_nat n3)%Z) = Ps (i, j, k).
Definition FF (d : nat) (z : zone) : R := match at_zone ggeom (centred P Ps) d 0 z with Some x => x | None => 0 end.
Lemma charge_zone nstep i j k q : nstep <> 0%Z -> current_calc ggeom dx dt nstep P Ps (i, j, k) 0 = Some q ->
  gdet (ggeom i j) * q = / (4 * PI) * ((FF 1 ((i + 1)%Z, j, k) - FF 1 ((i + -1)%Z, j, k)) / (2 * dx 1%nat) +
    (FF 2 (i, (j + 1)%Z, k) - FF 2 (i, (j + -1)%Z, k)) / (2 * dx 2%nat) + (FF 3 (i, j, (k + 1)%Z) - FF 3 (i, j, (k + -1)%Z)) / (2 * dx 3%nat)).
Proof using G0.
  intros N. unfold current_calc. rewrite (proj2 (Z.eqb_neq _ _) N). cbv zeta. unfold FF. cbn [shift].
  assert (Z0 : forall p z, at_zone ggeom p 0 0 z = Some 0) by (intros p [[a b] c]; reflexivity). rewrite !Z0.
  destruct (at_zone _ _ 1 0 ((i + 1)%Z, j, k)) as [a1|]; [|discriminate]. destruct (at_zone _ _ 1 0 _) as [b1|]; [|discriminate].
  destruct (at_zone _ _ 2 0 (i, (j + 1)%Z, k)) as [a2|]; [|discriminate]. destruct (at_zone _ _ 2 0 _) as [b2|]; [|discriminate].
  destruct (at_zone _ _ 3 0 (i, j, (k + 1)%Z)) as [a3|]; [|discriminate]. destruct (at_zone _ _ 3 0 _) as [b3|]; [|discriminate].
  cbn [diff]. intros E. injection E as <-. pose proof (G0 i j) as G. pose proof PI_neq0. rewrite Rminus_diag_eq by reflexivity.
  replace (0 / dt) with 0 by (unfold Rdiv; ring). set (s1 := (a1 - b1) / _). set (s2 := (a2 - b2) / _). set (s3 := (a3 - b3) / _). field. auto.
Qed.
Lemma FF1 d i j k : FF d ((i + Z.of_nat n1)%Z, j, k) = FF d (i, j, k).
Proof using G1 P1. unfold FF, at_zone, centred. rewrite G1. destruct (P1 i j k) as [-> ->]. reflexivity. Qed.
Lemma FF2 d i j k : FF d (i, (j + Z.of_nat n2)%Z, k) = FF d (i, j, k).
Proof using G2 P2. unfold FF, at_zone, centred. rewrite G2. destruct (P2 i j k) as [-> ->]. reflexivity. Qed.
Lemma FF3 d i j k : FF d (i, j, (k + Z.of_nat n3)%Z) = FF d (i, j, k).
Proof using P3. unfold FF, at_zone, centred. destruct (P3 i j k) as [-> ->]. reflexivity. Qed.
Lemma charge_total nstep s q : nstep <> 0%Z -> (forall z, current_calc ggeom dx dt nstep P Ps z 0 = Some (q z)) ->
  box_sum s n1 n2 n3 (fun z => gdet (let '(i, j, _) := z in ggeom i j) * q z) = 0.
Proof using G0 G1 G2 P1 P2 P3.
  intros N H. unfold box_sum.
  set (A := fun i j k => / (4 * PI) * ((FF 1 ((i + 1)%Z, j, k) - FF 1 ((i + -1)%Z, j, k)) / (2 * dx 1%nat))).
  set (B := fun i j k => / (4 * PI) * ((FF 2 (i, (j + 1)%Z, k) - FF 2 (i, (j + -1)%Z, k)) / (2 * dx 2%nat))).
  set (C := fun i j k => / (4 * PI) * ((FF 3 (i, j, (k + 1)%Z) - FF 3 (i, j, (k + -1)%Z)) / (2 * dx 3%nat))).
  rewrite (zsum_ext s n1 _ (fun i => zsum s n2 (fun j => zsum s n3 (A i j)) + zsum s n2 (fun j => zsum s n3 (B i j)) + zsum s n2 (fun j => zsum s n3 (C i j)))).
  2:{ intros i _. rewrite <- !zsum_plus. apply zsum_ext. intros j _. rewrite <- !zsum_plus. apply zsum_ext. intros k _. rewrite (charge_zone nstep i j k _ N (H (i, j, k))). unfold A, B, C. ring. }
  rewrite !zsum_plus.
  assert (E1 : zsum s n1 (fun i => zsum s n2 (fun j => zsum s n3 (A i j))) = 0).
  { rewrite zsum_swap. rewrite (zsum_ext _ _ _ (fun _ => 0)); [apply zsum_0|]. intros j _. rewrite zsum_swap. rewrite (zsum_ext _ _ _ (fun _ => 0)); [apply zsum_0|].
    intros k _. unfold A. rewrite zsum_scal. rewrite (telescope_0 s n1 (fun i => FF 1 (i, j, k))); [ring|]. intros i. apply FF1. }
  assert (E2 : zsum s n1 (fun i => zsum s n2 (fun j => zsum s n3 (B i j))) = 0).
  { rewrite (zsum_ext _ _ _ (fun _ => 0)); [apply zsum_0|]. intros i _. rewrite zsum_swap. rewrite (zsum_ext _ _ _ (fun _ => 0)); [apply zsum_0|].
    intros k _. unfold B. rewrite zsum_scal. rewrite (telescope_0 s n2 (fun j => FF 2 (i, j, k))); [ring|]. intros j. apply FF2. }
  assert (E3 : zsum s n1 (fun i => zsum s n2 (fun j => zsum s n3 (C i j))) = 0).
  { rewrite (zsum_ext _ _ _ (fun _ => 0)); [apply zsum_0|]. intros i _. rewrite (zsum_ext _ _ _ (fun _ => 0)); [apply zsum_0|].
    intros j _. unfold C. rewrite zsum_scal. rewrite (telescope_0 s n3 (fun k => FF 3 (i, j, k))); [ring|]. intros k. apply FF3. }
  rewrite E1, E2, E3. ring.
Qed.
End Charge.
