(** The diagnostics in terms of the whole grid. *)
From Coq Require Import Reals Bool ZArith List Lia Lra.
From Verif Require Import RLib XLib BinModel DiagModel DiagSpec DiagProofs.
Open Scope R_scope.

Lemma loop_sum n f : loop n (fun i => f (Z.of_nat i)) = sum n f.
Proof.
  unfold sum. induction n as [|n IH]; [reflexivity|]. rewrite seq_S, fold_right_app. cbn [loop fold_right]. rewrite IH. cbn.
  generalize (seq 0 n) as l. induction l as [|x l IHl]; cbn; [lra|]. rewrite <- IHl. lra.
Qed.
Lemma shell_around g f i : all_shell g f i = around g f i.
Proof.
  unfold all_shell, around, tot2, tot3. rewrite <- (loop_sum _ (fun j => sum (c3 g * n3 g) (fun k => f i j k))). apply loop_ext. intros j _. apply loop_sum.
Qed.
Lemma zones_everywhere g f : all_zones g f = everywhere g f.
Proof.
  unfold all_zones, everywhere, tot1. rewrite <- (loop_sum _ (fun i => around g f i)). apply loop_ext. intros i _. apply shell_around.
Qed.

Lemma fluxes g frho fuu : (0 < c1 g)%nat -> (0 < n1 g)%nat ->
  mdot_all g frho NG = through g frho 0 /\ mdot_all g frho (NG + 5) = through g frho 5 /\
  edot_all g frho fuu NG = through g (fun i j k => fuu i j k - frho i j k) 0 /\ edot_all g frho fuu (NG + 5) = through g (fun i j k => fuu i j k - frho i j k) 5.
Proof.
  intros C N. rewrite !mdot_ok, !edot_ok by assumption. replace (NG - NG)%Z with 0%Z by lia. replace (NG + 5 - NG)%Z with 5%Z by lia. unfold through. rewrite !shell_around. auto.
Qed.
Lemma totals g u : total_of g u = everywhere g (fun i j k => u i j k * dx1 g * dx2 g * dx3 g).
Proof. rewrite total_ok. apply zones_everywhere. Qed.
Lemma tele n (f : Z -> R) : loop n (fun i => f (Z.of_nat i + 1)%Z - f (Z.of_nat i)) = f (Z.of_nat n) - f 0%Z.
Proof. induction n as [|n IH]; [cbn; lra|]. cbn [loop]. rewrite IH. replace (Z.of_nat n + 1)%Z with (Z.of_nat (S n)) by lia. lra. Qed.
Lemma loop_lin n f h a b : loop n (fun i => a * f i + b * h i) = a * loop n f + b * loop n h.
Proof. rewrite loop_plus, !loop_scal. reflexivity. Qed.
Lemma balance g dt u f1 f2 f3 : (0 < c1 g)%nat -> (0 < n1 g)%nat -> dx1 g <> 0 -> dx2 g <> 0 -> dx3 g <> 0 ->
  (forall i k, f2 i 0%Z k = f2 i (Z.of_nat (tot2 g)) k) -> (forall i j, f3 i j 0%Z = f3 i j (Z.of_nat (tot3 g))) ->
  total_of g (stepped g dt u f1 f2 f3) = total_of g u + dt * (mdot_all g f1 NG - through g f1 (Z.of_nat (tot1 g))).
Proof.
  intros C N D1 D2 D3 P2 P3. rewrite !total_ok, mdot_ok by assumption. unfold through. rewrite <- shell_around. replace (NG - NG)%Z with 0%Z by lia.
  unfold all_zones. fold (tot1 g).
  set (A := fun i => all_shell g (fun i j k => f1 i j k * dx2 g * dx3 g) i).
  rewrite (loop_ext (tot1 g) _ (fun i => all_shell g (fun i j k => u i j k * dx1 g * dx2 g * dx3 g) (Z.of_nat i) + (- dt) * (A (Z.of_nat i + 1)%Z - A (Z.of_nat i)))).
  - rewrite loop_plus, loop_scal, tele. fold A. change (all_shell g (fun i j k => f1 i j k * dx2 g * dx3 g)) with A. lra.
  - intros i _. unfold A, all_shell. fold (tot2 g) (tot3 g). set (z := Z.of_nat i).
    set (B := fun q => loop (tot3 g) (fun k => f2 z q (Z.of_nat k) * dx1 g * dx3 g)).
    assert (BB : B (Z.of_nat (tot2 g)) = B 0%Z) by (unfold B; apply loop_ext; intros k _; now rewrite <- P2).
    set (U := fun j : nat => loop (tot3 g) (fun k => u z (Z.of_nat j) (Z.of_nat k) * dx1 g * dx2 g * dx3 g)).
    set (V := fun x (j : nat) => loop (tot3 g) (fun k => f1 x (Z.of_nat j) (Z.of_nat k) * dx2 g * dx3 g)).
    rewrite (loop_ext (tot2 g) _ (fun j => (U j + (- dt) * V (z + 1)%Z j) + (dt * V z j + (- dt) * (B (Z.of_nat j + 1)%Z - B (Z.of_nat j))))).
    + rewrite !loop_plus, !loop_scal, (tele (tot2 g) B), BB. unfold U, V. lra.
    + intros j _. set (y := Z.of_nat j). set (Q := fun q => f3 z y q * dx1 g * dx2 g).
      assert (QQ : Q (Z.of_nat (tot3 g)) = Q 0%Z) by (unfold Q; now rewrite <- P3).
      rewrite (loop_ext (tot3 g) _ (fun k => (u z y (Z.of_nat k) * dx1 g * dx2 g * dx3 g + (- dt) * (f1 (z + 1)%Z y (Z.of_nat k) * dx2 g * dx3 g))
        + (dt * (f1 z y (Z.of_nat k) * dx2 g * dx3 g) + (- dt) * (f2 z (y + 1)%Z (Z.of_nat k) * dx1 g * dx3 g))
        + (dt * (f2 z y (Z.of_nat k) * dx1 g * dx3 g) + (- dt) * (Q (Z.of_nat k + 1)%Z - Q (Z.of_nat k))))).
      * rewrite !loop_plus, !loop_scal, (tele (tot3 g) Q), QQ. unfold U, V, B. fold y. lra.
      * intros k _. unfold stepped, Q. fold z y. field. auto.
Qed.
Lemma flux_Phi g b1 gdet : (0 < c1 g)%nat -> (5 < n1 g)%nat -> Phi g b1 gdet = through g (fun i j k => 1 / 2 * Rabs (b1 i j k) * gdet i j k) 5.
Proof.
  intros C N. rewrite Phi_ok by assumption. unfold through. rewrite <- shell_around. unfold all_shell. apply loop_ext. intros j _. apply loop_ext. intros k _. lra.
Qed.
Lemma shell_lum g r10 gdet s : all_shell g (fun i j k => r10 i j k * dx2 g * dx3 g * gdet i j k) s = through g (fun i j k => r10 i j k * gdet i j k) s.
Proof. unfold through. rewrite <- shell_around. unfold all_shell. apply loop_ext. intros j _. apply loop_ext. intros k _. lra. Qed.
Lemma lum1_ok g stop r10 gdet s : c1 g = 1%nat -> (0 < n1 g)%nat -> 0 < dx1 g -> (0 <= s < Z.of_nat (n1 g))%Z ->
  (startx1 g + IZR (s + 1) * dx1 g < stop < startx1 g + IZR (s + 2) * dx1 g \/ s = (Z.of_nat (n1 g) - 1)%Z /\ startx1 g + IZR (s + 1) * dx1 g <= stop) ->
  lum g stop r10 gdet = - through g (fun i j k => r10 i j k * gdet i j k) s.
Proof.
  intros C N D S F. rewrite <- shell_lum. destruct (Z.eq_dec s (Z.of_nat (n1 g) - 1)) as [E|E].
  - rewrite E. apply lum_outer; try assumption. rewrite INR_IZR_INZ. replace (Z.of_nat (n1 g)) with (s + 1)%Z by lia. destruct F as [F|(_ & F)]; lra.
  - destruct F as [F|(F & _)]; [|contradiction]. apply lum_inside; try assumption; lia.
Qed.
Lemma lum_steady' g stop r10 gdet L : (0 < n1 g)%nat -> 0 < dx1 g -> startx1 g + INR (tot1 g) * dx1 g <= stop ->
  (forall s, - through g (fun i j k => r10 i j k * gdet i j k) s = L) -> lum g stop r10 gdet = INR (c1 g) * L.
Proof. intros N D S H. apply lum_steady; try assumption. intros s. rewrite shell_lum. apply H. Qed.
Lemma lum_face' g stop r10 gdet i : c1 g = 1%nat -> (0 < n1 g)%nat -> 0 < dx1 g -> stop = startx1 g + IZR i * dx1 g ->
  lum g stop r10 gdet = - through g (fun i j k => r10 i j k * gdet i j k) (Z.of_nat (n1 g) - 1).
Proof. intros C N D S. rewrite <- shell_lum. now apply (lum_face g stop r10 gdet i). Qed.

(** ** Cases *)
Definition one_zone (a b c d : nat) : grid3 := Grid a 1 1 b c d 0 1 1 1.
Lemma lum_refuted : exists g stop r10 gdet L, (0 < n1 g)%nat /\ 0 < dx1 g /\ startx1 g + INR (tot1 g) * dx1 g <= stop /\
  (forall s, - through g (fun i j k => r10 i j k * gdet i j k) s = L) /\ lum g stop r10 gdet = 2 * L /\ 0 < L.
Proof.
  exists (one_zone 1 2 1 1), 2, (fun _ _ _ => -1), (fun _ _ _ => 1), 1.
  assert (T : forall s, - through (one_zone 1 2 1 1) (fun i j k => (fun _ _ _ => -1) i j k * (fun _ _ _ => 1) i j k) s = 1) by (intros s; unfold through, around, sum, tot2, tot3; cbn; lra).
  assert (S : startx1 (one_zone 1 2 1 1) + INR (tot1 (one_zone 1 2 1 1)) * dx1 (one_zone 1 2 1 1) <= 2) by (cbn; lra).
  split; [cbn; lia|]. split; [cbn; lra|]. split; [exact S|]. split; [exact T|]. split; [|lra].
  rewrite (lum_steady' _ _ _ _ 1); [cbn; lra|cbn; lia|cbn; lra|exact S|exact T].
Qed.
Lemma face_refuted : exists g stop r10 gdet s, c1 g = 1%nat /\ 0 < dx1 g /\ (0 <= s)%Z /\ (s + 1 < Z.of_nat (n1 g))%Z /\ stop = startx1 g + IZR (s + 1) * dx1 g /\
  lum g stop r10 gdet = 0 /\ 0 < - through g (fun i j k => r10 i j k * gdet i j k) s.
Proof.
  set (r := fun i (_ _ : Z) => if (i =? 0)%Z then -1 else 0). exists (one_zone 2 1 1 1), 1, r, (fun _ _ _ => 1), 0%Z.
  split; [reflexivity|]. split; [cbn; lra|]. split; [lia|]. split; [cbn; lia|]. split; [cbn; lra|]. split.
  - rewrite (lum_face' _ _ _ _ 1) by (try reflexivity; cbn; try lia; lra). unfold through, around, sum, tot2, tot3, r. cbn. lra.
  - unfold through, around, sum, tot2, tot3, r. cbn. lra.
Qed.
Lemma eff_refuted : exists g stop r10 gdet frho e, (0 < c1 g)%nat /\ (0 < n1 g)%nat /\ 0 < mdot_all g frho NG /\ 0 < lum g stop r10 gdet /\
  eff g stop r10 gdet frho = Fin e /\ 1 < e /\ lum g stop r10 gdet < mdot_all g frho NG.
Proof.
  set (r := fun (_ j _ : Z) => if (j =? 0)%Z then - (3 / 2) else 0). set (g := one_zone 1 1 2 1). exists g, 2, r, (fun _ _ _ => 1), (fun _ _ _ => 1).
  assert (S : 0 < SMALL < / 100) by (split; [unfold SMALL; apply Rinv_0_lt_compat, pow_lt; lra|unfold SMALL; lra]).
  assert (M : mdot_all g (fun _ _ _ => 1) NG = 2).
  { destruct (fluxes g (fun _ _ _ => 1) (fun _ _ _ => 1)) as (M & _); [cbn; lia|cbn; lia|]. rewrite M. unfold through, around, sum, tot2, tot3. cbn. lra. }
  assert (L : lum g 2 r (fun _ _ _ => 1) = 3 / 2).
  { rewrite (lum1_ok g 2 r (fun _ _ _ => 1) 0); [|reflexivity|cbn; lia|cbn; lra|cbn; lia|right; split; [reflexivity|cbn; lra]].
    unfold through, around, sum, tot2, tot3, r. cbn. lra. }
  assert (E : mdot g (fun _ _ _ => 1) NG 0 0 0 = 1) by (unfold mdot, shell, elem, g; cbn; lra).
  exists (3 / 2 / (1 + SMALL)). split; [cbn; lia|]. split; [cbn; lia|]. split; [lra|]. split; [lra|]. unfold eff. rewrite L, E. split; [|split; [|lra]].
  - cbn [xdiv]. destruct (Reqb_spec (1 + SMALL) 0); [lra|reflexivity].
  - apply Rmult_lt_reg_r with (1 + SMALL); [lra|]. replace (3 / 2 / (1 + SMALL) * (1 + SMALL)) with (3 / 2) by (field; lra). lra.
Qed.
Lemma phi_refuted g b1 gdet frho : (0 < c1 g)%nat -> (0 < n1 g)%nat -> through g frho 0 < - SMALL -> phi g b1 gdet frho = NaN.
Proof. intros C N T. apply phi_nan. destruct (fluxes g frho frho C N) as (M & _). rewrite M. exact T. Qed.
Lemma phi_refuted_ex : exists g b1 gdet frho, (0 < c1 g)%nat /\ (5 < n1 g)%nat /\ (forall i j k, frho i j k < 0) /\ 0 < Phi g b1 gdet /\ phi g b1 gdet frho = NaN.
Proof.
  exists (one_zone 6 1 1 1), (fun _ _ _ => 1), (fun _ _ _ => 1), (fun _ _ _ => -1). split; [cbn; lia|]. split; [cbn; lia|]. split; [intros; lra|]. split.
  - rewrite flux_Phi by (cbn; lia). unfold through, around, sum, tot2, tot3. cbn. rewrite Rabs_R1. lra.
  - apply phi_refuted; [cbn; lia|cbn; lia|]. assert (SMALL < / 100) by (unfold SMALL; lra). unfold through, around, sum, tot2, tot3. cbn. lra.
Qed.
Lemma Phi_refuted : exists g b1 gdet, (5 < tot1 g)%nat /\ Phi g b1 gdet = 0 /\ 0 < through g (fun i j k => 1 / 2 * Rabs (b1 i j k) * gdet i j k) 5.
Proof.
  exists (one_zone 3 2 1 1), (fun _ _ _ => 1), (fun _ _ _ => 1). split; [cbn; lia|]. split; [apply Phi_thin; cbn; lia|]. unfold through, around, sum, tot2, tot3. cbn. rewrite Rabs_R1. lra.
Qed.
Lemma diag_example : let g := Grid 6 1 1 1 1 1 0 1 1 1 in
  startx1 g + IZR (3 + 1) * dx1 g < 9 / 2 < startx1 g + IZR (3 + 2) * dx1 g /\ lum g (9 / 2) (fun i _ _ => - IZR i) (fun _ _ _ => 1) = 3 /\
  mdot_all g (fun i _ _ => IZR i + 1) NG = 1 /\ Phi g (fun _ _ _ => -2) (fun _ _ _ => 1) = 1.
Proof.
  intros g. assert (F : startx1 g + IZR (3 + 1) * dx1 g < 9 / 2 < startx1 g + IZR (3 + 2) * dx1 g) by (cbn [g startx1 dx1]; change (3 + 1)%Z with 4%Z; change (3 + 2)%Z with 5%Z; lra).
  split; [exact F|]. split; [|split].
  - rewrite (lum1_ok g (9 / 2) (fun i _ _ => - IZR i) (fun _ _ _ => 1) 3); [|reflexivity|cbn; lia|cbn; lra|cbn; lia|now left]. unfold through, around, sum, tot2, tot3. cbn. lra.
  - destruct (fluxes g (fun i _ _ => IZR i + 1) (fun i _ _ => IZR i + 1)) as (M & _); [cbn; lia|cbn; lia|]. rewrite M. unfold through, around, sum, tot2, tot3. cbn. lra.
  - rewrite flux_Phi by (cbn; lia). unfold through, around, sum, tot2, tot3. cbn. replace (Rabs (-2)) with 2 by (rewrite Rabs_left; lra). lra.
Qed.
