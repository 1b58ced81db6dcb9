From Coq Require Import Reals ZArith Bool Lia Lra.
From Verif Require Import RLib FluxModel FluxSpec.
Open Scope R_scope.

Lemma in_loop_iff h1 h2 h3 i j k : in_loop h1 h2 h3 i j k = true <->
  (0 <= i <= h1 /\ 0 <= j <= h2 /\ 0 <= k <= h3)%Z.
Proof. unfold in_loop. rewrite !andb_true_iff, !Z.leb_le. tauto. Qed.

(** ** Conserved field *)
Lemma cons_B g B ucon ucov m : ucon 0%nat <> 0 -> (1 <= m)%nat ->
  primtoflux_B g B ucon ucov 0 m = g * B m.
Proof.
  intros H M. unfold primtoflux_B, bcon. destruct m as [|m]; [lia|].
  cbn [Nat.eqb]. field. exact H.
Qed.
(** Field along a direction is not carried by its own flux. *)
Lemma flux_B_self g B ucon ucov dir : primtoflux_B g B ucon ucov dir dir = 0.
Proof. unfold primtoflux_B. ring. Qed.
Lemma flux_B_anti g B ucon ucov a b : primtoflux_B g B ucon ucov a b = - primtoflux_B g B ucon ucov b a.
Proof. unfold primtoflux_B. ring. Qed.

Section Blocks.
Variables (Dt dx1 dx2 dx3 : R) (g : Z -> Z -> R) (G1 G2 G3 P : field).
Notation windows := (windows G1 G2 G3).
Notation block_advance := (block_advance Dt dx1 dx2 dx3 g P).
Notation covered := (covered Dt dx1 dx2 dx3 g G1 G2 G3 P).
Notation dens := (dens g).

(** Update of the densitised field written with edge values. *)
Definition e1 := emf1v G2 G3.
Definition e2 := emf2v G1 G3.
Definition e3 := emf3v G1 G2.
Definition ideal1 x y z := Dt * (((e3 x (y+1)%Z z + e3 (x+1)%Z (y+1)%Z z) - (e3 x y z + e3 (x+1)%Z y z)) / 2 / dx2
  - ((e2 x y (z+1)%Z + e2 (x+1)%Z y (z+1)%Z) - (e2 x y z + e2 (x+1)%Z y z)) / 2 / dx3).
Definition ideal2 x y z := Dt * (((e1 x y (z+1)%Z + e1 x (y+1)%Z (z+1)%Z) - (e1 x y z + e1 x (y+1)%Z z)) / 2 / dx3
  - ((e3 (x+1)%Z y z + e3 (x+1)%Z (y+1)%Z z) - (e3 x y z + e3 x (y+1)%Z z)) / 2 / dx1).
Definition ideal3 x y z := Dt * (((e2 (x+1)%Z y z + e2 (x+1)%Z y (z+1)%Z) - (e2 x y z + e2 x y (z+1)%Z)) / 2 / dx1
  - ((e1 x (y+1)%Z z + e1 x (y+1)%Z (z+1)%Z) - (e1 x y z + e1 x y (z+1)%Z)) / 2 / dx2).

Section One.
Variable b : block.
Hypothesis W : windows b.

Lemma w_e3 i j k : in_loop (n1 b) (n2 b) (n3 b) i j k = true ->
  emf3 (f1 b) (f2 b) (n1 b) (n2 b) (n3 b) (s3 b) i j k = e3 (o1 b + i)%Z (o2 b + j)%Z (o3 b + k)%Z.
Proof.
  intros H. unfold emf3. rewrite H. apply in_loop_iff in H. destruct W as [A _].
  unfold e3, emf3v.
  rewrite (proj1 (A i j k B2 ltac:(unfold near_block; lia))) by lia.
  rewrite (proj1 (A i (j - 1)%Z k B2 ltac:(unfold near_block; lia))) by lia.
  rewrite (proj1 (proj2 (A i j k B1 ltac:(unfold near_block; lia)))) by lia.
  rewrite (proj1 (proj2 (A (i - 1)%Z j k B1 ltac:(unfold near_block; lia)))) by lia.
  now rewrite !Z.add_sub_assoc.
Qed.
Lemma w_e2 i j k : in_loop (n1 b) (n2 b) (n3 b) i j k = true ->
  emf2 (f1 b) (f3 b) (n1 b) (n2 b) (n3 b) (s2 b) i j k = e2 (o1 b + i)%Z (o2 b + j)%Z (o3 b + k)%Z.
Proof.
  intros H. unfold emf2. rewrite H. apply in_loop_iff in H. destruct W as [A _].
  unfold e2, emf2v.
  rewrite (proj1 (A i j k B3 ltac:(unfold near_block; lia))) by lia.
  rewrite (proj1 (A i j (k - 1)%Z B3 ltac:(unfold near_block; lia))) by lia.
  rewrite (proj2 (proj2 (A i j k B1 ltac:(unfold near_block; lia)))) by lia.
  rewrite (proj2 (proj2 (A (i - 1)%Z j k B1 ltac:(unfold near_block; lia)))) by lia.
  now rewrite !Z.add_sub_assoc.
Qed.
Lemma w_e1 i j k : in_loop (n1 b) (n2 b) (n3 b) i j k = true ->
  emf1 (f2 b) (f3 b) (n1 b) (n2 b) (n3 b) (s1 b) i j k = e1 (o1 b + i)%Z (o2 b + j)%Z (o3 b + k)%Z.
Proof.
  intros H. unfold emf1. rewrite H. apply in_loop_iff in H. destruct W as [A _].
  unfold e1, emf1v.
  rewrite (proj1 (proj2 (A i j k B3 ltac:(unfold near_block; lia)))) by lia.
  rewrite (proj1 (proj2 (A i j (k - 1)%Z B3 ltac:(unfold near_block; lia)))) by lia.
  rewrite (proj2 (proj2 (A i j k B2 ltac:(unfold near_block; lia)))) by lia.
  rewrite (proj2 (proj2 (A i (j - 1)%Z k B2 ltac:(unfold near_block; lia)))) by lia.
  now rewrite !Z.add_sub_assoc.
Qed.

Ltac inl := apply in_loop_iff; lia.
Ltac es := rewrite ?w_e1, ?w_e2, ?w_e3 by inl.
Ltac go := repeat match goal with |- context [in_loop ?a ?b ?c ?d ?e ?f] =>
   replace (in_loop a b c d e f) with true by (symmetry; inl) end; cbn [Nat.eqb B1 B2 B3].

Lemma zone1 i j k : inside_block b i j k -> g (o1 b + i)%Z (o2 b + j)%Z <> 0 ->
  dx1 <> 0 -> dx2 <> 0 -> dx3 <> 0 ->
  let x := (o1 b + i)%Z in let y := (o2 b + j)%Z in let z := (o3 b + k)%Z in
  g x y * block_advance b i j k B1 = g x y * P x y z B1 + ideal1 x y z /\
  g x y * block_advance b i j k B2 = g x y * P x y z B2 + ideal2 x y z /\
  g x y * block_advance b i j k B3 = g x y * P x y z B3 + ideal3 x y z.
Proof.
  intros H G Hx1 Hx2 Hx3 x y z. unfold inside_block in H. pose proof (proj2 W i j k H) as U.
  unfold FluxSpec.block_advance, advance_B.
  replace (in_loop (n1 b - 1) (n2 b - 1) (n3 b - 1) i j k) with true by (symmetry; inl).
  change (Nat.leb B1 B1) with true. change (Nat.leb B1 B3) with true. change (Nat.leb B1 B2) with true.
  change (Nat.leb B2 B3) with true. change (Nat.leb B3 B3) with true. cbn [andb].
  unfold update, source.
  change (Nat.leb 1 B1 && Nat.leb B1 4) with false. change (Nat.leb 1 B2 && Nat.leb B2 4) with false.
  change (Nat.leb 1 B3 && Nat.leb B3 4) with false. cbv iota.
  rewrite !cons_B; [|exact U|unfold B3; lia|exact U|unfold B2; lia|exact U|unfold B1; lia].
  change (4 + (B1 - 4))%nat with B1. change (4 + (B2 - 4))%nat with B2. change (4 + (B3 - 4))%nat with B3.
  unfold ct1, ct2, ct3. go. es. fold x y z. fold x y in G.
  rewrite !Z.add_assoc. fold x y z.
  unfold ideal1, ideal2, ideal3. split; [|split]; field; auto.
Qed.
End One.

Lemma divb_corner Q i j k :
  divb_arg dx1 dx2 dx3 g Q i j k = corner_div dx1 dx2 dx3 (dens Q B1) (dens Q B2) (dens Q B3) i j k.
Proof. unfold divb_arg, corner_div, four, FluxSpec.dens, Rdiv. cbv zeta. generalize (/ dx1) (/ dx2) (/ dx3). intros. field. Qed.

Lemma ct_divb P' i j k : dx1 <> 0 -> dx2 <> 0 -> dx3 <> 0 ->
  (forall x y z, around i j k x y z -> covered P' x y z) ->
  corner_div dx1 dx2 dx3 (dens P' B1) (dens P' B2) (dens P' B3) i j k =
  corner_div dx1 dx2 dx3 (dens P B1) (dens P B2) (dens P B3) i j k.
Proof.
  intros H1 H2 H3 C.
  assert (Z : forall x y z, around i j k x y z ->
    dens P' B1 x y z = dens P B1 x y z + ideal1 x y z /\
    dens P' B2 x y z = dens P B2 x y z + ideal2 x y z /\
    dens P' B3 x y z = dens P B3 x y z + ideal3 x y z).
  { intros x y z A. destruct (C x y z A) as (b & a1 & a2 & a3 & W & I & -> & -> & -> & G & E).
    unfold FluxSpec.dens. rewrite !E. exact (zone1 b W a1 a2 a3 I G H1 H2 H3). }
  assert (A : forall x y z, (x = i \/ x = i - 1)%Z -> (y = j \/ y = j - 1)%Z -> (z = k \/ z = k - 1)%Z -> around i j k x y z)
    by (intros; unfold around; tauto).
  pose proof (Z _ _ _ (A i j k ltac:(tauto) ltac:(tauto) ltac:(tauto))) as (Z11 & Z12 & Z13).
  pose proof (Z _ _ _ (A i j (k-1)%Z ltac:(tauto) ltac:(tauto) ltac:(tauto))) as (Z21 & Z22 & Z23).
  pose proof (Z _ _ _ (A i (j-1)%Z k ltac:(tauto) ltac:(tauto) ltac:(tauto))) as (Z31 & Z32 & Z33).
  pose proof (Z _ _ _ (A i (j-1)%Z (k-1)%Z ltac:(tauto) ltac:(tauto) ltac:(tauto))) as (Z41 & Z42 & Z43).
  pose proof (Z _ _ _ (A (i-1)%Z j k ltac:(tauto) ltac:(tauto) ltac:(tauto))) as (Z51 & Z52 & Z53).
  pose proof (Z _ _ _ (A (i-1)%Z j (k-1)%Z ltac:(tauto) ltac:(tauto) ltac:(tauto))) as (Z61 & Z62 & Z63).
  pose proof (Z _ _ _ (A (i-1)%Z (j-1)%Z k ltac:(tauto) ltac:(tauto) ltac:(tauto))) as (Z71 & Z72 & Z73).
  pose proof (Z _ _ _ (A (i-1)%Z (j-1)%Z (k-1)%Z ltac:(tauto) ltac:(tauto) ltac:(tauto))) as (Z81 & Z82 & Z83).
  unfold corner_div, four.
  rewrite Z11,Z12,Z13,Z21,Z22,Z23,Z31,Z32,Z33,Z41,Z42,Z43,Z51,Z52,Z53,Z61,Z62,Z63,Z71,Z72,Z73,Z81,Z82,Z83.
  unfold ideal1, ideal2, ideal3. rewrite !Z.sub_add.
  generalize e1 e2 e3 (dens P B1) (dens P B2) (dens P B3). intros E1 E2 E3 D1 D2 D3.
  field. auto.
Qed.
End Blocks.

(** ** Telescoping *)
Lemma Rsum_ext n f h : (forall i, (0 <= i < Z.of_nat n)%Z -> f i = h i) -> Rsum n f = Rsum n h.
Proof. induction n as [|n IH]; intros H; cbn [Rsum]; [reflexivity|]. rewrite IH, H; [reflexivity|lia|]. intros; apply H; lia. Qed.
Lemma Rsum_plus n f h : Rsum n (fun i => f i + h i) = Rsum n f + Rsum n h.
Proof. induction n as [|n IH]; cbn [Rsum]; [ring|]. rewrite IH. ring. Qed.
Lemma Rsum_scal n c f : Rsum n (fun i => c * f i) = c * Rsum n f.
Proof. induction n as [|n IH]; cbn [Rsum]; [ring|]. rewrite IH. ring. Qed.
Lemma Rsum_tele n f : Rsum n (fun i => f (i + 1)%Z - f i) = f (Z.of_nat n) - f 0%Z.
Proof.
  induction n as [|n IH]; cbn [Rsum]; [change (Z.of_nat 0) with 0%Z; ring|]. rewrite IH.
  replace (Z.of_nat (S n)) with (Z.of_nat n + 1)%Z by lia. ring.
Qed.
Lemma Rsum_zero n : Rsum n (fun _ => 0) = 0.
Proof. induction n as [|n IH]; cbn [Rsum]; [ring|]. rewrite IH. ring. Qed.
Lemma Rsum_swap n m f : Rsum n (fun i => Rsum m (fun j => f i j)) = Rsum m (fun j => Rsum n (fun i => f i j)).
Proof.
  induction n as [|n IH]; cbn [Rsum].
  - symmetry. apply Rsum_zero.
  - rewrite IH. symmetry. apply Rsum_plus.
Qed.

Lemma R3_plus a b c f h : Rsum3 a b c (fun i j k => f i j k + h i j k) = Rsum3 a b c f + Rsum3 a b c h.
Proof.
  unfold Rsum3. rewrite <- Rsum_plus. apply Rsum_ext. intros. rewrite <- Rsum_plus. apply Rsum_ext.
  intros. apply Rsum_plus.
Qed.
Lemma R3_scal a b c x f : Rsum3 a b c (fun i j k => x * f i j k) = x * Rsum3 a b c f.
Proof.
  unfold Rsum3. rewrite <- Rsum_scal. apply Rsum_ext. intros. rewrite <- Rsum_scal. apply Rsum_ext.
  intros. apply Rsum_scal.
Qed.
Lemma R3_ext a b c f h : (forall i j k, f i j k = h i j k) -> Rsum3 a b c f = Rsum3 a b c h.
Proof. intros H. unfold Rsum3. do 3 (apply Rsum_ext; intros). apply H. Qed.

Lemma R3_tele1 a b c (f : Z -> Z -> Z -> R) :
  Rsum3 a b c (fun i j k => f (i + 1)%Z j k - f i j k) =
  Rsum2 b c (fun j k => f (Z.of_nat a) j k - f 0%Z j k).
Proof.
  unfold Rsum3, Rsum2. rewrite Rsum_swap. apply Rsum_ext. intros j _. rewrite Rsum_swap. apply Rsum_ext. intros k _.
  apply (Rsum_tele a (fun i => f i j k)).
Qed.
Lemma R3_tele2 a b c (f : Z -> Z -> Z -> R) :
  Rsum3 a b c (fun i j k => f i (j + 1)%Z k - f i j k) =
  Rsum2 a c (fun i k => f i (Z.of_nat b) k - f i 0%Z k).
Proof.
  unfold Rsum3, Rsum2. apply Rsum_ext. intros i _. rewrite Rsum_swap. apply Rsum_ext. intros k _.
  apply (Rsum_tele b (fun j => f i j k)).
Qed.
Lemma R3_tele3 a b c (f : Z -> Z -> Z -> R) :
  Rsum3 a b c (fun i j k => f i j (k + 1)%Z - f i j k) =
  Rsum2 a b (fun i j => f i j (Z.of_nat c) - f i j 0%Z).
Proof.
  unfold Rsum3, Rsum2. apply Rsum_ext. intros i _. apply Rsum_ext. intros j _. apply (Rsum_tele c (fun k => f i j k)).
Qed.

Lemma totals N1 N2 N3 Dt dx1 dx2 dx3 F1 F2 F3 (U dU : field) ip : dx1 <> 0 -> dx2 <> 0 -> dx3 <> 0 ->
  Rsum3 N1 N2 N3 (fun i j k => update Dt dx1 dx2 dx3 F1 F2 F3 (U i j k) (dU i j k) i j k ip) =
  Rsum3 N1 N2 N3 (fun i j k => U i j k ip) +
  Dt * (Rsum2 N2 N3 (fun j k => F1 0%Z j k ip - F1 (Z.of_nat N1) j k ip) / dx1 +
        Rsum2 N1 N3 (fun i k => F2 i 0%Z k ip - F2 i (Z.of_nat N2) k ip) / dx2 +
        Rsum2 N1 N2 (fun i j => F3 i j 0%Z ip - F3 i j (Z.of_nat N3) ip) / dx3 +
        Rsum3 N1 N2 N3 (fun i j k => dU i j k ip)).
Proof.
  intros H1 H2 H3.
  rewrite (R3_ext _ _ _ _ (fun i j k => U i j k ip + (- (Dt / dx1) * (F1 (i + 1)%Z j k ip - F1 i j k ip) +
     (- (Dt / dx2) * (F2 i (j + 1)%Z k ip - F2 i j k ip) + (- (Dt / dx3) * (F3 i j (k + 1)%Z ip - F3 i j k ip) + Dt * dU i j k ip))))).
  2: { intros. unfold update. field. auto. }
  rewrite !R3_plus, !R3_scal.
  rewrite (R3_tele1 _ _ _ (fun i j k => F1 i j k ip)), (R3_tele2 _ _ _ (fun i j k => F2 i j k ip)),
    (R3_tele3 _ _ _ (fun i j k => F3 i j k ip)).
  assert (N : forall a b (f h : Z -> Z -> R), Rsum2 a b (fun x y => f x y - h x y) = - Rsum2 a b (fun x y => h x y - f x y)).
  { intros. unfold Rsum2. replace (- _) with (-1 * Rsum a (fun i => Rsum b (fun j => h i j - f i j))) by ring.
    rewrite <- Rsum_scal. apply Rsum_ext. intros. rewrite <- Rsum_scal. apply Rsum_ext. intros. ring. }
  rewrite (N N2 N3), (N N1 N3), (N N1 N2). field. auto.
Qed.

Lemma source_none g S ip : (ip < 1 \/ 4 < ip)%nat -> source g S ip = 0.
Proof.
  intros H. unfold source. destruct (Nat.leb_spec 1 ip), (Nat.leb_spec ip 4); cbn [andb]; try ring; lia.
Qed.

Lemma periodic_totals N1 N2 N3 Dt dx1 dx2 dx3 F1 F2 F3 (U S : field) g ip : dx1 <> 0 -> dx2 <> 0 -> dx3 <> 0 ->
  (forall j k, F1 (Z.of_nat N1) j k ip = F1 0%Z j k ip) ->
  (forall i k, F2 i (Z.of_nat N2) k ip = F2 i 0%Z k ip) ->
  (forall i j, F3 i j (Z.of_nat N3) ip = F3 i j 0%Z ip) ->
  (ip < 1 \/ 4 < ip)%nat ->
  Rsum3 N1 N2 N3 (fun i j k => update Dt dx1 dx2 dx3 F1 F2 F3 (U i j k) (source (g i j) (S i j k)) i j k ip) =
  Rsum3 N1 N2 N3 (fun i j k => U i j k ip).
Proof.
  intros H1 H2 H3 P1 P2 P3 S0.
  rewrite (totals _ _ _ _ _ _ _ _ _ _ U (fun i j k => source (g i j) (S i j k))) by assumption.
  assert (Z2 : forall a b (f : Z -> Z -> R), (forall x y, f x y = 0) -> Rsum2 a b f = 0).
  { intros a b f H. unfold Rsum2. rewrite <- (Rsum_zero a). apply Rsum_ext. intros. rewrite <- (Rsum_zero b). apply Rsum_ext. intros. apply H. }
  rewrite !Z2; [|intros; rewrite P3; ring|intros; rewrite P2; ring|intros; rewrite P1; ring].
  replace (Rsum3 N1 N2 N3 (fun i j k => source (g i j) (S i j k) ip)) with 0; [field; auto|].
  symmetry. unfold Rsum3. rewrite <- (Rsum_zero N1). apply Rsum_ext. intros. apply Z2. intros. now apply source_none.
Qed.

Lemma ct_keeps F1 F2 F3 N1 N2 N3 a b c i j k ip : ip <> B1 -> ip <> B2 -> ip <> B3 ->
  ct1 F1 F2 F3 N1 N2 N3 a b i j k ip = F1 i j k ip /\ ct2 F1 F2 F3 N1 N2 N3 c b i j k ip = F2 i j k ip /\
  ct3 F1 F2 F3 N1 N2 N3 c a i j k ip = F3 i j k ip.
Proof.
  intros X Y Z. unfold ct1, ct2, ct3. apply Nat.eqb_neq in X, Y, Z. rewrite X, Y, Z.
  destruct (in_loop N1 (N2 - 1) (N3 - 1) i j k), (in_loop (N1 - 1) N2 (N3 - 1) i j k), (in_loop (N1 - 1) (N2 - 1) N3 i j k); auto.
Qed.

(** ** Numerical flux *)
Section LR.
Variable Pt : Type.
Variable phys : nat -> Pt -> nat -> R.
Variable vchar : Pt -> R * R.

Lemma lr_small g dir l r : g < SMALL -> forall ip, fst (lr_to_flux Pt phys vchar g dir l r) ip = 0.
Proof. intros H ip. unfold lr_to_flux. now rewrite Rltb_true. Qed.

Lemma lr_unfold g dir l r : SMALL <= g -> exists c,
  lr_to_flux Pt phys vchar g dir l r =
    (fun ip => 5 / 10 * (phys dir l ip + phys dir r ip - c * (phys 0%nat r ip - phys 0%nat l ip)), c) /\
  c = Rmax (Rmax (Rmax 0 (fst (vchar l))) (fst (vchar r))) (Rmax (Rmax 0 (- snd (vchar l))) (- snd (vchar r))).
Proof.
  intros H. unfold lr_to_flux. rewrite Rltb_false by exact H.
  destruct (vchar l) as [a b], (vchar r) as [c d]. cbn [fst snd].
  eexists. split; [reflexivity|]. rewrite !MY_MAX_max.
  pose proof (Rmax_l 0 a). pose proof (Rmax_l (Rmax 0 a) c).
  pose proof (Rmax_l 0 (- b)). pose proof (Rmax_l (Rmax 0 (- b)) (- d)).
  rewrite !Rabs_right by lra. reflexivity.
Qed.

Lemma lr_consistent g dir p : SMALL <= g ->
  forall ip, fst (lr_to_flux Pt phys vchar g dir p p) ip = phys dir p ip.
Proof. intros H ip. destruct (lr_unfold g dir p p H) as (c & -> & _). cbn [fst]. field. Qed.

Lemma lr_speed g dir l r : SMALL <= g -> let c := snd (lr_to_flux Pt phys vchar g dir l r) in
  forall p, p = l \/ p = r -> forall s, snd (vchar p) <= s <= fst (vchar p) -> Rabs s <= c.
Proof.
  intros H c p Hp s Hs. unfold c. destruct (lr_unfold g dir l r H) as (c' & -> & ->). cbn [snd].
  assert (forall a b, a <= Rmax a b /\ b <= Rmax a b) as M by (intros; split; [apply Rmax_l|apply Rmax_r]).
  pose proof (M 0 (fst (vchar l))). pose proof (M (Rmax 0 (fst (vchar l))) (fst (vchar r))).
  pose proof (M 0 (- snd (vchar l))). pose proof (M (Rmax 0 (- snd (vchar l))) (- snd (vchar r))).
  pose proof (M (Rmax (Rmax 0 (fst (vchar l))) (fst (vchar r))) (Rmax (Rmax 0 (- snd (vchar l))) (- snd (vchar r)))).
  apply Rabs_le. destruct Hp; subst p; lra.
Qed.
Lemma lr_speed_least g dir l r : SMALL <= g -> let c := snd (lr_to_flux Pt phys vchar g dir l r) in
  c = 0 \/ c = fst (vchar l) \/ c = fst (vchar r) \/ c = - snd (vchar l) \/ c = - snd (vchar r).
Proof.
  intros H c. unfold c. destruct (lr_unfold g dir l r H) as (c' & -> & ->). cbn [snd].
  unfold Rmax. repeat match goal with |- context [Rle_dec ?a ?b] => destruct (Rle_dec a b) end; tauto.
Qed.

(** Reflection of the direction: [refl] maps states, [par ip] is the parity of
    conserved quantity [ip]. *)
Lemma lr_reflect refl par g dir l r :
  (forall p ip, phys 0%nat (refl p) ip = par ip * phys 0%nat p ip) ->
  (forall p ip, phys dir (refl p) ip = - par ip * phys dir p ip) ->
  (forall p, vchar (refl p) = (- snd (vchar p), - fst (vchar p))) ->
  (forall ip, fst (lr_to_flux Pt phys vchar g dir (refl r) (refl l)) ip =
    - par ip * fst (lr_to_flux Pt phys vchar g dir l r) ip) /\
  snd (lr_to_flux Pt phys vchar g dir (refl r) (refl l)) = snd (lr_to_flux Pt phys vchar g dir l r).
Proof.
  intros HU HF HV. destruct (Rlt_le_dec g SMALL) as [L|L].
  { unfold lr_to_flux. rewrite Rltb_true by exact L. cbn [fst snd]. split; [intros; ring|reflexivity]. }
  destruct (lr_unfold g dir l r L) as (c & -> & Ec).
  destruct (lr_unfold g dir (refl r) (refl l) L) as (c' & -> & Ec'). cbn [fst snd].
  assert (c' = c) as ->.
  { rewrite Ec, Ec', !HV. cbn [fst snd]. rewrite !Ropp_involutive.
    assert (M : forall a b, Rmax (Rmax 0 a) b = Rmax (Rmax 0 b) a)
      by (intros; rewrite <- !Rmax_assoc, (Rmax_comm a b); reflexivity).
    rewrite Rmax_comm, (M (fst (vchar r))), (M (- snd (vchar r))). reflexivity. }
  split; [|reflexivity]. intros ip. rewrite !HU, !HF. ring.
Qed.

(** A quantity carried with a speed within the signal speeds of both states
    (flux = speed times density): the flux increases with the left density and
    decreases with the right one (no anti-diffusion). *)
Lemma lr_monotone g dir l r ip a : SMALL <= g ->
  snd (vchar l) <= a <= fst (vchar l) ->
  phys dir l ip = a * phys 0%nat l ip -> phys dir r ip = a * phys 0%nat r ip ->
  exists x y, 0 <= x /\ 0 <= y /\ x - y = a /\
  fst (lr_to_flux Pt phys vchar g dir l r) ip = x * phys 0%nat l ip - y * phys 0%nat r ip.
Proof.
  intros H Ha Fl Fr. pose proof (lr_speed g dir l r H l (or_introl eq_refl) a Ha) as C. cbv zeta in C.
  destruct (lr_unfold g dir l r H) as (c & E & _). rewrite E in *. cbn [fst snd] in *.
  exists ((c + a) / 2), ((c - a) / 2). rewrite Fl, Fr.
  pose proof (Rle_abs a). pose proof (Rle_abs (- a)). rewrite Rabs_Ropp in *.
  repeat split; try lra; try field.
Qed.
End LR.

Lemma courant cour dx1 dx2 dx3 c1 c2 c3 : 0 < cour -> 0 < dx1 -> 0 < dx2 -> 0 < dx3 ->
  0 < c1 -> 0 < c2 -> 0 < c3 ->
  let dt := fluxcalc_dt cour dx1 dx2 dx3 c1 c2 c3 in
  0 < dt /\ dt * (c1 / dx1 + c2 / dx2 + c3 / dx3) = cour /\
  dt * c1 < cour * dx1 /\ dt * c2 < cour * dx2 /\ dt * c3 < cour * dx3.
Proof.
  intros.
  assert (0 < c1 / dx1) by (apply Rdiv_lt_0_compat; lra).
  assert (0 < c2 / dx2) by (apply Rdiv_lt_0_compat; lra).
  assert (0 < c3 / dx3) by (apply Rdiv_lt_0_compat; lra).
  assert (E : dt = cour / (c1 / dx1 + c2 / dx2 + c3 / dx3)).
  { unfold dt, fluxcalc_dt.
    replace (1 / (cour * dx1 / c1)) with (c1 / dx1 / cour) by (field; lra).
    replace (1 / (cour * dx2 / c2)) with (c2 / dx2 / cour) by (field; lra).
    replace (1 / (cour * dx3 / c3)) with (c3 / dx3 / cour) by (field; lra).
    generalize dependent (c1 / dx1). generalize dependent (c2 / dx2). generalize dependent (c3 / dx3).
    intros. field. lra. }
  assert (P : 0 < dt) by (rewrite E; apply Rdiv_lt_0_compat; lra).
  assert (S : dt * (c1 / dx1 + c2 / dx2 + c3 / dx3) = cour).
  { rewrite E. unfold Rdiv at 1. rewrite Rmult_assoc, Rinv_l by lra. ring. }
  assert (X1 : c1 = c1 / dx1 * dx1) by (field; lra).
  assert (X2 : c2 = c2 / dx2 * dx2) by (field; lra).
  assert (X3 : c3 = c3 / dx3 * dx3) by (field; lra).
  split; [exact P|]. split; [exact S|].
  assert (0 < dt * (c1 / dx1)) by nra. assert (0 < dt * (c2 / dx2)) by nra. assert (0 < dt * (c3 / dx3)) by nra.
  repeat split.
  - rewrite X1 at 1. rewrite <- Rmult_assoc. apply Rmult_lt_compat_r; lra.
  - rewrite X2 at 1. rewrite <- Rmult_assoc. apply Rmult_lt_compat_r; lra.
  - rewrite X3 at 1. rewrite <- Rmult_assoc. apply Rmult_lt_compat_r; lra.
Qed.
