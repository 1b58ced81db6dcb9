(** Where the histograms go wrong. *)
From Coq Require Import Reals Bool ZArith List Arith Lia Lra.
From Flocq Require Import Core.
From Verif Require Import RLib XLib IntLib BinModel TabRound RzModel RzSpec RzProofs.
Import ListNotations.
Open Scope R_scope.

(** ** Double precision *)
Lemma up_rounds x s : double x -> 1 <= x -> 0 <= s <= bpow radix2 (-55) -> rnd64 (x + s) = x.
Proof.
  intros F L S. apply Rle_antisym.
  - apply round_N_le_midp; [apply b64_valid|exact F|]. rewrite succ_eq_pos by lra.
    pose proof (ulp_FLT_gt radix2 (-1074) 53 x) as U. rewrite Rabs_right in U by lra.
    assert (1 * bpow radix2 (- (53)) <= x * bpow radix2 (-53)) by (apply Rmult_le_compat_r; [apply bpow_ge_0|lra]).
    assert (Q : bpow radix2 (-55) < bpow radix2 (-54)) by (apply bpow_lt; lia).
    assert (Q' : bpow radix2 (-53) = 2 * bpow radix2 (-54)) by (change 2 with (bpow radix2 1); rewrite <- bpow_plus; reflexivity).
    fold b64 in U. unfold b64 in *. change (- (53))%Z with (-53)%Z in *. lra.
  - assert (rnd64 x <= rnd64 (x + s)) by (apply round_le; [apply b64_valid|apply valid_rnd_N|lra]).
    assert (E : rnd64 x = x) by (apply round_generic; [apply valid_rnd_N|exact F]). lra.
Qed.
Lemma double_54 : double (5 / 4).
Proof.
  apply generic_format_FLT. exists (Float radix2 5 (-2)); [unfold F2R; cbn; lra|cbn; lia|cbn; lia].
Qed.
(** with the defaults, what lies at 40 or beyond is counted in bin 32 of 0 to 31 *)
Lemma edge_bin v : 40 <= v -> bin_of rnd64 (MY_MIN v (rnd64 (Rabs 40 - SMALL))) (rnd64 (40 / INR 32)) = Some 32%Z.
Proof.
  intros V. assert (D : 40 / INR 32 = 5 / 4) by (rewrite (INR_IZR_INZ 32); change (Z.of_nat 32) with 32%Z; lra). rewrite D. rewrite (Rabs_right 40) by lra.
  pose proof SMALL_fits as S. change TabModel.SMALL with SMALL in S.
  rewrite (clamp_rounds 40 SMALL); [|apply (double_int 40); cbv; discriminate|lra|exact S].
  assert (E : rnd64 (5 / 4) = 5 / 4) by (apply round_generic; [apply valid_rnd_N|apply double_54]). rewrite E.
  unfold bin_of. rewrite (up_rounds (5 / 4) SMALL); [|apply double_54|lra|exact S].
  rewrite MY_MIN_min, Rmin_right by lra. cbn [xdiv]. destruct (Reqb_spec (5 / 4) 0); [lra|]. cbn [xround].
  replace (40 / (5 / 4)) with 32 by lra. rewrite (rnd_int 32) by (cbv; discriminate). apply to_int_unique; [lia|lra].
Qed.
(** IEEE 754 binary32 *)
Definition b32 : Z -> Z := FLT_exp (-149) 24.
Definition rnd32 (x : R) : R := round radix2 b32 ZnearestE x.
Lemma rnd32_int z : (Z.abs z < 2 ^ 24)%Z -> rnd32 (IZR z) = IZR z.
Proof.
  intros H. apply round_generic; [apply valid_rnd_N|]. apply generic_format_FLT. exists (Float radix2 z 0); [unfold F2R; cbn; lra|cbn; lia|cbn; lia].
Qed.
Definition torus : cfg := Cfg 32 40 40 (fun _ => 0) (fun _ => 96) cart_flat.
Definition far : packet := Pk 1 false false (fun a => if (a =? 1)%nat then 3 else 2)%Z (fun _ => 0%Z).
Lemma edge_refuted : exists c ps p, (0 < nbins c)%nat /\ 0 < rz_rmax c /\ 0 < rz_zmax c /\ everyone ps = [p] /\ tracer p = false /\
  (forall q dir, In q ps -> pgs q dir = made_on p dir) /\
  generate_rz_histograms rnd64 rnd32 c ps (map (fun _ => cleared c) ps) = None.
Proof.
  exists torus, [Proc (fun _ => 0%Z) [[far]]], far. split; [cbn; lia|]. split; [cbn; lra|]. split; [cbn; lra|]. split; [reflexivity|]. split; [reflexivity|].
  split; [intros q dir [<-|[]]; reflexivity|].
  assert (C1 : where_made torus (fun _ => 0%Z) far 1%nat = 48) by (unfold where_made, torus, cart_flat, coord, coord1, NG; cbn -[IZR]; cbn [Z.add]; lra).
  assert (C2 : where_made torus (fun _ => 0%Z) far 2%nat = - 48) by (unfold where_made, torus, cart_flat, coord, coord1, NG; cbn -[IZR]; cbn [Z.add]; lra).
  assert (I : ir rnd64 rnd32 torus (fun _ => 0%Z) far = Some 32%Z).
  { unfold ir. rewrite C1, C2. unfold delta, rcyl. change (rz_rmax torus) with 40. change (nbins torus) with 32%nat. apply edge_bin.
    replace (48 * 48) with 2304 by lra. replace (- 48 * - 48) with 2304 by lra. rewrite (rnd_int 2304) by (cbv; discriminate).
    replace (2304 + 2304) with 4608 by lra. rewrite (rnd_int 4608) by (cbv; discriminate). unfold sqrtf. rewrite (rnd32_int 4608) by (cbv; reflexivity).
    rewrite <- (rnd32_int 40) by (cbv; reflexivity). apply round_le; [apply FLT_exp_valid; reflexivity|apply valid_rnd_N|].
    rewrite <- (sqrt_square 40) by lra. apply sqrt_le_1_alt. lra. }
  unfold generate_rz_histograms. cbn [map locals]. unfold local. cbn [threads concat app pgs walk]. unfold one. rewrite I.
  destruct (iz rnd64 torus (fun _ => 0%Z) far) as [z|]; [|reflexivity].
  replace (add_at (hr (cleared torus)) 32 (w far)) with (@None (list R)) by reflexivity. reflexivity.
Qed.

(** ** A packet that changed the process *)
Definition box : cfg := Cfg 2 2 2 (fun _ => 0) (fun _ => 1) cart_flat.
Definition start1 (a : nat) : Z := if (a =? 1)%nat then 1%Z else 0%Z.
Definition gone (m : nat -> Z) : packet := Pk 1 false false (fun _ => 3%Z) m.
Lemma box_fits : fits box.
Proof. unfold fits, box. cbn [nbins rz_rmax rz_zmax]. assert (SMALL <= 1) by (unfold SMALL; lra). repeat split; try lia; lra. Qed.
Lemma flat_pointwise n a b s d : pointwise (Cfg n a b s d cart_flat).
Proof. intros x y A B C i I. cbn. unfold cart_flat. destruct i as [|[|[|[|i]]]]; try lia; assumption. Qed.
Lemma falls_num n m v b : (b < n)%nat -> INR b * (m / INR n + SMALL) <= v -> v < INR (S b) * (m / INR n + SMALL) -> v <= m - SMALL -> falls n m v b.
Proof. intros B A C D. unfold falls. change (/ 10 ^ 20) with SMALL. rewrite Rmin_left by lra. auto. Qed.
Lemma box_low : falls 2 2 (sqrt ((1 / 2) ^ 2 + (1 / 2) ^ 2)) 0 /\ falls 2 2 (sqrt ((3 / 2) ^ 2 + (1 / 2) ^ 2)) 1 /\ falls 2 2 (Rabs (1 / 2)) 0.
Proof.
  assert (S : 0 < SMALL < / 100) by (split; [apply SMALL_pos|unfold SMALL; lra]). rewrite (Rabs_right (1 / 2)) by lra.
  assert (A : sqrt ((1 / 2) ^ 2 + (1 / 2) ^ 2) <= 1) by (rewrite <- sqrt_1 at 3; apply sqrt_le_1_alt; lra).
  assert (B : 3 / 2 <= sqrt ((3 / 2) ^ 2 + (1 / 2) ^ 2)).
  { apply Rsqr_incr_0_var; [|apply sqrt_pos]. unfold Rsqr. rewrite sqrt_sqrt by lra. lra. }
  assert (C : sqrt ((3 / 2) ^ 2 + (1 / 2) ^ 2) <= 16 / 10).
  { apply Rsqr_incr_0_var; [|lra]. unfold Rsqr. rewrite sqrt_sqrt by lra. lra. }
  pose proof (sqrt_pos ((1 / 2) ^ 2 + (1 / 2) ^ 2)).
  split; [|split]; apply falls_num; try lia; cbn [INR]; lra.
Qed.
Lemma moved_refuted : exists c ps p b h, fits c /\ everyone ps = [p] /\ w p = 1 /\ tracer p = false /\ falls (nbins c) (rz_rmax c) (radius c p) b /\
  generate_rz_histograms exact exact c ps (map (fun _ => cleared c) ps) = Some (map (fun _ => h) ps) /\ nth b (hr h) 0 = 0.
Proof.
  set (ps m := [Proc (fun _ => 0%Z) []; Proc start1 [[gone m]]]). destruct box_low as (A & B & C).
  assert (E : forall q p, In q (ps start1) -> In p (concat (threads q)) -> (forall dir, (1 <= dir <= 3)%nat -> pgs q dir = made_on p dir) /\
    falls (nbins box) (rz_rmax box) (radius box p) ((fun _ => 1%nat) p) /\ falls (nbins box) (rz_zmax box) (height box p) ((fun _ => 0%nat) p)).
  { intros q p [<-|[<-|[]]] I; [destruct I|]. destruct I as [<-|[]]. split; [reflexivity|]. split.
    - unfold radius, box, birth, cart_flat. cbn [nbins rz_rmax cart_coord startx delx gone origin made_on start1 Nat.eqb]. replace (0 + (IZR (3 + 1) - 3 + 1 / 2) * 1) with (3 / 2) by (change (3 + 1)%Z with 4%Z; lra).
      replace (0 + (IZR (3 + 0) - 3 + 1 / 2) * 1) with (1 / 2) by (change (3 + 0)%Z with 3%Z; lra). exact B.
    - unfold height, box, birth, cart_flat. cbn [nbins rz_zmax cart_coord startx delx gone origin made_on start1 Nat.eqb]. replace (0 + (IZR (3 + 0) - 3 + 1 / 2) * 1) with (1 / 2) by (change (3 + 0)%Z with 3%Z; lra). exact C. }
  destruct (hist_ok box _ _ (ps start1) box_fits (flat_pointwise _ _ _ _ _) E) as (h & G & (_ & _ & _ & _ & K)).
  exists box, (ps (fun _ => 0%Z)), (gone (fun _ => 0%Z)), 0%nat, h. split; [exact box_fits|]. split; [reflexivity|]. split; [reflexivity|]. split; [reflexivity|]. split.
  - unfold radius, box, birth, cart_flat. cbn [nbins rz_rmax cart_coord startx delx gone origin made_on]. replace (0 + (IZR (3 + 0) - 3 + 1 / 2) * 1) with (1 / 2) by (change (3 + 0)%Z with 3%Z; lra). exact A.
  - split; [exact G|]. destruct (K 0%nat) as (H & _); [cbn; lia|]. rewrite H. cbn. lra.
Qed.

(** ** Tracers *)
Definition trac : packet := Pk 1 true false (fun _ => 3%Z) (fun _ => 0%Z).
Lemma box_ok t : let p := Pk 1 t false (fun _ => 3%Z) (fun _ => 0%Z) in let ps := [Proc (fun _ => 0%Z) [[p]]] in
  exists h, generate_rz_histograms exact exact box ps (map (fun _ => cleared box) ps) = Some (map (fun _ => h) ps) /\ total (hr h) = 1.
Proof.
  intros p ps. destruct box_low as (A & _ & C).
  assert (E : forall q p, In q ps -> In p (concat (threads q)) -> (forall dir, (1 <= dir <= 3)%nat -> pgs q dir = made_on p dir) /\
    falls (nbins box) (rz_rmax box) (radius box p) ((fun _ => 0%nat) p) /\ falls (nbins box) (rz_zmax box) (height box p) ((fun _ => 0%nat) p)).
  { intros q p' [<-|[]] [<-|[]]. split; [reflexivity|]. split.
    - unfold radius, box, birth, cart_flat, p. cbn [nbins rz_rmax cart_coord startx delx origin made_on]. replace (0 + (IZR (3 + 0) - 3 + 1 / 2) * 1) with (1 / 2) by (change (3 + 0)%Z with 3%Z; lra). exact A.
    - unfold height, box, birth, cart_flat, p. cbn [nbins rz_zmax cart_coord startx delx origin made_on]. replace (0 + (IZR (3 + 0) - 3 + 1 / 2) * 1) with (1 / 2) by (change (3 + 0)%Z with 3%Z; lra). exact C. }
  destruct (hist_ok box _ _ ps box_fits (flat_pointwise _ _ _ _ _) E) as (h & G & K). exists h. split; [exact G|].
  destruct (totals _ _ _ _ _ K) as (T & _); [intros q _; cbn; lia|]. rewrite T. cbn. lra.
Qed.
Lemma tracer_refuted : exists c ps h, fits c /\ (forall p, In p (everyone ps) -> tracer p = true) /\
  generate_rz_histograms exact exact c ps (map (fun _ => cleared c) ps) = Some (map (fun _ => h) ps) /\ 0 < total (hr h).
Proof.
  destruct (box_ok true) as (h & G & T). exists box, [Proc (fun _ => 0%Z) [[trac]]], h. split; [exact box_fits|]. split; [intros p [<-|[]]; reflexivity|]. split; [exact G|]. lra.
Qed.

(** ** A negative range *)
Lemma negative_refuted : exists c p, (0 < nbins c)%nat /\ rz_rmax c < 0 /\ exists k, ir exact exact c (made_on p) p = Some k /\ (k < 0)%Z.
Proof.
  exists (Cfg 2 (-2) (-2) (fun _ => 0) (fun _ => 3) cart_flat), (gone (fun _ => 0%Z)). split; [cbn; lia|]. split; [cbn; lra|].
  exists (-2)%Z. split; [|lia]. unfold ir, where_made, cart_flat, coord, coord1, NG, delta, rcyl, sqrtf, exact, bin_of, xround.
  cbn [nbins rz_rmax cart_coord startx delx gone origin made_on start dx gs centred].
  replace (0 + (IZR (3 + 0) + 1 / 2 - 3) * 3) with (3 / 2) by (change (3 + 0)%Z with 3%Z; lra).
  assert (S : 0 < SMALL < / 100) by (split; [apply SMALL_pos|unfold SMALL; lra]).
  assert (B : 2 <= sqrt (3 / 2 * (3 / 2) + 3 / 2 * (3 / 2))).
  { apply Rsqr_incr_0_var; [|apply sqrt_pos]. unfold Rsqr. rewrite sqrt_sqrt by lra. lra. }
  rewrite MY_MIN_min. replace (Rabs (-2)) with 2 by (rewrite Rabs_left; lra). rewrite Rmin_right by lra. cbn [INR]. replace (-2 / (1 + 1) + SMALL) with (- (1 - SMALL)) by lra.
  cbn [xdiv]. destruct (Reqb_spec (- (1 - SMALL)) 0); [lra|].
  replace ((2 - SMALL) / - (1 - SMALL)) with (- ((2 - SMALL) / (1 - SMALL))) by (field; lra).
  assert (Q : 2 < (2 - SMALL) / (1 - SMALL)) by (apply Rmult_lt_reg_r with (1 - SMALL); [lra|]; replace ((2 - SMALL) / (1 - SMALL) * (1 - SMALL)) with (2 - SMALL) by (field; lra); lra).
  assert (Q' : (2 - SMALL) / (1 - SMALL) < 3) by (apply Rmult_lt_reg_r with (1 - SMALL); [lra|]; replace ((2 - SMALL) / (1 - SMALL) * (1 - SMALL)) with (2 - SMALL) by (field; lra); lra).
  assert (T : truncZ (- ((2 - SMALL) / (1 - SMALL))) = (-2)%Z).
  { unfold truncZ. rewrite Rltb_true by lra. rewrite Ropp_involutive, (Int_part_unique _ 2) by lra. reflexivity. }
  unfold to_int. rewrite T. reflexivity.
Qed.
Lemma both_pointwise n a b s d bl : (forall x y, x 1%nat = y 1%nat -> x 2%nat = y 2%nat -> x 3%nat = y 3%nat -> bl x = bl y) ->
  pointwise (Cfg n a b s d cart_flat) /\ pointwise (Cfg n a b s d (cart_mks bl)).
Proof.
  intros B. split; [apply flat_pointwise|]. intros x y X Y Z i I. cbn [cart_coord]. unfold cart_mks. rewrite (B x y X Y Z), Z. reflexivity.
Qed.
