(** The clamp of interp_1d in double precision. *)
From Coq Require Import Reals Bool ZArith List Lia Lra.
From Flocq Require Import Core.
From Verif Require Import RLib XLib IntLib TabModel TabSpec TabProofs.
Import ListNotations.
Open Scope R_scope.

(** IEEE 754 binary64, round to nearest, ties to even *)
Definition b64 : Z -> Z := FLT_exp (-1074) 53.
Definition double (x : R) : Prop := generic_format radix2 b64 x.
Definition rnd64 (x : R) : R := round radix2 b64 ZnearestE x.
#[global] Instance prec53 : Prec_gt_0 53.
Proof. reflexivity. Qed.
Lemma b64_valid : Valid_exp b64.
Proof. apply FLT_exp_valid. reflexivity. Qed.
#[global] Existing Instance b64_valid.

Lemma double_half : double (/ 2).
Proof. replace (/ 2) with (bpow radix2 (-1)) by (cbn; lra). apply generic_format_bpow. cbv. discriminate. Qed.
Lemma gap x : double x -> 1 <= x -> bpow radix2 (-54) < x - pred radix2 b64 x.
Proof.
  intros F L.
  assert (P : / 2 <= pred radix2 b64 x) by (apply pred_ge_gt; [apply b64_valid|apply double_half|exact F|lra]).
  assert (E : pred radix2 b64 x + ulp radix2 b64 (pred radix2 b64 x) = x) by (apply pred_plus_ulp; [apply b64_valid|lra|exact F]).
  assert (U : Rabs (pred radix2 b64 x) * bpow radix2 (-53) < ulp radix2 b64 (pred radix2 b64 x)).
  { apply (ulp_FLT_gt radix2 (-1074) 53). }
  rewrite Rabs_right in U by lra. replace (bpow radix2 (-54)) with (/ 2 * bpow radix2 (-53)).
  2:{ change (/ 2) with (bpow radix2 (-1)). rewrite <- bpow_plus. reflexivity. }
  assert (/ 2 * bpow radix2 (-53) <= pred radix2 b64 x * bpow radix2 (-53)) by (apply Rmult_le_compat_r; [apply bpow_ge_0|lra]). lra.
Qed.
(** taking away anything up to 2^-55 leaves a double of at least one as it was *)
Lemma clamp_rounds x s : double x -> 1 <= x -> 0 <= s <= bpow radix2 (-55) -> rnd64 (x - s) = x.
Proof.
  intros F L S. pose proof (gap x F L) as G.
  assert (Q : bpow radix2 (-55) = / 2 * bpow radix2 (-54)).
  { change (/ 2) with (bpow radix2 (-1)). rewrite <- bpow_plus. reflexivity. }
  apply Rle_antisym.
  - assert (rnd64 (x - s) <= rnd64 x) by (apply round_le; [apply b64_valid|apply valid_rnd_N|lra]).
    assert (E : rnd64 x = x) by (apply round_generic; [apply valid_rnd_N|exact F]). lra.
  - apply round_N_ge_midp; [apply b64_valid|exact F|]. lra.
Qed.
Lemma SMALL_fits : 0 <= SMALL <= bpow radix2 (-55).
Proof.
  split; [left; apply SMALL_pos|]. unfold SMALL. change (-55)%Z with (- (55))%Z. rewrite bpow_opp. apply Rinv_le_contravar; [apply bpow_gt_0|].
  change (bpow radix2 55) with (IZR (Zpower_pos 2 55)). change 10 with (IZR 10). rewrite pow_IZR. apply IZR_le. cbv. discriminate.
Qed.
Lemma double_int z : (Z.abs z <= 2 ^ 53)%Z -> double (IZR z).
Proof.
  intros H. replace (IZR z) with (F2R (Float radix2 z 0)) by (unfold F2R; cbn; lra).
  destruct (Z.eq_dec z 0) as [->|N]; [rewrite F2R_0; apply generic_format_0|].
  destruct (Z.eq_dec (Z.abs z) (2 ^ 53)) as [E|E].
  - assert (C : z = (2 ^ 53)%Z \/ z = (- 2 ^ 53)%Z) by lia.
    assert (B : double (bpow radix2 53)) by (apply generic_format_bpow; cbv; discriminate).
    destruct C as [-> | ->].
    + replace (F2R _) with (bpow radix2 53); [exact B|]. unfold F2R. cbn. lra.
    + replace (F2R _) with (- bpow radix2 53); [apply generic_format_opp, B|]. unfold F2R. cbn. lra.
  - apply generic_format_FLT. exists (Float radix2 z 0); [reflexivity|cbn [Fnum]; cbn; lia|cbn; lia].
Qed.
Lemma rnd_int z : (Z.abs z <= 2 ^ 53)%Z -> rnd64 (IZR z) = IZR z.
Proof. intros H. apply round_generic; [apply valid_rnd_N|apply double_int, H]. Qed.
(** Without rounding the rounded code is the code. *)
Lemma rnd_id x xmin xmax imin imax tx ty : (imin + 2 <= imax)%Z -> xmin < xmax ->
  option_map Fin (interp_1d_rnd (fun r => r) SMALL x xmin xmax imin imax tx ty) = interp_1d (Fin x) xmin xmax imin imax tx ty.
Proof.
  intros I L. assert (N : 1 <= IZR (imax - imin - 1)) by (apply (IZR_le 1); lia).
  assert (D : (xmax - xmin) / IZR (imax - imin - 1) <> 0).
  { apply Rgt_not_eq. apply Rmult_lt_0_compat; [lra|apply Rinv_0_lt_compat; lra]. }
  unfold interp_1d_rnd, interp_1d. cbn [xltb]. rewrite (xdiv_fin (xmax - xmin)) by lra.
  set (d := (xmax - xmin) / IZR (imax - imin - 1)) in *.
  destruct (Rltb x xmin); cbn [xltb]; match goal with |- context [if ?c then Fin _ else _] => destruct c end;
    unfold xsub at 1; cbn [xopp xadd]; rewrite xdiv_fin by exact D; cbn [xadd]; unfold Rminus;
    (destruct (to_int _) as [ix|]; [|reflexivity]); (destruct (rd tx ix); [|reflexivity]); (destruct (rd ty ix); [|reflexivity]); (destruct (rd ty (ix + 1)); [|reflexivity]);
    cbn [option_map]; unfold xsub; cbn [xopp xadd]; rewrite xdiv_fin by exact D; reflexivity.
Qed.
(** Three points, and an abscissa above the table. *)
Lemma above_refuted : exists x xmin xmax imax tab_x tab_y d, double x /\ double xmin /\ double xmax /\ xmax < x /\
  uniform tab_x 0 imax xmin d /\ xmax = xmin + IZR (imax - 1) * d /\ Z.of_nat (length tab_y) = imax /\
  interp_1d_rnd rnd64 SMALL x xmin xmax 0 imax tab_x tab_y = None.
Proof.
  exists 4, 1, 3, 3%Z, [1; 2; 3], [1; 1; 1], 1.
  split; [apply (double_int 4); cbv; discriminate|]. split; [apply (double_int 1); cbv; discriminate|]. split; [apply (double_int 3); cbv; discriminate|].
  split; [lra|]. split.
  { intros i H. assert (C : (i = 0 \/ i = 1 \/ i = 2)%Z) by lia. destruct C as [->|[->| ->]]; rewrite Z.sub_0_r;
      [change (Some 1 = Some (1 + 0 * 1))|change (Some 2 = Some (1 + 1 * 1))|change (Some 3 = Some (1 + 2 * 1))]; apply f_equal; lra. }
  split; [change (3 - 1)%Z with 2%Z; lra|]. split; [reflexivity|].
  unfold interp_1d_rnd. cbv zeta. rewrite (Rltb_false 4 1) by lra. rewrite (Rltb_true 3 4) by lra.
  rewrite (clamp_rounds 3 SMALL); [|apply (double_int 3); cbv; discriminate|lra|exact SMALL_fits].
  replace (3 - 1) with 2 by lra. rewrite (rnd_int 2) by (cbv; discriminate). change (3 - 0 - 1)%Z with 2%Z.
  replace (2 / 2) with 1 by lra. rewrite (rnd_int 1) by (cbv; discriminate). replace (2 / 1) with 2 by lra. rewrite (rnd_int 2) by (cbv; discriminate).
  replace (0 + 2) with 2 by lra. rewrite (rnd_int 2) by (cbv; discriminate).
  rewrite (to_int_unique 2 2) by (lia || lra). rewrite (rd_none [1; 1; 1] (2 + 1)) by (cbn; lia).
  destruct (rd _ _); [|reflexivity]. destruct (rd _ _); reflexivity.
Qed.
