(** Conversion of doubles to int in C, and array reads that may fall outside. *)
From Coq Require Import Reals Bool ZArith List Lia Lra.
From Verif Require Import RLib XLib.
Import ListNotations.
Open Scope R_scope.

(** towards zero *)
Definition truncZ (r : R) : Z := if Rltb r 0 then (- Int_part (- r))%Z else Int_part r.
(** undefined for infinities, NaN and values outside the 32-bit range *)
Definition to_int (x : X) : option Z :=
  match x with
  | Fin r => let z := truncZ r in if (-2147483648 <=? z)%Z && (z <=? 2147483647)%Z then Some z else None
  | _ => None
  end.
Definition rd {A} (l : list A) (i : Z) : option A := if (i <? 0)%Z then None else nth_error l (Z.to_nat i).

Lemma Int_part_bounds r : IZR (Int_part r) <= r < IZR (Int_part r) + 1.
Proof. destruct (base_Int_part r) as (A & B). lra. Qed.
Lemma Int_part_unique r z : IZR z <= r < IZR z + 1 -> Int_part r = z.
Proof.
  intros (A & B). destruct (Int_part_bounds r) as (C & D).
  assert (IZR z < IZR (Int_part r + 1)) by (rewrite plus_IZR; lra). assert (IZR (Int_part r) < IZR (z + 1)) by (rewrite plus_IZR; lra).
  apply lt_IZR in H, H0. lia.
Qed.
Lemma truncZ_pos r : 0 <= r -> truncZ r = Int_part r.
Proof. intros H. unfold truncZ. rewrite Rltb_false by lra. reflexivity. Qed.
Lemma truncZ_unique r z : 0 <= r -> IZR z <= r < IZR z + 1 -> truncZ r = z.
Proof. intros H B. rewrite truncZ_pos by auto. apply Int_part_unique, B. Qed.
Lemma to_int_unique r z : (0 <= z <= 2147483647)%Z -> IZR z <= r < IZR z + 1 -> to_int (Fin r) = Some z.
Proof.
  intros Z B. assert (0 <= r) by (destruct B as (B & _); pose proof (IZR_le 0 z (proj1 Z)); lra).
  unfold to_int. rewrite (truncZ_unique r z); auto. cbv zeta.
  destruct (Z.leb_spec (-2147483648) z), (Z.leb_spec z 2147483647); try lia. reflexivity.
Qed.
(** a value in [0, n) for a representable n *)
Lemma to_int_range r n : (0 <= n <= 2147483648)%Z -> 0 <= r < IZR n ->
  exists z, to_int (Fin r) = Some z /\ (0 <= z < n)%Z /\ IZR z <= r < IZR z + 1.
Proof.
  intros N (A & B). pose proof (Int_part_bounds r) as (C & D). exists (Int_part r).
  assert (Z : (0 <= Int_part r < n)%Z).
  { split; [|apply lt_IZR; lra]. assert (IZR (-1) < IZR (Int_part r)) by lra. apply lt_IZR in H. lia. }
  split; [|auto]. apply to_int_unique; [lia|lra].
Qed.
Lemma rd_some {A} (l : list A) i : (0 <= i < Z.of_nat (length l))%Z -> exists a, rd l i = Some a.
Proof.
  intros H. unfold rd. destruct (Z.ltb_spec i 0); [lia|]. destruct (nth_error l (Z.to_nat i)) eqn:E; [eauto|].
  apply nth_error_None in E. lia.
Qed.
Lemma rd_none {A} (l : list A) i : (Z.of_nat (length l) <= i)%Z -> rd l i = None.
Proof. intros H. unfold rd. destruct (Z.ltb_spec i 0); [reflexivity|]. apply nth_error_None. lia. Qed.
Lemma rd_in {A} (l : list A) i a : rd l i = Some a -> (0 <= i < Z.of_nat (length l))%Z.
Proof.
  unfold rd. destruct (Z.ltb_spec i 0); [discriminate|]. intros E.
  assert (nth_error l (Z.to_nat i) <> None) by congruence. apply nth_error_Some in H0. lia.
Qed.
