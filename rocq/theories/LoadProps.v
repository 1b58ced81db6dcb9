(** C134: load imbalance. *)
From Coq Require Import Reals ZArith List Lia Lra.
From Flocq Require Import Core.
From Verif Require Import RLib XLib LoadModel.
Import ListNotations.
Open Scope R_scope.

(** what is used of a rounding: monotone, with zero and one exact *)
Definition rounding (f : R -> R) : Prop := (forall x y, x <= y -> f x <= f y) /\ f 0 = 0 /\ f 1 = 1.

Lemma max_is c cs : (forall x, In x (c :: cs) -> (x <= step_tot_max c cs)%Z) /\ In (step_tot_max c cs) (c :: cs).
Proof.
  unfold step_tot_max. induction cs as [|a cs [IH I]]; cbn [fold_right]; [split; [intros x [<-|[]]; lia|now left]|]. split.
  - intros x [<-|[<-|H]]; [specialize (IH c (or_introl eq_refl)); lia|lia|specialize (IH x (or_intror H)); lia].
  - destruct (Z.max_spec a (fold_right Z.max c cs)) as [[_ ->]|[_ ->]]; [destruct I as [I|I]; [now left|right; now right]|right; now left].
Qed.
Lemma min_is c cs : (forall x, In x (c :: cs) -> (step_tot_min c cs <= x)%Z) /\ In (step_tot_min c cs) (c :: cs).
Proof.
  unfold step_tot_min. induction cs as [|a cs [IH I]]; cbn [fold_right]; [split; [intros x [<-|[]]; lia|now left]|]. split.
  - intros x [<-|[<-|H]]; [specialize (IH c (or_introl eq_refl)); lia|lia|specialize (IH x (or_intror H)); lia].
  - destruct (Z.min_spec a (fold_right Z.min c cs)) as [[_ ->]|[_ ->]]; [right; now left|destruct I as [I|I]; [now left|right; now right]].
Qed.
Lemma fl_pos f n : rounding f -> (0 < n)%Z -> 1 <= f (IZR n).
Proof. intros (M & _ & O) H. rewrite <- O. apply M. apply (IZR_le 1). lia. Qed.
Lemma value fl rd c cs : rounding fl -> (0 < step_tot_max c cs)%Z ->
  load_imbalance fl rd c cs = Fin (rd (1 - fl (fl (IZR (step_tot_min c cs)) / fl (IZR (step_tot_max c cs))))).
Proof.
  intros F H. pose proof (fl_pos fl _ F H) as P. unfold load_imbalance, xdiv. destruct (Reqb_spec (fl (IZR (step_tot_max c cs))) 0); [lra|]. reflexivity.
Qed.
Lemma some_pos c cs x : In x (c :: cs) -> (0 < x)%Z -> (0 < step_tot_max c cs)%Z.
Proof. intros I H. pose proof (proj1 (max_is c cs) x I). lia. Qed.

(** It is between 0 and 1 as soon as some process has a packet, whatever the rounding. *)
Theorem C134_range : forall fl rd c cs x, rounding fl -> rounding rd -> (forall y, In y (c :: cs) -> (0 <= y)%Z) -> In x (c :: cs) -> (0 < x)%Z ->
  exists r, load_imbalance fl rd c cs = Fin r /\ 0 <= r <= 1.
Proof.
  intros fl rd c cs x F D N I H. pose proof (some_pos c cs x I H) as P. rewrite (value fl rd c cs F P). eexists. split; [reflexivity|].
  pose proof (fl_pos fl _ F P) as Q. destruct F as (M & Z0 & O), D as (M' & Z0' & O').
  pose proof (N _ (proj2 (min_is c cs))) as L. pose proof (proj1 (min_is c cs) _ (proj2 (max_is c cs))) as LE.
  set (a := fl (IZR (step_tot_min c cs))) in *. set (b := fl (IZR (step_tot_max c cs))) in *.
  assert (A0 : 0 <= a) by (unfold a; rewrite <- Z0; apply M, (IZR_le 0), L).
  assert (AB : a <= b) by (apply M, IZR_le, LE). clearbody a b.
  assert (0 <= a / b <= 1). { split; [apply Rmult_le_pos; [exact A0|left; apply Rinv_0_lt_compat; lra]|]. apply (Rmult_le_reg_r b); [lra|]. unfold Rdiv. rewrite Rmult_assoc, Rinv_l; lra. }
  assert (0 <= fl (a / b) <= 1) by (rewrite <- Z0 at 1; rewrite <- O; split; apply M; lra).
  rewrite <- Z0' at 1. rewrite <- O'. split; apply M'; lra.
Qed.
Print Assumptions C134_range.

(** It is 0 if all processes have equally many, and 1 if some process has none. *)
Theorem C134_balanced : forall fl rd c cs, rounding fl -> rounding rd -> (0 < c)%Z -> (forall y, In y cs -> y = c) -> load_imbalance fl rd c cs = Fin 0.
Proof.
  intros fl rd c cs F D P E. rewrite (value fl rd c cs F (some_pos c cs c (or_introl eq_refl) P)).
  assert (A : step_tot_max c cs = c) by (destruct (proj2 (max_is c cs)) as [<-|I]; [reflexivity|exact (E _ I)]).
  assert (B : step_tot_min c cs = c) by (destruct (proj2 (min_is c cs)) as [<-|I]; [reflexivity|exact (E _ I)]).
  rewrite A, B. pose proof (fl_pos fl c F P). unfold Rdiv. rewrite Rinv_r by lra. destruct F as (_ & _ & ->), D as (_ & D & _).
  rewrite Rminus_eq_0. f_equal. exact D.
Qed.
Print Assumptions C134_balanced.
Theorem C134_idle : forall fl rd c cs x, rounding fl -> rounding rd -> (forall y, In y (c :: cs) -> (0 <= y)%Z) -> In 0%Z (c :: cs) -> In x (c :: cs) -> (0 < x)%Z ->
  load_imbalance fl rd c cs = Fin 1.
Proof.
  intros fl rd c cs x F D N I X H. pose proof (some_pos c cs x X H) as P. rewrite (value fl rd c cs F P).
  assert (B : step_tot_min c cs = 0%Z) by (pose proof (proj1 (min_is c cs) _ I); pose proof (N _ (proj2 (min_is c cs))); lia).
  rewrite B. destruct F as (_ & Z0 & _), D as (_ & _ & O). rewrite Z0. unfold Rdiv. rewrite Rmult_0_l, Z0, Rminus_0_r. f_equal. exact O.
Qed.
Print Assumptions C134_idle.

(** Without rounding it is one minus the least number over the greatest, so it is 0 only if
    all processes have equally many, and 1 only if one has none. *)
Theorem C134_exact : forall c cs x r, (forall y, In y (c :: cs) -> (0 <= y)%Z) -> In x (c :: cs) -> (0 < x)%Z ->
  load_imbalance (fun a => a) (fun a => a) c cs = Fin r ->
  (exists lo hi, In lo (c :: cs) /\ In hi (c :: cs) /\ (forall y, In y (c :: cs) -> (lo <= y <= hi)%Z) /\ (1 - r) * IZR hi = IZR lo) /\
  (r = 0 -> forall y, In y (c :: cs) -> y = c) /\ (r = 1 -> In 0%Z (c :: cs)).
Proof.
  intros c cs x r N I H E. assert (F : rounding (fun a => a)) by (repeat split; auto). pose proof (some_pos c cs x I H) as P.
  rewrite (value _ _ c cs F P) in E. injection E as <-. destruct (min_is c cs) as [L LI], (max_is c cs) as [G GI].
  set (lo := step_tot_min c cs) in *. set (hi := step_tot_max c cs) in *. clearbody lo hi. assert (Q : 0 < IZR hi) by (apply (IZR_lt 0); exact P).
  assert (V : (1 - (1 - IZR lo / IZR hi)) * IZR hi = IZR lo) by (field; lra). split; [|split].
  - exists lo, hi. repeat split; [exact LI|exact GI|apply L; assumption|apply G; assumption|exact V].
  - intros R0. rewrite R0 in V. assert (IZR lo = IZR hi) as S by lra. apply eq_IZR in S. subst hi. intros y Y. pose proof (L y Y). pose proof (G y Y).
    pose proof (L c (or_introl eq_refl)). pose proof (G c (or_introl eq_refl)). lia.
  - intros R1. rewrite R1 in V. assert (IZR lo = 0) as S by lra. apply eq_IZR in S. subst lo. exact LI.
Qed.
Print Assumptions C134_exact.

(** Without any packet it is not a number: *)
Theorem C134_empty : forall fl rd c cs, rounding fl -> (forall y, In y (c :: cs) -> y = 0%Z) -> load_imbalance fl rd c cs = NaN.
Proof.
  intros fl rd c cs (_ & Z0 & _) E. unfold load_imbalance. rewrite (E _ (proj2 (min_is c cs))), (E _ (proj2 (max_is c cs))), Z0.
  unfold xdiv, inf_by. destruct (Reqb_spec 0 0); [|lra]. destruct (Rltb_spec 0 0); [lra|]. reflexivity.
Qed.
Print Assumptions C134_empty.
Theorem C134_range_refuted : exists fl rd c cs, rounding fl /\ rounding rd /\ (forall y, In y (c :: cs) -> (0 <= y)%Z) /\
  forall r, load_imbalance fl rd c cs <> Fin r.
Proof.
  exists (fun a => a), (fun a => a), 0%Z, [0%Z]. split; [repeat split; auto|]. split; [repeat split; auto|]. split; [intros y [<-|[<-|[]]]; lia|].
  intros r. rewrite C134_empty; [discriminate|repeat split; auto|intros y [<-|[<-|[]]]; reflexivity].
Qed.
Print Assumptions C134_range_refuted.


(** The rounding of C to float, to the nearest with ties to even. *)
Definition to_float : R -> R := Flocq.Core.Generic_fmt.round radix2 (FLT_exp (-149) 24) ZnearestE.
Lemma to_float_rounding : rounding to_float.
Proof.
  assert (V : Valid_exp (FLT_exp (-149) 24)) by (apply FLT_exp_valid; reflexivity). split; [|split].
  - intros x y H. apply round_le; [exact V|apply valid_rnd_N|exact H].
  - apply round_0. apply valid_rnd_N.
  - apply round_generic; [apply valid_rnd_N|]. change 1 with (bpow radix2 0). apply generic_format_bpow. unfold FLT_exp. cbn. lia.
Qed.
Lemma to_float_tie : to_float 16777217 = 16777216.
Proof.
  unfold to_float, Flocq.Core.Generic_fmt.round, scaled_mantissa, cexp.
  rewrite (mag_unique_pos radix2 16777217 25) by (cbn; lra).
  change (FLT_exp (-149) 24 25) with 1%Z. change (bpow radix2 (- (1))) with (/ 2).
  unfold Znearest. rewrite (Zfloor_imp 8388608) by (cbn; lra).
  rewrite Rcompare_Eq by lra. cbn [Z.even negb]. unfold F2R. cbn. lra.
Qed.
Lemma to_float_even : to_float 16777216 = 16777216.
Proof.
  apply round_generic; [apply valid_rnd_N|]. change 16777216 with (bpow radix2 24). apply generic_format_bpow. unfold FLT_exp. cbn. lia.
Qed.
(** With the rounding of C to float it is 0 for processes whose numbers differ. *)
Theorem C134_balanced_refuted : exists c c', (0 < c)%Z /\ (0 < c')%Z /\ c <> c' /\ forall rd, rounding rd -> load_imbalance to_float rd c [c'] = Fin 0.
Proof.
  exists 16777216%Z, 16777217%Z. split; [lia|]. split; [lia|]. split; [lia|]. intros rd (_ & D & _).
  rewrite (value _ _ _ _ to_float_rounding) by reflexivity. change (step_tot_min 16777216 [16777217%Z]) with 16777216%Z.
  change (step_tot_max 16777216 [16777217%Z]) with 16777217%Z. rewrite to_float_tie, to_float_even.
  replace (16777216 / 16777216) with 1 by lra. rewrite (proj2 (proj2 to_float_rounding)), Rminus_eq_0. f_equal. exact D.
Qed.
Print Assumptions C134_balanced_refuted.
Example C134_nonvacuous : load_imbalance (fun a => a) (fun a => a) 4 [3; 1]%Z = Fin (3 / 4).
Proof. rewrite value; [|repeat split; auto|reflexivity]. f_equal. cbn. lra. Qed.
