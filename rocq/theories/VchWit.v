(** A fluid at rest in flat space. *)
From Coq Require Import Reals Bool List Lia Lra.
From Verif Require Import RLib FluxModel GeomModel GeomSpec GeomProofs SpaceProofs NullProofs EosGModel FloorModel FloorProofs FloorWit VchModel VchSpec VchProofs.
Import ListNotations.
Open Scope R_scope.

Definition rest : prims := mkp (1 - FluxModel.SMALL) (1 - FluxModel.SMALL) (fun _ => 0) (fun _ => 0).
Lemma rest_abs : Rabs (rho rest + FluxModel.SMALL) = 1 /\ Rabs (uu rest + FluxModel.SMALL) = 1.
Proof. cbn [rest rho uu]. replace (1 - FluxModel.SMALL + FluxModel.SMALL) with 1 by ring. rewrite Rabs_right by lra. auto. Qed.
Lemma mi11 : Mi 1%nat 1%nat = 1 /\ Mi 0%nat 1%nat = 0 /\ Mi 0%nat 0%nat = -1.
Proof.
  pose proof (gcon_00 M 1 (drift_beta 0) St) as E0. pose proof (gcon_0i M 1 (drift_beta 0) St 1%nat ltac:(lia)) as E1.
  destruct (st_inv M 1 (drift_beta 0) St) as [I _]. specialize (I 1%nat 1%nat ltac:(lia) ltac:(lia)).
  set (C := Mi) in *. clearbody C. unfold drift_beta in E1. cbn [Nat.eqb] in E1. unfold sigma4, delta, drift in I. cbn [Nat.eqb] in I.
  repeat split; lra.
Qed.
Lemma rest_speeds : exists q, get_state M Mi (lapse Mi) rest = Some q /\
  mhd_vchar Mi 2 rest q 1 = Speeds (sqrt (2 / 3)) (- sqrt (2 / 3)).
Proof.
  destruct (state_ok M 1 (drift_beta 0) St rest) as [q Hq]. pose proof (proj1 Hq) as E. exists q. split; [exact E|].
  destruct (mink_state rest q 1 E ltac:(lra)) as (U0 & UI & V0 & VI & EB & _); [cbn; lra|].
  pose proof rest_abs as (R1 & R2).
  destruct (fast_speeds M 1 (drift_beta 0) 2 rest q 1 St E ltac:(lra) ltac:(rewrite R1; lra) ltac:(lia)) as (_ & _ & _ & a & b & S & L & W & _).
  rewrite S. rewrite R1, R2 in W.
  assert (B0 : inner M (b_con q) (b_con q) = 0).
  { assert (forall i, (i < 4)%nat -> b_con q i = 0).
    { rewrite EB. apply four_cases; unfold bcon; cbn [Nat.eqb rest mag]; try ring; rewrite ?U0; unfold Rdiv; ring. }
    unfold inner, sigma4. rewrite !H by lia. ring. }
  rewrite B0 in W.
  assert (C : Rmax FluxModel.SMALL (fast2 (2 * ((2 - 1) * 1) / (1 + 1 + (2 - 1) * 1)) (0 / (0 + (1 + 1 + (2 - 1) * 1) + FluxModel.SMALL))) = 2 / 3).
  { pose proof small_pos. unfold fast2. replace (0 / _) with 0 by (field; lra).
    replace (1 - (1 - 2 * ((2 - 1) * 1) / (1 + 1 + (2 - 1) * 1)) * (1 - 0)) with (2 / 3) by field.
    apply Rmax_right. unfold FluxModel.SMALL. apply Rle_trans with (/ 2); [apply Rinv_le_contravar; lra|lra]. }
  rewrite C in W. destruct mi11 as (M1 & M2 & M3).
  assert (F : forall v, wave Mi (ucon q) (2 / 3) (front 1 v) <-> v * v = 2 / 3).
  { intros v. unfold wave. rewrite pair_front, (inner_front Mi 1 v) by (lia || apply (gcon_sym M 1 (drift_beta 0) St)).
    rewrite M1, M2, M3, U0, (UI 1%nat) by lia. cbn [rest vel]. split; intros H; lra. }
  assert (S2 : sqrt (2 / 3) * sqrt (2 / 3) = 2 / 3) by (apply sqrt_sqrt; lra). pose proof (sqrt_lt_R0 (2 / 3) ltac:(lra)) as SP.
  set (s := sqrt (2 / 3)) in *. clearbody s.
  assert (P1 : s = b \/ s = a) by (apply W, F, S2). assert (P2 : - s = b \/ - s = a) by (apply W, F; lra).
  destruct P1 as [P1|P1], P2 as [P2|P2]; subst; try lra; f_equal; lra.
Qed.
Lemma rest_light : light_phase_speed Mi 1 = 1 /\ causal M (fun i => match i with O => 2 | S O => 1 | _ => 0 end).
Proof.
  destruct mi11 as (M1 & M2 & M3). split.
  - unfold light_phase_speed. rewrite M1, M2, M3. replace (0 * 0 - 1 * -1) with 1 by ring. rewrite sqrt_1, Rleb_true by lra.
    replace ((- 0 + 1) / -1) with (- (1)) by field. replace ((- 0 - 1) / -1) with 1 by field. rewrite Rabs_Ropp, Rabs_R1. unfold MY_MAX. destruct (Rltb_spec 1 1); lra.
  - split; [|lra]. unfold inner, sigma4, drift. cbn [Nat.eqb]. lra.
Qed.
