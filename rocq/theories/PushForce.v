(** The force on a packet, from the metric's derivatives. *)
From Coq Require Import Reals Bool Arith Lia Lra.
From Verif Require Import RLib GeomModel PushModel.
Open Scope R_scope.

Lemma DELTAK_pos : 0 < DELTAK.
Proof. unfold DELTAK. apply Rinv_0_lt_compat, pow_lt. lra. Qed.
Lemma choose4 (Q : nat -> R -> Prop) : (forall nu, (nu < 4)%nat -> exists r, Q nu r) -> exists f : nat -> R, forall nu, (nu < 4)%nat -> Q nu (f nu).
Proof.
  intros H. destruct (H 0%nat ltac:(lia)) as (a & A), (H 1%nat ltac:(lia)) as (b & B), (H 2%nat ltac:(lia)) as (c & C), (H 3%nat ltac:(lia)) as (d & D).
  exists (fun nu => match nu with 0%nat => a | 1%nat => b | 2%nat => c | _ => d end).
  intros [|[|[|[|nu]]]] L; try assumption. lia.
Qed.
Lemma choose44 (Q : nat -> nat -> R -> Prop) : (forall nu kap, (nu < 4)%nat -> (kap < 4)%nat -> exists r, Q nu kap r) ->
  exists f : nat -> nat -> R, forall nu kap, (nu < 4)%nat -> (kap < 4)%nat -> Q nu kap (f nu kap).
Proof.
  intros H.
  destruct (choose4 (Q 0%nat) (fun k => H 0%nat k ltac:(lia))) as (a & A), (choose4 (Q 1%nat) (fun k => H 1%nat k ltac:(lia))) as (b & B),
    (choose4 (Q 2%nat) (fun k => H 2%nat k ltac:(lia))) as (c & C), (choose4 (Q 3%nat) (fun k => H 3%nat k ltac:(lia))) as (d & D).
  exists (fun nu => match nu with 0%nat => a | 1%nat => b | 2%nat => c | _ => d end).
  intros [|[|[|[|nu]]]] kap L M; auto. lia.
Qed.
Lemma sum4_ext f g : (forall i, (i < 4)%nat -> f i = g i) -> sum4 f = sum4 g.
Proof. intros H. unfold sum4. rewrite !H by lia. reflexivity. Qed.
Lemma sum4_scale f c : sum4 (fun i => f i * c) = sum4 f * c.
Proof. unfold sum4. ring. Qed.

Lemma force gcon_at killing (x kcov kcon : vec) mu (dg : nat -> nat -> R -> R) : killing mu = false -> kcon 0%nat <> 0 ->
  (forall nu kap r, (nu < 4)%nat -> (kap < 4)%nat -> Rabs r <= DELTAK -> derivable_pt_lim (fun r => gcon_at (bump x mu r) nu kap) r (dg nu kap r)) ->
  exists xi : nat -> nat -> R, (forall nu kap, (nu < 4)%nat -> (kap < 4)%nat -> Rabs (xi nu kap) < DELTAK) /\
  get_K_source gcon_at killing x kcov kcon mu =
    - (1 / 2) * sum4 (fun nu => sum4 (fun kap => dg nu kap (xi nu kap) * kcov nu * kcov kap)) / kcon 0%nat.
Proof.
  intros K K0 D. pose proof DELTAK_pos as P.
  destruct (choose44 (fun nu kap r => Rabs r < DELTAK /\
    gcon_at (bump x mu DELTAK) nu kap - gcon_at (bump x mu (- DELTAK)) nu kap = dg nu kap r * (2 * DELTAK))) as (xi & XI).
  { intros nu kap N M. destruct (MVT_cor2 (fun r => gcon_at (bump x mu r) nu kap) (dg nu kap) (- DELTAK) DELTAK ltac:(lra)) as (c & E & C).
    - intros c C. apply D; auto. apply Rabs_le. lra.
    - exists c. split; [apply Rabs_def1; lra|]. rewrite E. f_equal. ring. }
  exists xi. split; [intros; now apply XI|].
  unfold get_K_source. rewrite K. cbv zeta.
  transitivity (sum4 (fun nu => sum4 (fun kap => dg nu kap (xi nu kap) * kcov nu * kcov kap)) * (-1 / (2 * kcon 0%nat))); [|field; exact K0].
  f_equal. apply sum4_ext. intros nu N. apply sum4_ext. intros kap M. destruct (XI nu kap N M) as [_ E]. rewrite E. field. lra.
Qed.
