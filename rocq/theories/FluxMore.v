(** flux_ct keeps fluxes that already come from one electric field. *)
From Coq Require Import Reals ZArith Bool Lia Lra.
From Verif Require Import RLib FluxModel FluxSpec FluxProofs.
Open Scope R_scope.

Section Keep.
Variables (E1 E2 E3 : R -> R -> R -> R) (F1 F2 F3 : field) (N1 N2 N3 : Z) (s1 s2 s3 : Z -> Z -> Z -> R).
Hypotheses (A1 : affine E1) (A2 : affine E2) (A3 : affine E3) (W : from_emf E1 E2 E3 F1 F2 F3).

Ltac shift := unfold Z.sub; rewrite ?plus_IZR, ?opp_IZR.
Lemma k3 i j k : emf3v F1 F2 i j k = E3 (IZR i - 1/2) (IZR j - 1/2) (IZR k).
Proof using A3 W.
  destruct W as (_ & _ & _ & W3 & W3' & _). unfold emf3v. rewrite !W3, !W3'. destruct A3 as (p & q & r & s & H). rewrite !H. shift. lra.
Qed.
Lemma k2 i j k : emf2v F1 F3 i j k = E2 (IZR i - 1/2) (IZR j) (IZR k - 1/2).
Proof using A2 W.
  destruct W as (_ & _ & _ & _ & _ & W2 & W2' & _). unfold emf2v. rewrite !W2, !W2'. destruct A2 as (p & q & r & s & H). rewrite !H. shift. lra.
Qed.
Lemma k1 i j k : emf1v F2 F3 i j k = E1 (IZR i) (IZR j - 1/2) (IZR k - 1/2).
Proof using A1 W.
  destruct W as (_ & _ & _ & _ & _ & _ & _ & W1 & W1'). unfold emf1v. rewrite !W1, !W1'. destruct A1 as (p & q & r & s & H). rewrite !H. shift. lra.
Qed.
Lemma ct_consistent i j k ip :
  ct1 F1 F2 F3 N1 N2 N3 s2 s3 i j k ip = F1 i j k ip /\
  ct2 F1 F2 F3 N1 N2 N3 s1 s3 i j k ip = F2 i j k ip /\
  ct3 F1 F2 F3 N1 N2 N3 s1 s2 i j k ip = F3 i j k ip.
Proof using A1 A2 A3 W.
  destruct W as (Z1 & Z2 & Z3 & W3 & W3' & W2 & W2' & W1 & W1').
  split; [|split].
  - unfold ct1. destruct (in_loop N1 (N2 - 1) (N3 - 1) i j k) eqn:L; [|reflexivity]. apply in_loop_iff in L.
    destruct (Nat.eqb_spec ip B1) as [->|]; [now rewrite Z1|].
    destruct (Nat.eqb_spec ip B2) as [->|].
    { unfold emf3. rewrite !(proj2 (in_loop_iff N1 N2 N3 _ _ _)) by lia. rewrite !k3, W3. destruct A3 as (p & q & r & s & H). rewrite !H. shift. lra. }
    destruct (Nat.eqb_spec ip B3) as [->|]; [|reflexivity].
    unfold emf2. rewrite !(proj2 (in_loop_iff N1 N2 N3 _ _ _)) by lia. rewrite !k2, W2. destruct A2 as (p & q & r & s & H). rewrite !H. shift. lra.
  - unfold ct2. destruct (in_loop (N1 - 1) N2 (N3 - 1) i j k) eqn:L; [|reflexivity]. apply in_loop_iff in L.
    destruct (Nat.eqb_spec ip B1) as [->|].
    { unfold emf3. rewrite !(proj2 (in_loop_iff N1 N2 N3 _ _ _)) by lia. rewrite !k3, W3'. destruct A3 as (p & q & r & s & H). rewrite !H. shift. lra. }
    destruct (Nat.eqb_spec ip B2) as [->|]; [now rewrite Z2|].
    destruct (Nat.eqb_spec ip B3) as [->|]; [|reflexivity].
    unfold emf1. rewrite !(proj2 (in_loop_iff N1 N2 N3 _ _ _)) by lia. rewrite !k1, W1. destruct A1 as (p & q & r & s & H). rewrite !H. shift. lra.
  - unfold ct3. destruct (in_loop (N1 - 1) (N2 - 1) N3 i j k) eqn:L; [|reflexivity]. apply in_loop_iff in L.
    destruct (Nat.eqb_spec ip B1) as [->|].
    { unfold emf2. rewrite !(proj2 (in_loop_iff N1 N2 N3 _ _ _)) by lia. rewrite !k2, W2'. destruct A2 as (p & q & r & s & H). rewrite !H. shift. lra. }
    destruct (Nat.eqb_spec ip B2) as [->|].
    { unfold emf1. rewrite !(proj2 (in_loop_iff N1 N2 N3 _ _ _)) by lia. rewrite !k1, W1'. destruct A1 as (p & q & r & s & H). rewrite !H. shift. lra. }
    destruct (Nat.eqb_spec ip B3) as [->|]; [now rewrite Z3|]. reflexivity.
Qed.
End Keep.
