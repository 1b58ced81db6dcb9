(** Proofs about the building of the table. *)
From Coq Require Import Reals List Arith Lia Lra.
From Verif Require Import HotModel.
Import ListNotations.
Open Scope R_scope.

Section P.
Variables axisw axisT : nat -> R.
Variable total : R -> R -> R.
Notation exec := (exec axisw axisT total).
Notation steps := (steps axisw axisT total).
Lemma single_run p m ts m' : steps ([p], m) (ts, m') -> finished ts -> m' = fold_left exec p m.
Proof.
  intros S. remember ([p], m) as a eqn:A. remember (ts, m') as b eqn:B. revert p m ts m' A B.
  induction S as [c|a b c ST SS IH]; intros p m ts m' A B F.
  - subst c. injection B as <- <-. inversion F; subst. reflexivity.
  - subst c. destruct ST as [pre o rest post m0].
    assert (E : pre = [] /\ post = [] /\ p = o :: rest /\ m0 = m).
    { injection A as A1 A2. destruct pre as [|x pre]; cbn in A1; injection A1 as A3 A4; [subst; auto|]. destruct pre; discriminate. }
    destruct E as (-> & -> & -> & ->). cbn [app] in *. cbn [fold_left]. eapply IH; eauto.
Qed.
Lemma program_run cells m a b : 
  (In (a, b) cells -> table (fold_left exec (program cells) m) a b = Some (total (axisw a) (axisT b))) /\
  (~ In (a, b) cells -> table (fold_left exec (program cells) m) a b = table m a b).
Proof.
  revert m. induction cells as [|(i, j) l IH]; intros m; [split; [intros []|reflexivity]|].
  unfold program. cbn [flat_map iteration app fold_left]. fold (program l). cbn [fst snd].
  set (m1 := exec (exec (exec m (SetW i)) (SetT j)) (Store i j)). destruct (IH m1) as (I1 & I2).
  assert (D : In (a, b) l \/ ~ In (a, b) l) by (destruct (in_dec (fun x y : nat * nat => ltac:(decide equality; apply Nat.eq_dec)) (a, b) l); auto).
  split.
  - intros H. destruct D as [D|D]; [auto|]. rewrite I2 by auto. destruct H as [E|H]; [|contradiction]. injection E as -> ->.
    unfold m1. cbn [HotModel.exec lw lT table]. rewrite !Nat.eqb_refl. reflexivity.
  - intros H. rewrite I2 by (intros C; apply H; right; exact C). unfold m1. cbn [HotModel.exec table].
    destruct (Nat.eqb_spec a i) as [->|]; [|reflexivity]. destruct (Nat.eqb_spec b j) as [->|]; [|reflexivity]. exfalso. apply H. left. reflexivity.
Qed.
End P.
(** one thread, whatever the cells: every entry is the cross-section at its own axes *)
Lemma one_thread axisw axisT total cells m ts m' : steps axisw axisT total ([program cells], m) (ts, m') -> finished ts ->
  forall i j, In (i, j) cells -> table m' i j = Some (total (axisw i) (axisT j)).
Proof.
  intros S F i j I. apply single_run in S; auto. subst m'. apply program_run, I.
Qed.
Lemma race_refuted axisw axisT total m : total (axisw 1%nat) (axisT 0%nat) <> total (axisw 0%nat) (axisT 0%nat) ->
  exists ts m', steps axisw axisT total ([program [(0, 0)%nat]; program [(1, 0)%nat]], m) (ts, m') /\ finished ts /\
    table m' 0%nat 0%nat <> Some (total (axisw 0%nat) (axisT 0%nat)).
Proof.
  intros D. exists [[]; []]. eexists. split; [|split].
  - cbn [program flat_map iteration app fst snd].
    eapply More; [apply (Step _ _ _ [] (SetW 0) [SetT 0%nat; Store 0%nat 0%nat] [_])|]. cbn [app].
    eapply More; [apply (Step _ _ _ [] (SetT 0) [Store 0%nat 0%nat] [_])|]. cbn [app].
    eapply More; [apply (Step _ _ _ [[Store 0%nat 0%nat]] (SetW 1) [SetT 0%nat; Store 1%nat 0%nat] [])|]. cbn [app].
    eapply More; [apply (Step _ _ _ [] (Store 0 0) [] [_])|]. cbn [app].
    eapply More; [apply (Step _ _ _ [[]] (SetT 0) [Store 1%nat 0%nat] [])|]. cbn [app].
    eapply More; [apply (Step _ _ _ [[]] (Store 1 0) [] [])|]. cbn [app]. apply Done.
  - repeat constructor.
  - cbn. congruence.
Qed.
(** a table left by a run with another frequency range is used as it is *)
Lemma stale (axis1 axis2 axisT : nat -> R) (total : R -> R -> R) i j : total (axis1 i) (axisT j) <> total (axis2 i) (axisT j) ->
  let first := fun a b : nat => Some (total (axis1 a) (axisT b)) in
  let second := fun a b : nat => Some (total (axis2 a) (axisT b)) in
  init_hc_table (Some (init_hc_table None first)) second i j <> second i j.
Proof. intros D. cbn. congruence. Qed.
