(** Proofs about the median filter. *)
From Coq Require Import Reals Bool ZArith List Lia Lra Sorted Permutation.
From Verif Require Import RLib XLib IntLib TabModel InvModel TabProofs AdiaModel AdiaSpec.
Import ListNotations.
Open Scope R_scope.

(** ** The median *)
Lemma insert_perm x : forall l, Permutation (x :: l) (insert x l).
Proof.
  induction l as [|y l IH]; cbn [insert]; [auto|]. destruct (Rleb x y); [auto|].
  eapply perm_trans; [apply perm_swap|]. now constructor.
Qed.
Lemma qsort_perm : forall l, Permutation l (qsort l).
Proof. unfold qsort. induction l as [|x l IH]; cbn [fold_right]; [constructor|]. eapply perm_trans; [apply perm_skip, IH|]. apply insert_perm. Qed.
Lemma insert_sorted x : forall l, StronglySorted Rle l -> StronglySorted Rle (insert x l).
Proof.
  induction l as [|y l IH]; intros H; cbn [insert]; [repeat constructor|].
  inversion H as [|? ? S F]; subst. destruct (Rleb_spec x y) as [L|L].
  - constructor; [auto|]. constructor; [auto|]. apply Forall_forall. intros z Z. apply (Rle_trans _ y); [auto|]. now apply (proj1 (Forall_forall _ _) F).
  - constructor; [auto|]. apply Forall_forall. intros z Z. apply (Permutation_in _ (Permutation_sym (insert_perm x l))) in Z. destruct Z as [<-|Z]; [lra|]. now apply (proj1 (Forall_forall _ _) F).
Qed.
Lemma qsort_sorted : forall l, StronglySorted Rle (qsort l).
Proof. unfold qsort. induction l as [|x l IH]; cbn [fold_right]; [constructor|]. now apply insert_sorted. Qed.
Lemma sorted_nth : forall l, StronglySorted Rle l -> forall i j, (i <= j < length l)%nat -> nth i l 0 <= nth j l 0.
Proof.
  induction 1 as [|x l S IH F]; intros i j B; [cbn in B; lia|]. cbn [length] in B. destruct i as [|i], j as [|j]; cbn [nth]; try lra; try lia.
  - apply (proj1 (Forall_forall _ _) F), nth_In. lia.
  - apply IH. lia.
Qed.
Lemma filter_perm (f : R -> bool) : forall l l', Permutation l l' -> length (filter f l) = length (filter f l').
Proof. induction 1; cbn [filter]; auto; repeat match goal with |- context [if f ?x then _ else _] => destruct (f x) end; cbn [length]; lia. Qed.
Lemma filter_all (f : R -> bool) l : (forall x, In x l -> f x = true) -> length (filter f l) = length l.
Proof. induction l as [|x l IH]; intros H; [reflexivity|]. cbn [filter]. rewrite H by now left. cbn [length]. rewrite IH; [reflexivity|]. intros y Y. apply H. now right. Qed.
Lemma filter_part (f : R -> bool) l h : (h <= length l)%nat -> (forall i, (i < h)%nat -> f (nth i l 0) = true) -> (h <= length (filter f l))%nat.
Proof.
  intros L H. rewrite <- (firstn_skipn h l). rewrite filter_app, app_length, filter_all.
  - rewrite firstn_length. lia.
  - intros x X. apply (In_nth _ _ 0) in X. destruct X as (i & I & <-). rewrite firstn_length in I.
    rewrite <- (H i) by lia. f_equal. rewrite <- (firstn_skipn h l) at 2. rewrite app_nth1; [reflexivity|]. rewrite firstn_length. lia.
Qed.
Lemma filter_tail (f : R -> bool) l h : (h <= length l)%nat -> (forall i, (h <= i < length l)%nat -> f (nth i l 0) = true) -> (length l - h <= length (filter f l))%nat.
Proof.
  intros L H. rewrite <- (firstn_skipn h l) at 2. rewrite filter_app, app_length, (filter_all f (skipn h l)).
  - rewrite skipn_length. lia.
  - intros x X. apply (In_nth _ _ 0) in X. destruct X as (i & I & <-). rewrite skipn_length in I.
    rewrite <- (H (h + i)%nat) by lia. f_equal. rewrite <- (firstn_skipn h l) at 2. rewrite app_nth2; rewrite firstn_length; [|lia]. f_equal. lia.
Qed.
Lemma median_middle l : Nat.odd (length l) = true -> middle (find_median l) l.
Proof.
  intros O. assert (P := qsort_perm l). assert (S := qsort_sorted l). assert (LN := Permutation_length P).
  apply Nat.odd_spec in O. destruct O as (h & O). assert (D : (Nat.div (length l) 2 = h)%nat).
  { rewrite O. replace (2 * h + 1)%nat with (1 + h * 2)%nat by lia. rewrite Nat.div_add by lia. reflexivity. }
  assert (EV : Nat.even (length l) = false) by (rewrite O, Nat.even_add, Nat.even_mul; reflexivity).
  unfold middle, find_median. rewrite EV, D. set (m := nth h (qsort l) 0).
  split; [|split].
  - apply (Permutation_in _ (Permutation_sym P)). apply nth_In. lia.
  - unfold at_most. rewrite (filter_perm _ _ _ P).
    enough (h + 1 <= length (filter (fun x => Rleb x m) (qsort l)))%nat by lia.
    apply filter_part; [lia|]. intros i I. destruct (Rleb_spec (nth i (qsort l) 0) m) as [_|N]; [reflexivity|exfalso]. apply N. apply sorted_nth; [auto|lia].
  - unfold at_least. rewrite (filter_perm _ _ _ P).
    enough (length (qsort l) - h <= length (filter (fun x => Rleb m x) (qsort l)))%nat by lia.
    apply filter_tail; [lia|]. intros i I. destruct (Rleb_spec m (nth i (qsort l) 0)) as [_|N]; [reflexivity|exfalso]. apply N. apply sorted_nth; [auto|lia].
Qed.
(** a value held by more than half is in the middle *)
Lemma middle_unique m l c : middle m l -> (2 * other c l < length l)%nat -> m = c.
Proof.
  intros (_ & A & B) H. unfold at_most, at_least, other in *. destruct (Rtotal_order m c) as [L|[E|L]]; auto; exfalso.
  - enough (length (filter (fun x => Rleb x m) l) <= length (filter (fun x => negb (Reqb x c)) l))%nat by lia.
    clear - L. induction l as [|x l IH]; [auto|]. cbn [filter]. destruct (Rleb_spec x m); destruct (Reqb_spec x c); cbn [negb length]; try lia. lra.
  - enough (length (filter (fun x => Rleb m x) l) <= length (filter (fun x => negb (Reqb x c)) l))%nat by lia.
    clear - L. induction l as [|x l IH]; [auto|]. cbn [filter]. destruct (Rleb_spec m x); destruct (Reqb_spec x c); cbn [negb length]; try lia. lra.
Qed.

(** ** Loops and arrays *)
Lemma loop_inv {A} (f : Z -> A -> option A) (P : Z -> A -> Prop) : forall n lo a, P lo a ->
  (forall i a, (lo <= i < lo + Z.of_nat n)%Z -> P i a -> exists a', f i a = Some a' /\ P (i + 1)%Z a') ->
  exists a', loop n lo f a = Some a' /\ P (lo + Z.of_nat n)%Z a'.
Proof.
  induction n as [|n IH]; intros lo a H0 HS; cbn [loop].
  - exists a. split; [reflexivity|]. now rewrite Z.add_0_r.
  - destruct (HS lo a ltac:(lia) H0) as (b & -> & H1). destruct (IH (lo + 1)%Z b H1) as (c & C & HC).
    + intros i x I. apply HS. lia.
    + exists c. split; [exact C|]. replace (lo + Z.of_nat (S n))%Z with (lo + 1 + Z.of_nat n)%Z by lia. exact HC.
Qed.
Lemma for_inv {A} (f : Z -> A -> option A) (P : Z -> A -> Prop) lo hi a : P lo a ->
  (forall i a, (lo <= i < hi)%Z -> P i a -> exists a', f i a = Some a' /\ P (i + 1)%Z a') ->
  exists a', for_loop lo hi f a = Some a' /\ P (Z.max lo hi) a'.
Proof.
  intros H0 HS. unfold for_loop. destruct (loop_inv f P (Z.to_nat (hi - lo)) lo a H0) as (b & B & HB).
  - intros i x I. apply HS. lia.
  - exists b. split; [exact B|]. replace (Z.max lo hi) with (lo + Z.of_nat (Z.to_nat (hi - lo)))%Z by lia. exact HB.
Qed.
Lemma wr_ok l i v : (0 <= i < Z.of_nat (length l))%Z -> exists l', wr l i v = Some l' /\ length l' = length l /\ rd l' i = Some v /\ forall j, j <> i -> rd l' j = rd l j.
Proof.
  intros I. unfold wr. destruct (Z.ltb_spec i 0); [lia|]. destruct (Nat.ltb_spec (Z.to_nat i) (length l)) as [L|]; [|lia].
  eexists. split; [reflexivity|]. set (n := Z.to_nat i) in *.
  assert (FN : length (firstn n l) = n) by (rewrite firstn_length; lia).
  split; [rewrite app_length; cbn [length]; rewrite FN, skipn_length; lia|]. split.
  - unfold rd. destruct (Z.ltb_spec i 0); [lia|]. fold n. rewrite nth_error_app2 by lia. rewrite FN, Nat.sub_diag. reflexivity.
  - intros j NE. unfold rd. destruct (Z.ltb_spec j 0); [reflexivity|]. set (p := Z.to_nat j). assert (PN : p <> n) by (unfold p, n; lia).
    destruct (Nat.lt_ge_cases p n) as [Q|Q].
    + rewrite nth_error_app1 by lia. apply TabProofs.nth_error_firstn. lia.
    + rewrite nth_error_app2 by lia. rewrite FN. replace (p - n)%nat with (S (p - n - 1)) by lia. cbn [nth_error].
      rewrite <- (firstn_skipn (S n) l) at 2. rewrite nth_error_app2; rewrite firstn_length; [|lia]. f_equal. lia.
Qed.

(** ** The filter *)
Section Filter.
Variables (n1 n2 n3 : Z).
Variable tab : list R.
Hypothesis SZ : Z.of_nat (length tab) = (n1 * n2 * n3)%Z.
Definition within (i j k : Z) : Prop := (0 <= i < n1 /\ 0 <= j < n2 /\ 0 <= k < n3)%Z.
Lemma elem_ok i j k : within i j k -> (0 <= ELEM n1 n2 i j k < n1 * n2 * n3)%Z.
Proof. intros (A & B & C). unfold ELEM. apply elem_in; auto. Qed.
Lemma elem_inj i j k i' j' k' : within i j k -> within i' j' k' -> ELEM n1 n2 i j k = ELEM n1 n2 i' j' k' -> i = i' /\ j = j' /\ k = k'.
Proof.
  intros (A & B & C) (A' & B' & C') E. unfold ELEM in E.
  assert (D : (k * n2 + j = k' * n2 + j')%Z).
  { rewrite (Z.div_unique (n1 * (k * n2 + j) + i) n1 (k * n2 + j) i) by (auto; lia). rewrite E. symmetry. apply (Z.div_unique _ n1 _ i'); lia. }
  assert (K : k = k').
  { rewrite (Z.div_unique (k * n2 + j) n2 k j) by lia. rewrite D. symmetry. apply (Z.div_unique _ n2 _ j'); lia. }
  subst k'. assert (j = j') by lia. subst j'. split; [lia|auto].
Qed.
Lemma entry_rd i j k : within i j k -> rd tab (ELEM n1 n2 i j k) = Some (entry n1 n2 tab i j k).
Proof.
  intros W. pose proof (elem_ok _ _ _ W) as B. rewrite <- SZ in B. destruct (rd_some tab (ELEM n1 n2 i j k) B) as (v & V). rewrite V. f_equal. symmetry. unfold entry. now apply (rd_nth tab (ELEM n1 n2 i j k)).
Qed.
(** the buffer *)
Lemma seven {A} (f : Z -> A -> option A) a : for_loop (- MF_W) (MF_W + 1) f a =
  match f (-3)%Z a with None => None | Some a => match f (-2)%Z a with None => None | Some a => match f (-1)%Z a with None => None | Some a =>
  match f 0%Z a with None => None | Some a => match f 1%Z a with None => None | Some a => match f 2%Z a with None => None | Some a => f 3%Z a end end end end end end.
Proof.
  unfold for_loop, MF_W. change (Z.to_nat (3 + 1 - - (3))) with 7%nat. cbn [loop].
  change (-(3) + 1)%Z with (-2)%Z. change (-(3))%Z with (-3)%Z. change (-2 + 1)%Z with (-1)%Z. change (-1 + 1)%Z with 0%Z. change (0 + 1)%Z with 1%Z. change (1 + 1)%Z with 2%Z. change (2 + 1)%Z with 3%Z.
  destruct (f (-3)%Z a) as [a1|]; auto. destruct (f (-2)%Z a1) as [a2|]; auto. destruct (f (-1)%Z a2) as [a3|]; auto. destruct (f 0%Z a3) as [a4|]; auto. destruct (f 1%Z a4) as [a5|]; auto. destruct (f 2%Z a5) as [a6|]; auto.
  destruct (f 3%Z a6); reflexivity.
Qed.
Lemma collect (g : Z -> list R) (f : Z -> list R -> option (list R)) l : (forall i b, In i steps -> f i b = Some (b ++ g i)) ->
  for_loop (- MF_W) (MF_W + 1) f l = Some (l ++ flat_map g steps).
Proof.
  intros H. rewrite seven. unfold steps in *. rewrite !H by (cbn; tauto). cbn [flat_map]. rewrite !app_nil_r, <- !app_assoc. reflexivity.
Qed.
Lemma flat_one (h : Z -> R) l : flat_map (fun a => [h a]) l = map h l.
Proof. induction l as [|x l IH]; [reflexivity|]. cbn. now rewrite IH. Qed.
Lemma buffer_ok i j k : inner n1 n2 n3 i j k -> fill_mdn_buffer n1 n2 MF_W k j i tab = Some (around n1 n2 tab i j k).
Proof.
  intros (A & B & C). unfold fill_mdn_buffer, around.
  assert (ST : forall s, In s steps -> (-3 <= s <= 3)%Z) by (unfold steps; cbn; intros s H; intuition lia).
  rewrite (collect (fun c => flat_map (fun b => map (fun a => entry n1 n2 tab (i + a) (j + b) (k + c)) steps) steps)); [reflexivity|].
  intros c b0 HC. apply ST in HC. rewrite (collect (fun b => map (fun a => entry n1 n2 tab (i + a) (j + b) (k + c)) steps)); [reflexivity|].
  intros b b1 HB. apply ST in HB. rewrite (collect (fun a => [entry n1 n2 tab (i + a) (j + b) (k + c)])); [now rewrite flat_one|].
  intros a b2 HA. apply ST in HA. rewrite entry_rd by (unfold within; lia). reflexivity.
Qed.
Lemma around_length i j k : length (around n1 n2 tab i j k) = 343%nat.
Proof. reflexivity. Qed.
Lemma bad_spec m v : (xltb (Fin EPSSMOOTH) (Fin (Rabs (m - v)) / Fin (Rabs m))%X = true /\ 10 * Rabs m < Rabs (m - v)) \/
                     (xltb (Fin EPSSMOOTH) (Fin (Rabs (m - v)) / Fin (Rabs m))%X = false /\ Rabs (m - v) <= 10 * Rabs m).
Proof.
  unfold EPSSMOOTH. destruct (Req_dec m 0) as [->|N].
  - rewrite Rabs_R0. destruct (Req_dec v 0) as [->|NV].
    + right. rewrite Rminus_0_r, Rabs_R0. split; [|lra]. unfold xdiv. destruct (Reqb_spec 0 0) as [_|]; [|lra]. unfold inf_by. destruct (Rltb_spec 0 0); [lra|]. reflexivity.
    + left. replace (0 - v) with (- v) by ring. rewrite Rabs_Ropp. pose proof (Rabs_pos_lt v NV) as P. split; [|lra].
      unfold xdiv. destruct (Reqb_spec 0 0) as [_|]; [|lra]. unfold inf_by. destruct (Rltb_spec 0 (Rabs v)); [reflexivity|lra].
  - pose proof (Rabs_pos_lt m N) as P. rewrite xdiv_fin by lra. cbn [xltb]. set (q := Rabs (m - v)) in *. assert (Q : q = q / Rabs m * Rabs m) by (field; lra).
    destruct (Rltb_spec 10 (q / Rabs m)) as [L|L]; [left|right]; split; auto.
    + rewrite Q. apply Rmult_lt_compat_r; auto.
    + rewrite Q. apply Rmult_le_compat_r; lra.
Qed.
(** one entry *)
Lemma one_ok i j k out : inner n1 n2 n3 i j k -> length out = length tab ->
  exists out' w, filter_one n1 n2 tab k j i out = Some out' /\ length out' = length tab /\ rd out' (ELEM n1 n2 i j k) = Some w /\
    (forall e, e <> ELEM n1 n2 i j k -> rd out' e = rd out e) /\
    exists m, middle m (around n1 n2 tab i j k) /\ smoothed (entry n1 n2 tab i j k) m w.
Proof.
  intros I L. assert (W : within i j k) by (unfold inner, within in *; lia). pose proof (elem_ok _ _ _ W) as B.
  unfold filter_one. rewrite entry_rd by auto. set (v := entry n1 n2 tab i j k). rewrite buffer_ok by auto.
  destruct (wr_ok out (ELEM n1 n2 i j k) v ltac:(lia)) as (o1 & -> & L1 & R1 & K1).
  pose proof (median_middle (around n1 n2 tab i j k) eq_refl) as M. set (m := find_median (around n1 n2 tab i j k)) in *. clearbody m. cbv zeta.
  destruct (bad_spec m v) as [(-> & Q)|(-> & Q)].
  - destruct (wr_ok o1 (ELEM n1 n2 i j k) m ltac:(lia)) as (o2 & -> & L2 & R2 & K2). exists o2, m. split; [reflexivity|]. split; [lia|]. split; [exact R2|].
    split; [intros e E; rewrite K2, K1 by auto; reflexivity|]. exists m. split; [exact M|]. left. auto.
  - exists o1, v. split; [reflexivity|]. split; [lia|]. split; [exact R1|]. split; [exact K1|]. exists m. split; [exact M|]. right. auto.
Qed.
Definition fine (out : list R) (i j k : Z) : Prop :=
  exists w m, rd out (ELEM n1 n2 i j k) = Some w /\ middle m (around n1 n2 tab i j k) /\ smoothed (entry n1 n2 tab i j k) m w.
(** the state with the entries before (k0, j0, i0) in the order of the loops done *)
Definition upto (k0 j0 i0 : Z) (out : list R) : Prop :=
  length out = length tab /\ forall i j k, within i j k ->
    (inner n1 n2 n3 i j k /\ (k < k0 \/ (k = k0 /\ (j < j0 \/ (j = j0 /\ i < i0))))%Z -> fine out i j k) /\
    (~ (inner n1 n2 n3 i j k /\ (k < k0 \/ (k = k0 /\ (j < j0 \/ (j = j0 /\ i < i0))))%Z) -> rd out (ELEM n1 n2 i j k) = Some (entry n1 n2 tab i j k)).
Lemma upto_eq k0 j0 i0 k1 j1 i1 out : upto k0 j0 i0 out ->
  (forall i j k, inner n1 n2 n3 i j k -> (k < k0 \/ (k = k0 /\ (j < j0 \/ (j = j0 /\ i < i0))))%Z <-> (k < k1 \/ (k = k1 /\ (j < j1 \/ (j = j1 /\ i < i1))))%Z) -> upto k1 j1 i1 out.
Proof.
  intros (L & H) E. split; [exact L|]. intros i j k W. destruct (H i j k W) as (A & B). split.
  - intros (I & C). apply A. split; [auto|]. now apply (E i j k I).
  - intros N. apply B. intros (I & C). apply N. split; [auto|]. now apply (E i j k I).
Qed.
Lemma filter_ok : exists out, smooth n1 n2 n3 tab = Some out /\ length out = length tab /\
  forall i j k, within i j k -> (inner n1 n2 n3 i j k -> fine out i j k) /\ (~ inner n1 n2 n3 i j k -> rd out (ELEM n1 n2 i j k) = Some (entry n1 n2 tab i j k)).
Proof.
  unfold smooth, median_filter. cbv zeta.
  match goal with |- exists out, for_loop _ _ ?f _ = _ /\ _ => destruct (for_inv f (fun k0 out => upto k0 0 0 out) MF_W (n3 - MF_W) tab) as (out & O & LO & HO) end.
  - split; [reflexivity|]. intros i j k W. split; [unfold inner, MF_W; lia|]. intros _. now apply entry_rd.
  - intros k0 o0 K0 U0.
    match goal with |- exists out, for_loop _ _ ?f _ = _ /\ _ => destruct (for_inv f (fun j0 out => upto k0 j0 0 out) MF_W (n2 - MF_W) o0) as (o1 & O1 & U1) end.
    + eapply upto_eq; [exact U0|]. unfold inner, MF_W. intros. lia.
    + intros j0 o2 J0 U2.
      match goal with |- exists out, for_loop _ _ ?f _ = _ /\ _ => destruct (for_inv f (fun i0 out => upto k0 j0 i0 out) MF_W (n1 - MF_W) o2) as (o3 & O3 & U3) end.
      * eapply upto_eq; [exact U2|]. unfold inner, MF_W. intros. lia.
      * intros i0 o4 I0 (L4 & U4). unfold MF_W in *.
        assert (IN : inner n1 n2 n3 i0 j0 k0) by (unfold inner; lia).
        destruct (one_ok i0 j0 k0 o4 IN L4) as (o5 & w & -> & L5 & R5 & K5 & m & M5 & S5). exists o5. split; [reflexivity|].
        split; [exact L5|]. assert (W0 : within i0 j0 k0) by (unfold inner, within in *; lia).
        intros i j k W. destruct (U4 i j k W) as (A & B).
        assert (D : (i = i0 /\ j = j0 /\ k = k0) \/ ELEM n1 n2 i j k <> ELEM n1 n2 i0 j0 k0).
        { destruct (Z.eq_dec (ELEM n1 n2 i j k) (ELEM n1 n2 i0 j0 k0)) as [E|E]; [left; now apply elem_inj|now right]. }
        destruct D as [(-> & -> & ->)|D].
        -- split; [intros _; exists w, m; auto|]. intros N. exfalso. apply N. split; [exact IN|]. lia.
        -- assert (ND : ~ (i = i0 /\ j = j0 /\ k = k0)) by (intros (-> & -> & ->); now apply D). split.
           ++ intros (I & C). destruct A as (v & q & R & Q); [split; [exact I|lia]|]. exists v, q. rewrite K5 by exact D. auto.
           ++ intros N. rewrite K5 by exact D. apply B. intros (I & C). apply N. split; [exact I|lia].
      * exists o3. split; [exact O3|]. eapply upto_eq; [exact U3|]. unfold inner, MF_W. intros. lia.
    + exists o1. split; [exact O1|]. eapply upto_eq; [exact U1|]. unfold inner, MF_W. intros. lia.
  - exists out. split; [exact O|]. split; [exact LO|]. intros i j k W. destruct (HO i j k W) as (A & B). unfold inner, MF_W in *. split.
    + intros I. apply A. split; [exact I|]. lia.
    + intros N. apply B. intros (I & _). now apply N.
Qed.
End Filter.
