(** Proofs about the tables of opacities. *)
From Coq Require Import Reals Bool ZArith List Lra Lia.
From Verif Require Import RLib XLib IntLib TabModel TabSpec TabProofs OpacModel OpacSpec.
Import ListNotations.
Open Scope R_scope.

(** ** Slots *)
Lemma radix_inj q r q' r' m : (0 <= r < m)%Z -> (0 <= r' < m)%Z -> (q * m + r = q' * m + r')%Z -> q = q' /\ r = r'.
Proof. intros A B E. assert (q = q') by nia. subst. lia. Qed.
Lemma radix_in q r Q m : (0 <= q < Q)%Z -> (0 <= r < m)%Z -> (0 <= q * m + r < Q * m)%Z.
Proof. nia. Qed.
Lemma radix_onto a Q m : (0 < m)%Z -> (0 <= a < Q * m)%Z -> exists q r, (0 <= q < Q)%Z /\ (0 <= r < m)%Z /\ a = (q * m + r)%Z.
Proof.
  intros M A. exists (a / m)%Z, (a mod m)%Z. pose proof (Z.div_mod a m ltac:(lia)). pose proof (Z.mod_pos_bound a m M).
  split; [split; [apply Z.div_pos; lia|apply Z.div_lt_upper_bound; lia]|]. split; [auto|lia].
Qed.
Lemma slot_inj n1 n2 n3 nt nb i j k t n i' j' k' t' n' : inside n1 n2 n3 nt nb i j k t n -> inside n1 n2 n3 nt nb i' j' k' t' n' ->
  slot n1 n2 nt nb i j k t n = slot n1 n2 nt nb i' j' k' t' n' -> i = i' /\ j = j' /\ k = k' /\ t = t' /\ n = n'.
Proof.
  intros (A1 & A2 & A3 & A4 & A5) (B1 & B2 & B3 & B4 & B5) E. unfold slot in E.
  apply radix_inj in E; auto. destruct E as (E & ->). apply radix_inj in E; auto. destruct E as (E & ->).
  apply radix_inj in E; auto. destruct E as (E & ->). apply radix_inj in E; auto. destruct E as (-> & ->). auto.
Qed.
Lemma slot_in n1 n2 n3 nt nb i j k t n : inside n1 n2 n3 nt nb i j k t n -> (0 <= slot n1 n2 nt nb i j k t n < n1 * n2 * n3 * nt * nb)%Z.
Proof.
  intros (A1 & A2 & A3 & A4 & A5). unfold slot. replace (n1 * n2 * n3 * nt * nb)%Z with (n3 * n2 * n1 * nt * nb)%Z by ring.
  repeat (apply radix_in; [|auto]). auto.
Qed.
Lemma slot_onto n1 n2 n3 nt nb a : (0 < n1)%Z -> (0 < n2)%Z -> (0 < nt)%Z -> (0 < nb)%Z -> (0 <= a < n1 * n2 * n3 * nt * nb)%Z ->
  exists i j k t n, inside n1 n2 n3 nt nb i j k t n /\ a = slot n1 n2 nt nb i j k t n.
Proof.
  intros N1 N2 N3 N4 A. replace (n1 * n2 * n3 * nt * nb)%Z with (n3 * n2 * n1 * nt * nb)%Z in A by ring.
  destruct (radix_onto _ _ _ N4 A) as (q & n & Q & B & ->). destruct (radix_onto _ _ _ N3 Q) as (q1 & t & Q1 & B1 & ->).
  destruct (radix_onto _ _ _ N1 Q1) as (q2 & i & Q2 & B2 & ->). destruct (radix_onto _ _ _ N2 Q2) as (k & j & Q3 & B3 & ->).
  exists i, j, k, t, n. split; [repeat split; lia|reflexivity].
Qed.
Lemma elem_slot o i j k t n : ELEM5D o i j k t n = slot (ax_n (lrhos o)) (ax_n (lTs o)) (ntypes o) (ngroups o) i j k t n.
Proof. unfold ELEM5D, slot. ring. Qed.
Lemma grid_slot o i j k t n : ELEM5DGRID o i j k t n = slot (ax_n (lrhos o)) (ax_n (lTs o)) (ntypes o) (ax_n (lNus o)) i j k t n.
Proof. unfold ELEM5DGRID, slot. ring. Qed.

(** ** Loops *)
Lemma in_range n i : In i (range n) <-> (0 <= i < n)%Z.
Proof.
  unfold range. rewrite in_map_iff. split.
  - intros (m & <- & H). apply in_seq in H. lia.
  - intros H. exists (Z.to_nat i). split; [lia|]. apply in_seq. lia.
Qed.
Section Loop.
Context {S : Type} (I : S -> Prop) (le : S -> S -> Prop).
Hypothesis le_refl : forall s, le s s.
Hypothesis le_trans : forall a b c, le a b -> le b c -> le a c.
Lemma each_ok (f : Z -> S -> option S) (D : Z -> S -> Prop) l :
  (forall i a b, le a b -> D i a -> D i b) ->
  (forall i s, In i l -> I s -> exists s', f i s = Some s' /\ I s' /\ le s s' /\ D i s') ->
  forall s, I s -> exists s', each f l s = Some s' /\ I s' /\ le s s' /\ forall i, In i l -> D i s'.
Proof.
  intros M. induction l as [|i l IH]; intros F s Hs; [exists s; repeat split; auto; intros i []|].
  destruct (F i s (or_introl eq_refl) Hs) as (s1 & E1 & I1 & L1 & D1). cbn [each]. rewrite E1.
  destruct (IH (fun i' s' H => F i' s' (or_intror H)) s1 I1) as (s2 & E2 & I2 & L2 & D2).
  exists s2. split; [exact E2|]. split; [exact I2|]. split; [eapply le_trans; eauto|].
  intros i' [<-|H]; [eapply M; eauto|auto].
Qed.
End Loop.
Lemma each_none {S} (f : Z -> S -> option S) l i : In i l -> (forall s, f i s = None) -> forall s, each f l s = None.
Proof.
  induction l as [|a l IH]; intros H F s; [destruct H|]. cbn [each]. destruct H as [->|H]; [now rewrite F|].
  destruct (f a s); [now apply IH|reflexivity].
Qed.
Lemma nth_error_skip {A} : forall n (l : list A) i, nth_error (skipn n l) i = nth_error l (n + i).
Proof. induction n as [|n IH]; intros l i; [reflexivity|]. destruct l as [|a l]; [cbn; now destruct i|]. cbn. apply IH. Qed.
Lemma rd_skip {A} (l : list A) e i : (0 <= e)%Z -> (0 <= i)%Z -> rd (skipn (Z.to_nat e) l) i = rd l (e + i).
Proof.
  intros E H. unfold rd. destruct (Z.ltb_spec i 0), (Z.ltb_spec (e + i) 0); try lia. rewrite nth_error_skip. f_equal. lia.
Qed.
Lemma rd_map_seq {A} (f : nat -> A) m i : (0 <= i < Z.of_nat m)%Z -> rd (map f (seq 0 m)) i = Some (f (Z.to_nat i)).
Proof.
  intros H. unfold rd. destruct (Z.ltb_spec i 0); [lia|]. rewrite nth_error_map.
  assert (E : nth_error (seq 0 m) (Z.to_nat i) = Some (Z.to_nat i)).
  { rewrite (nth_error_nth' _ 0%nat) by (rewrite seq_length; lia). rewrite seq_nth by lia. reflexivity. }
  now rewrite E.
Qed.
Lemma collect_map {A} (g : Z -> option A) n : (0 <= n)%Z -> (forall i, (0 <= i < n)%Z -> exists v, g i = Some v) ->
  exists l, collect (map g (range n)) = Some l /\ Z.of_nat (length l) = n /\ forall i, (0 <= i < n)%Z -> rd l i = g i.
Proof.
  intros N G. assert (C : forall m s, (forall i, In i (map Z.of_nat (seq s m)) -> exists v, g i = Some v) ->
    exists l, collect (map g (map Z.of_nat (seq s m))) = Some l /\ length l = m /\ forall i, (i < m)%nat -> nth_error l i = g (Z.of_nat (s + i))).
  { induction m as [|m IH]; intros s H; cbn [seq map collect]; [exists []; repeat split; lia|].
    destruct (H (Z.of_nat s)) as (v & E); [now left|]. rewrite E. destruct (IH (Datatypes.S s)) as (l & -> & L & R); [intros i I; apply H; now right|].
    exists (v :: l). split; [reflexivity|]. split; [cbn; lia|]. intros [|i] Hi; cbn; [now rewrite Nat.add_0_r, E|].
    rewrite R by lia. f_equal. lia. }
  destruct (C (Z.to_nat n) 0%nat) as (l & E & L & R).
  { intros i I. apply G. now apply in_range. }
  exists l. split; [exact E|]. split; [lia|]. intros i Hi. unfold rd. destruct (Z.ltb_spec i 0); [lia|].
  rewrite R by lia. f_equal. lia.
Qed.

(** ** The groups *)
Lemma ln_nu_of lo hi m n : 0 < lo -> 0 < hi -> ln (nu_of lo hi m n) = ln lo + IZR n / IZR m * (ln hi - ln lo).
Proof.
  intros L H. unfold nu_of. rewrite ln_mult; [|auto|apply exp_pos]. unfold Rpower at 1. rewrite ln_exp.
  unfold Rdiv at 2. rewrite ln_mult; [|auto|now apply Rinv_0_lt_compat]. rewrite ln_Rinv by auto. ring.
Qed.
Lemma nu_of_pos lo hi m n : 0 < lo -> 0 < nu_of lo hi m n.
Proof. intros L. unfold nu_of. apply Rmult_lt_0_compat; [auto|apply exp_pos]. Qed.
Section Groups.
Variable o : opac.
Hypothesis NB : (2 <= ngroups o <= 2147483647)%Z.
Hypothesis NU : 0 < numin o < numax o.
Lemma groups_pos : 1 <= IZR (ngroups o - 1).
Proof. apply (IZR_le 1). lia. Qed.
Lemma rd_group n : (0 <= n < ngroups o)%Z -> rd (lnugroup o) n = Some (ln (nu_of (numin o) (numax o) (ngroups o - 1) n)).
Proof.
  intros H. unfold lnugroup. rewrite rd_map_seq by lia. f_equal. rewrite ln_nu_of by lra. rewrite INR_IZR_INZ, Z2Nat.id by lia.
  unfold dlnu, lnu_min, lnu_max. pose proof groups_pos. field. lra.
Qed.
Lemma group_uniform : uniform (lnugroup o) 0 (ngroups o) (lnu_min o) (dlnu o).
Proof.
  intros n H. unfold lnugroup. rewrite rd_map_seq by lia. f_equal. rewrite INR_IZR_INZ, Z2Nat.id by lia. rewrite Z.sub_0_r. ring.
Qed.
Lemma dlnu_top : lnu_max o = lnu_min o + IZR (ngroups o - 0 - 1) * dlnu o.
Proof. unfold dlnu. rewrite Z.sub_0_r. pose proof groups_pos. field. lra. Qed.
End Groups.
Lemma lerp_of a b t v d : 0 < d -> (v - a) * d = (b - a) * t -> v = lerp (t / d) a b.
Proof. intros D E. unfold lerp. assert (v - a = t / d * (b - a)) by (apply (Rmult_eq_reg_r d); [rewrite E; field; lra|lra]). lra. Qed.

(** ** Building the tables *)
Section Init.
Variables (o : opac) (dn : R) (grid : list R).
Let n1 := ax_n (lrhos o). Let n2 := ax_n (lTs o). Let n3 := ax_n (Yes o). Let nt := ntypes o. Let nb := ngroups o. Let nn := ax_n (lNus o).
Let lo := nth 0 (lNus o) 0. Let top := nth (length (lNus o) - 1) (lNus o) 0.
Let nu n := nu_of (numin o) (numax o) (ngroups o - 1) n.
Hypothesis EN : even (lNus o) dn.
Hypothesis SM : SMALL < dn.
Hypothesis NB : (2 <= ngroups o <= 2147483647)%Z.
Hypothesis NT : (1 <= ntypes o)%Z.
Hypothesis NU : 0 < numin o < numax o.
Hypothesis LG : Z.of_nat (length grid) = (n1 * n2 * n3 * nt * nn)%Z.
Hypothesis P1 : (0 < n1)%Z.
Hypothesis P2 : (0 < n2)%Z.
Hypothesis P3 : (0 < n3)%Z.

Lemma nn2 : (2 <= nn <= 2147483647)%Z.
Proof. destruct EN as (A & B & _). unfold nn, ax_n. lia. Qed.
Lemma top_is : top = lo + IZR (nn - 0 - 1) * dn.
Proof. unfold top, lo, nn. rewrite Z.sub_0_r. apply (ax_max_spec _ _ EN). Qed.
Lemma group_in_grid i j k t : (0 <= i < n1)%Z -> (0 <= j < n2)%Z -> (0 <= k < n3)%Z -> (0 <= t < nt)%Z ->
  (0 <= ELEM5DGRID o i j k t 0)%Z /\ (ELEM5DGRID o i j k t 0 + nn <= n1 * n2 * n3 * nt * nn)%Z.
Proof.
  intros I J K T. pose proof nn2. assert (A : inside n1 n2 n3 nt nn i j k t 0) by (repeat split; lia).
  assert (B : inside n1 n2 n3 nt nn i j k t (nn - 1)) by (repeat split; lia).
  apply slot_in in A, B. rewrite grid_slot. fold n1 n2 nt nn. unfold slot in *. lia.
Qed.
Definition at_group (i j k t n : Z) : option R :=
  finite (interp_1d (Fin (ln (nu n))) lo top 0 nn (lNus o) (skipn (Z.to_nat (ELEM5DGRID o i j k t 0)) grid)).
Lemma at_group_ok i j k t n : (0 <= i < n1)%Z -> (0 <= j < n2)%Z -> (0 <= k < n3)%Z -> (0 <= t < nt)%Z -> ln (nu n) <> top ->
  exists r q xq y0 y1, placed lo top SMALL (Fin (ln (nu n))) r /\ cell (lNus o) dn r q xq /\
    rd grid (slot n1 n2 nt nn i j k t q) = Some y0 /\ rd grid (slot n1 n2 nt nn i j k t (q + 1)) = Some y1 /\
    at_group i j k t n = Some (lerp ((r - xq) / dn) y0 y1).
Proof.
  intros I J K T X. destruct (group_in_grid i j k t I J K T) as (G1 & G2). pose proof nn2 as N2. pose proof EN as (E1 & E2 & D & U).
  assert (LS : (nn <= Z.of_nat (length (skipn (Z.to_nat (ELEM5DGRID o i j k t 0)) grid)))%Z) by (rewrite skipn_length; lia).
  assert (NX : Fin (ln (nu n)) <> Fin top) by congruence.
  destruct (interp_in lo top dn 0 nn (lNus o) _ ltac:(lia) ltac:(lia) ltac:(lia) SM top_is U LS (Fin (ln (nu n))) ltac:(discriminate) NX)
    as (r & q & y0 & y1 & v & PL & Q0 & Q1 & R0 & R1 & V & CB & LV & _).
  rewrite rd_skip in R0, R1 by lia. rewrite Z.sub_0_r in *. rewrite grid_slot in R0, R1.
  exists r, q, (lo + IZR q * dn), y0, y1. split; [exact PL|].
  assert (F0 : rd (lNus o) q = Some (lo + IZR q * dn)) by (rewrite (U q) by (unfold nn, ax_n in *; lia); now rewrite Z.sub_0_r).
  assert (F1 : rd (lNus o) (q + 1) = Some (lo + IZR q * dn + dn)).
  { rewrite (U (q + 1)%Z) by (unfold nn, ax_n in *; lia). f_equal. rewrite Z.sub_0_r, plus_IZR. fold lo. ring. }
  split.
  { split; [auto|]. split; [unfold nn, ax_n in *; lia|]. split; [exact F0|]. split; [exact F1|]. rewrite Z.sub_0_r, plus_IZR in CB. lra. }
  replace (slot n1 n2 nt nn i j k t q) with (slot (ax_n (lrhos o)) (ax_n (lTs o)) (ntypes o) (ax_n (lNus o)) i j k t 0 + q)%Z by (unfold slot, n1, n2, nt, nn; ring).
  replace (slot n1 n2 nt nn i j k t (q + 1)) with (slot (ax_n (lrhos o)) (ax_n (lTs o)) (ntypes o) (ax_n (lNus o)) i j k t 0 + (q + 1))%Z by (unfold slot, n1, n2, nt, nn; ring).
  split; [exact R0|]. split; [exact R1|]. unfold at_group. rewrite V. cbn [finite]. f_equal. apply lerp_of; auto.
Qed.

Hypothesis OFF : forall n, (0 <= n < nb)%Z -> ln (nu n) <> top.
Let val i j k t n : R := match at_group i j k t n with Some v => v | None => 0 end.
Let I (b : buffer) : Prop :=
  (forall a v, b a = Some v -> exists i j k t n, inside n1 n2 n3 nt nb i j k t n /\ a = slot n1 n2 nt nb i j k t n /\ v = val i j k t n).
Let le (a b : buffer) : Prop := forall x, a x <> None -> b x <> None.
Let D5 i j k t n (b : buffer) : Prop := b (slot n1 n2 nt nb i j k t n) <> None.
Let D4 i j k t (b : buffer) : Prop := forall n, In n (range nb) -> D5 i j k t n b.
Let D3 i j k (b : buffer) : Prop := forall t, In t (range nt) -> D4 i j k t b.
Let D2 i j (b : buffer) : Prop := forall k, In k (range n3) -> D3 i j k b.
Let D1 i (b : buffer) : Prop := forall j, In j (range n2) -> D2 i j b.
Lemma regrid_loops : exists b, regrid o grid = Some b /\ I b /\ le fresh b /\ forall i, In i (range n1) -> D1 i b.
Proof.
  assert (LR : forall s : buffer, le s s) by (intros s x; auto).
  assert (LT : forall a b c : buffer, le a b -> le b c -> le a c) by (intros a b c A B x H; auto).
  unfold regrid. apply (each_ok I le LR LT _ D1).
  { intros i a b L H j Hj k Hk t Ht n Hn. apply L, H; auto. }
  2:{ intros a v E. discriminate. }
  intros i s Hi Is. apply (each_ok I le LR LT _ (D2 i)); [|clear s Is; intros j s Hj Is|exact Is].
  { intros j a b L H k Hk t Ht n Hn. apply L, H; auto. }
  apply (each_ok I le LR LT _ (D3 i j)); [|clear s Is; intros k s Hk Is|exact Is].
  { intros k a b L H t Ht n Hn. apply L, H; auto. }
  apply (each_ok I le LR LT _ (D4 i j k)); [|clear s Is; intros t s Ht Is|exact Is].
  { intros t a b L H n Hn. apply L, H; auto. }
  cbv beta zeta. apply (each_ok I le LR LT _ (D5 i j k t)); [|clear s Is; intros n s Hn Is|exact Is].
  { intros n a b L H. apply L, H; auto. }
  apply in_range in Hi, Hj, Hk, Ht, Hn.
  assert (IN : inside n1 n2 n3 nt nb i j k t n) by (repeat split; lia).
  rewrite rd_group by auto. fold (nu n). fold lo top nn.
  destruct (at_group_ok i j k t n Hi Hj Hk Ht (OFF n Hn)) as (r & q & xq & y0 & y1 & _ & _ & _ & _ & V).
  unfold at_group in V. rewrite V. rewrite elem_slot. fold n1 n2 nt nb.
  pose proof (slot_in _ _ _ _ _ _ _ _ _ _ IN) as SI. unfold store, tab_size. fold n1 n2 n3 nt nb.
  destruct (Z.leb_spec 0 (slot n1 n2 nt nb i j k t n)); [|lia]. destruct (Z.ltb_spec (slot n1 n2 nt nb i j k t n) (n1 * n2 * n3 * nt * nb)); [|lia].
  cbn [andb]. eexists. split; [reflexivity|]. split; [|split].
  - intros a v. destruct (Z.eqb_spec a (slot n1 n2 nt nb i j k t n)) as [->|NE]; [|apply Is].
    intros E. injection E as <-. exists i, j, k, t, n. split; [exact IN|]. split; [reflexivity|]. unfold val, at_group. now rewrite V.
  - intros x Hx. destruct (Z.eqb_spec x (slot n1 n2 nt nb i j k t n)); [discriminate|exact Hx].
  - unfold D5. rewrite Z.eqb_refl. discriminate.
Qed.
Lemma regrid_ok : exists b, regrid o grid = Some b /\ (forall a, b a <> None <-> (0 <= a < n1 * n2 * n3 * nt * nb)%Z) /\
  forall i j k t n, inside n1 n2 n3 nt nb i j k t n ->
  exists r q xq y0 y1, placed lo top SMALL (Fin (ln (nu n))) r /\ cell (lNus o) dn r q xq /\
    rd grid (slot n1 n2 nt nn i j k t q) = Some y0 /\ rd grid (slot n1 n2 nt nn i j k t (q + 1)) = Some y1 /\
    b (slot n1 n2 nt nb i j k t n) = Some (lerp ((r - xq) / dn) y0 y1).
Proof.
  destruct regrid_loops as (b & E & Ib & _ & D). exists b. split; [exact E|].
  assert (DD : forall i j k t n, inside n1 n2 n3 nt nb i j k t n -> b (slot n1 n2 nt nb i j k t n) <> None).
  { intros i j k t n (A1 & A2 & A3 & A4 & A5). apply in_range in A1, A2, A3, A4, A5. exact (D i A1 j A2 k A3 t A4 n A5). }
  split.
  - intros a. split.
    + intros H. destruct (b a) as [v|] eqn:B; [|congruence]. destruct (Ib a v B) as (i & j & k & t & n & IN & -> & _). now apply slot_in.
    + intros H. assert (0 < nt /\ 0 < nb)%Z by (unfold nt, nb; lia). destruct (slot_onto n1 n2 n3 nt nb a) as (i & j & k & t & n & IN & ->); try tauto. auto.
  - intros i j k t n IN. pose proof (DD _ _ _ _ _ IN) as H. destruct (b (slot n1 n2 nt nb i j k t n)) as [v|] eqn:B; [clear H|congruence].
    destruct (Ib _ _ B) as (i' & j' & k' & t' & n' & IN' & S & ->). destruct (slot_inj _ _ _ _ _ _ _ _ _ _ _ _ _ _ _ IN IN' S) as (<- & <- & <- & <- & <-).
    destruct IN as (A1 & A2 & A3 & A4 & A5). destruct (at_group_ok i j k t n A1 A2 A3 A4 (OFF n A5)) as (r & q & xq & y0 & y1 & F1 & F2 & F3 & F4 & F5).
    exists r, q, xq, y0, y1. repeat (split; [assumption|]). unfold val. now rewrite F5.
Qed.
End Init.

(** the highest group on the highest tabulated frequency *)
Lemma regrid_top o dn grid : even (lNus o) dn -> SMALL < dn -> (2 <= ngroups o <= 2147483647)%Z -> (1 <= ntypes o)%Z -> 0 < numin o < numax o ->
  Z.of_nat (length grid) = (ax_n (lrhos o) * ax_n (lTs o) * ax_n (Yes o) * ntypes o * ax_n (lNus o))%Z ->
  (0 < ax_n (lrhos o))%Z -> (0 < ax_n (lTs o))%Z -> (0 < ax_n (Yes o))%Z ->
  ln (numax o) = nth (length (lNus o) - 1) (lNus o) 0 -> regrid o grid = None.
Proof.
  intros EN SM NB NT NU LG P1 P2 P3 TOP. unfold regrid.
  apply (each_none _ _ (ax_n (lrhos o) - 1)); [apply in_range; lia|]. apply (each_none _ _ (ax_n (lTs o) - 1)); [apply in_range; lia|].
  apply (each_none _ _ (ax_n (Yes o) - 1)); [apply in_range; lia|]. apply (each_none _ _ (ntypes o - 1)); [apply in_range; lia|].
  cbv zeta. apply (each_none _ _ (ngroups o - 1)); [apply in_range; lia|]. intros s. rewrite rd_group by (auto; lia).
  assert (E : ln (nu_of (numin o) (numax o) (ngroups o - 1) (ngroups o - 1)) = nth (length (lNus o) - 1) (lNus o) 0).
  { rewrite ln_nu_of by lra. pose proof (groups_pos o NB). rewrite <- TOP. field. lra. }
  rewrite E. destruct EN as (E1 & E2 & D & U) eqn:EE.
  rewrite (interp_end _ _ dn); [reflexivity|lia|unfold ax_n; lia|unfold ax_n; lia|exact SM| |].
  { rewrite Z.sub_0_r. apply (ax_max_spec (lNus o) dn). exact EN. }
  rewrite skipn_length.
  assert (Q : (ELEM5DGRID o (ax_n (lrhos o) - 1) (ax_n (lTs o) - 1) (ax_n (Yes o) - 1) (ntypes o - 1) 0 + ax_n (lNus o) = Z.of_nat (length grid))%Z).
  { rewrite LG. unfold ELEM5DGRID. ring. }
  assert (0 <= ELEM5DGRID o (ax_n (lrhos o) - 1) (ax_n (lTs o) - 1) (ax_n (Yes o) - 1) (ntypes o - 1) 0)%Z.
  { rewrite grid_slot. refine (proj1 (slot_in _ _ (ax_n (Yes o)) _ _ _ _ _ _ _ _)). unfold ax_n in *. repeat split; lia. }
  unfold ax_n in *. lia.
Qed.

(** ** Finding the cell *)
Lemma step_is a d : even a d -> step a = d.
Proof.
  intros (L & M & D & U). unfold step. pose proof (U 1%Z ltac:(lia)) as H. apply rd_nth in H. change (Z.to_nat 1) with 1%nat in H. rewrite H.
  change (IZR (1 - 0)) with 1. ring.
Qed.
Lemma locate_ok a d r : even a d -> ax_min a <= r < ax_max a -> exists i xi, locate a (Fin r) = Some (i, (r - xi) / d) /\ cell a d r i xi.
Proof.
  intros E R. destruct (index_in a d E r R) as (i & xi & A1 & A2 & A3 & A4 & A5 & A6). exists i, xi. unfold locate.
  rewrite (step_is a d E). unfold index in A1. rewrite (ax_d_spec a d E) in A1. rewrite A1, A4.
  destruct E as (_ & _ & D & _). unfold xsub. cbn [xopp xadd]. rewrite xdiv_fin by lra. cbn [finite]. split; [reflexivity|].
  repeat split; auto; lra.
Qed.
Lemma pow10_log r : 0 < r -> Rpower 10 (ln r / ln 10) = r.
Proof.
  intros H. unfold Rpower. assert (ln 10 <> 0) by (apply Rgt_not_eq; rewrite <- ln_1; apply ln_increasing; lra).
  replace (ln r / ln 10 * ln 10) with (ln r) by (field; auto). now apply exp_ln.
Qed.
Lemma pow10_lt a b : Rpower 10 a < Rpower 10 b -> a < b.
Proof.
  intros H. destruct (Rlt_le_dec a b); [auto|exfalso]. apply (Rle_Rpower 10) in r; lra.
Qed.
Lemma pow10_le a b : Rpower 10 a <= Rpower 10 b -> a <= b.
Proof.
  intros H. destruct (Rle_lt_dec a b); [auto|exfalso]. apply (Rpower_lt 10) in r; lra.
Qed.
Lemma x2lx_ok a d x : even a d -> TOL < d -> x <> NaN ->
  exists r, x2lx a x = Fin r /\ placed10 (ax_min a) (ax_max a) TOL x r /\ ax_min a <= r < ax_max a.
Proof.
  intros E T N. pose proof (ax_lt a d E) as L. pose proof TOL_pos as P. unfold x2lx, pow10, placed10.
  assert (PP : Rpower 10 (ax_min a) < Rpower 10 (ax_max a)) by (apply Rpower_lt; lra).
  destruct x as [y| | |]; try congruence.
  - cbn [xltb xleb]. destruct (Rltb_spec y (Rpower 10 (ax_min a))) as [A|A]; [exists (ax_min a); split; [reflexivity|split; [auto|lra]]|].
    destruct (Rleb_spec (Rpower 10 (ax_max a)) y) as [B|B]; [exists (ax_max a - TOL); split; [reflexivity|split; [auto|lra]]|].
    assert (0 < Rpower 10 (ax_min a)) by apply exp_pos. exists (ln y / ln 10). cbn [xlog10]. rewrite Rltb_true by lra.
    split; [reflexivity|]. assert (Q : Rpower 10 (ln y / ln 10) = y) by (apply pow10_log; lra).
    split; [right; left; split; [lra|exact Q]|]. split; [apply pow10_le; lra|apply pow10_lt; lra].
  - cbn [xltb xleb]. exists (ax_max a - TOL). split; [reflexivity|]. split; [reflexivity|lra].
  - cbn [xltb xleb]. exists (ax_min a). split; [reflexivity|]. split; [reflexivity|lra].
Qed.

(** ** Interpolation in density, temperature and electron fraction *)
Section Fill.
Variables (o : opac) (dr dt dy : R).
Let n1 := ax_n (lrhos o). Let n2 := ax_n (lTs o). Let n3 := ax_n (Yes o). Let nt := ntypes o. Let nb := ngroups o.
Hypothesis E1 : even (lrhos o) dr.
Hypothesis E2 : even (lTs o) dt.
Hypothesis E3 : even (Yes o) dy.
Hypothesis T1 : TOL < dr.
Hypothesis T2 : TOL < dt.
Hypothesis T3 : TOL < dy.
Hypothesis NB : (1 <= ngroups o)%Z.
Hypothesis NT : (1 <= ntypes o)%Z.
Lemma interp_3d_ok rho T Ye : rho <> NaN -> T <> NaN -> Ye <> NaN ->
  exists i j k xi xj xk r t y,
    placed10 (ax_min (lrhos o)) (ax_max (lrhos o)) TOL rho r /\ placed10 (ax_min (lTs o)) (ax_max (lTs o)) TOL T t /\ placed (ax_min (Yes o)) (ax_max (Yes o)) TOL Ye y /\
    cell (lrhos o) dr r i xi /\ cell (lTs o) dt t j xj /\ cell (Yes o) dy y k xk /\
    forall tab f, (forall i j k t n, inside n1 n2 n3 nt nb i j k t n -> tab (slot n1 n2 nt nb i j k t n) = Some (f i j k t n)) ->
    exists rows, interp_3d_to_1d o rho T Ye tab = Some rows /\ Z.of_nat (length rows) = nt /\
    forall s, (0 <= s < nt)%Z -> exists row, rd rows s = Some row /\ Z.of_nat (length row) = nb /\
      forall n, (0 <= n < nb)%Z -> rd row n = Some
        (lerp ((y - xk) / dy)
          (lerp ((t - xj) / dt) (lerp ((r - xi) / dr) (f i j k s n) (f (i + 1)%Z j k s n)) (lerp ((r - xi) / dr) (f i (j + 1)%Z k s n) (f (i + 1)%Z (j + 1)%Z k s n)))
          (lerp ((t - xj) / dt) (lerp ((r - xi) / dr) (f i j (k + 1)%Z s n) (f (i + 1)%Z j (k + 1)%Z s n))
                                (lerp ((r - xi) / dr) (f i (j + 1)%Z (k + 1)%Z s n) (f (i + 1)%Z (j + 1)%Z (k + 1)%Z s n)))).
Proof.
  intros N1 N2 N3.
  destruct (x2lx_ok _ _ rho E1 T1 N1) as (r & XR & PR & BR). destruct (x2lx_ok _ _ T E2 T2 N2) as (t & XT & PT & BT).
  assert (NN : true = false -> Ye <> Fin (ax_max (Yes o))) by discriminate.
  destruct (catch_in _ _ E3 T3 true Ye N3 NN) as (y & XY & BY & PY). change (catch true (Yes o) Ye) with (catch_ye (Yes o) Ye) in XY.
  destruct (locate_ok _ _ r E1 BR) as (i & xi & LI & CI). destruct (locate_ok _ _ t E2 BT) as (j & xj & LJ & CJ). destruct (locate_ok _ _ y E3 BY) as (k & xk & LK & CK).
  exists i, j, k, xi, xj, xk, r, t, y. repeat (split; [assumption|]). intros tab f F.
  unfold interp_3d_to_1d. rewrite XR, XT, XY, LI, LJ, LK.
  set (g := fun s n => entry8 o tab i j k ((r - xi) / dr) ((t - xj) / dt) ((y - xk) / dy) s n).
  assert (G : forall s n, (0 <= s < nt)%Z -> (0 <= n < nb)%Z -> g s n = Some
        (lerp ((y - xk) / dy)
          (lerp ((t - xj) / dt) (lerp ((r - xi) / dr) (f i j k s n) (f (i + 1)%Z j k s n)) (lerp ((r - xi) / dr) (f i (j + 1)%Z k s n) (f (i + 1)%Z (j + 1)%Z k s n)))
          (lerp ((t - xj) / dt) (lerp ((r - xi) / dr) (f i j (k + 1)%Z s n) (f (i + 1)%Z j (k + 1)%Z s n))
                                (lerp ((r - xi) / dr) (f i (j + 1)%Z (k + 1)%Z s n) (f (i + 1)%Z (j + 1)%Z (k + 1)%Z s n))))).
  { intros s n Hs Hn. unfold g, entry8. rewrite !elem_slot. fold n1 n2 nt nb.
    destruct CI as (I0 & I1 & _), CJ as (J0 & J1 & _), CK as (K0 & K1 & _). fold (ax_n (lrhos o)) in I1. fold (ax_n (lTs o)) in J1. fold (ax_n (Yes o)) in K1. fold n1 in I1. fold n2 in J1. fold n3 in K1.
    rewrite !F by (repeat split; lia). f_equal. unfold lerp. ring. }
  destruct (collect_map (fun s => collect (map (g s) (range nb))) nt ltac:(unfold nt; lia)) as (rows & C & L & R).
  { intros s Hs. destruct (collect_map (g s) nb ltac:(unfold nb; lia)) as (row & C & _); [intros n Hn; rewrite G by auto; eauto|eauto]. }
  exists rows. repeat (split; [assumption|]). intros s Hs.
  destruct (collect_map (g s) nb ltac:(unfold nb; lia)) as (row & C1 & L1 & R1); [intros n Hn; rewrite G by auto; eauto|].
  exists row. split; [rewrite R by auto; exact C1|]. split; [exact L1|]. intros n Hn. rewrite R1 by auto. now apply G.
Qed.
End Fill.
