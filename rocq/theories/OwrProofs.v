(** Proofs about the writing of the table of opacities (C121). *)
From Coq Require Import Reals Bool ZArith List Lra Lia Psatz.
From Verif Require Import RLib XLib IntLib TabModel TabSpec TabProofs InvModel OpacModel OpacSpec OpacProofs OwrModel OwrSpec.
Import ListNotations.
Open Scope R_scope.

Lemma each_upto {S} (P : Z -> S -> Prop) (f : Z -> S -> option S) n : (0 <= n)%Z ->
  (forall i s, (0 <= i < n)%Z -> P i s -> exists s', f i s = Some s' /\ P (i + 1)%Z s') -> forall s, P 0%Z s -> exists s', each f (range n) s = Some s' /\ P n s'.
Proof.
  intros N F. assert (G : forall m k s, (Z.of_nat (k + m) = n)%Z -> P (Z.of_nat k) s -> exists s', each f (map Z.of_nat (seq k m)) s = Some s' /\ P n s').
  { induction m as [|m IH]; intros k s E H; cbn [seq map each].
    - exists s. split; [reflexivity|]. replace n with (Z.of_nat k) by lia. exact H.
    - destruct (F (Z.of_nat k) s ltac:(lia) H) as (s1 & -> & H1). apply IH; [lia|]. replace (Z.of_nat (Datatypes.S k)) with (Z.of_nat k + 1)%Z by lia. exact H1. }
  intros s H. apply (G (Z.to_nat n) 0%nat); [lia|exact H].
Qed.
Lemma store_in size b a v : (0 <= a < size)%Z -> store size b a v = Some (fun x => if (x =? a)%Z then Some v else b x).
Proof. intros H. unfold store. destruct (Z.leb_spec 0 a), (Z.ltb_spec a size); try lia. reflexivity. Qed.

Section Emis.
Variables (nb : Z) (HPL MEV : R) (fort : R -> R -> R -> Z -> R * R).
Hypothesis NB : (1 <= nb)%Z.
Lemma opac_emis_ok size rho T Ye e kj : (0 <= e)%Z -> (e + 3 * nb <= size)%Z ->
  exists kj', opac_emis nb HPL MEV fort size rho T Ye e kj = Some kj' /\
  forall a, (fst kj' a = if ((e <=? a) && (a <? e + 3 * nb))%Z then Some (fst (fort rho Ye T (a - e)%Z)) else fst kj a) /\
            (snd kj' a = if ((e <=? a) && (a <? e + 3 * nb))%Z then Some (snd (fort rho Ye T (a - e)%Z) * (HPL / MEV)) else snd kj a).
Proof.
  intros E0 E1. unfold opac_emis, ngroups3.
  set (Q1 := (fun (m : Z) (s : buffer * buffer) => forall a, (fst s a = if ((e <=? a) && (a <? e + m))%Z then Some (fst (fort rho Ye T (a - e)%Z)) else fst kj a) /\ (snd s a = if ((e <=? a) && (a <? e + m))%Z then Some (snd (fort rho Ye T (a - e)%Z)) else snd kj a))).
  set (Q2 := (fun (m : Z) (s : buffer * buffer) => forall a, (fst s a = if ((e <=? a) && (a <? e + 3 * nb))%Z then Some (fst (fort rho Ye T (a - e)%Z)) else fst kj a) /\ (snd s a = if ((e <=? a) && (a <? e + 3 * nb))%Z then Some (snd (fort rho Ye T (a - e)%Z) * (if (a <? e + m)%Z then HPL / MEV else 1)) else snd kj a))).
  match goal with |- context [match each ?f (range (3 * nb)) kj with _ => _ end] => assert (X1 : exists s1, each f (range (3 * nb)) kj = Some s1 /\ Q1 (3 * nb)%Z s1) end.
  { apply (each_upto Q1); [lia| |].
  - intros i s I H. rewrite !store_in by lia. eexists. split; [reflexivity|]. intros a. cbn [fst snd]. destruct (H a) as (-> & ->).
    destruct (Z.eqb_spec a (e + i)) as [->|NE].
    + replace (e + i - e)%Z with i by ring. destruct (Z.leb_spec e (e + i)), (Z.ltb_spec (e + i) (e + (i + 1))); try lia. split; reflexivity.
    + destruct (Z.leb_spec e a), (Z.ltb_spec a (e + (i + 1))), (Z.ltb_spec a (e + i)); try lia; split; reflexivity.
  - intros a. replace ((e <=? a) && (a <? e + 0))%Z with false; [split; reflexivity|]. destruct (Z.leb_spec e a), (Z.ltb_spec a (e + 0)); try lia; reflexivity. }
  destruct X1 as (s1 & E1' & H1). rewrite E1'.
  match goal with |- context [each ?f (range (3 * nb)) s1] => assert (X2 : exists s2, each f (range (3 * nb)) s1 = Some s2 /\ Q2 (3 * nb)%Z s2) end.
  { apply (each_upto Q2); [lia| |].
    + intros i s I H. destruct (H (e + i)%Z) as (_ & V). replace ((e <=? e + i) && (e + i <? e + 3 * nb))%Z with true in V by (symmetry; apply andb_true_intro; split; [apply Z.leb_le|apply Z.ltb_lt]; lia).
      replace (e + i <? e + i)%Z with false in V by (symmetry; apply Z.ltb_ge; lia). cbv beta. unfold buffer in *. rewrite V. rewrite store_in by lia. eexists. split; [reflexivity|]. intros a. cbn [fst snd]. destruct (H a) as (-> & ->). split; [reflexivity|].
      destruct (Z.eqb_spec a (e + i)) as [->|NE].
      * replace ((e <=? e + i) && (e + i <? e + 3 * nb))%Z with true by (symmetry; apply andb_true_intro; split; [apply Z.leb_le|apply Z.ltb_lt]; lia).
        replace (e + i <? e + (i + 1))%Z with true by (symmetry; apply Z.ltb_lt; lia). f_equal. ring.
      * replace (a <? e + (i + 1))%Z with (a <? e + i)%Z by (destruct (Z.ltb_spec a (e + i)), (Z.ltb_spec a (e + (i + 1))); lia). reflexivity.
    + intros a. destruct (H1 a) as (-> & ->). split; [reflexivity|]. destruct ((e <=? a) && (a <? e + 3 * nb))%Z eqn:B; [|reflexivity]. apply andb_prop in B. destruct B as (B & _). apply Z.leb_le in B.
      replace (a <? e + 0)%Z with false by (symmetry; apply Z.ltb_ge; lia). f_equal. ring.
    }
  destruct X2 as (s2 & E2' & H2). rewrite E2'. exists s2. split; [reflexivity|]. intros a. destruct (H2 a) as (-> & ->). split; [reflexivity|]. destruct ((e <=? a) && (a <? e + 3 * nb))%Z eqn:B; [|reflexivity]. apply andb_prop in B. destruct B as (_ & ->). reflexivity.
Qed.

Variables (nt : Z) (b : bounds).
Hypotheses (NT3 : (3 <= nt)%Z) (P1 : (1 <= Nrho b)%Z) (P2 : (1 <= NT b)%Z) (P3 : (1 <= NYe b)%Z) (SZ : (Nrho b * NT b * NYe b * nt * nb < 2147483648)%Z).
Let n1 := Nrho b. Let n2 := NT b. Let n3 := NYe b.
Definition at_node (i j k : Z) : Z -> R * R :=
  fort (InvModel.pow10 (node (lrho_min b) (lrho_max b) n1 i)) (node (Ye_min b) (Ye_max b) n3 k) (InvModel.pow10 (node (lT_min b) (lT_max b) n2 j)).
Definition right_kj (s : buffer * buffer) : Prop :=
  forall a, (fst s a = None <-> snd s a = None) /\ (forall v, fst s a = Some v -> exists i j k t n, inside n1 n2 n3 nt nb i j k t n /\ (t < 3)%Z /\ a = slot n1 n2 nt nb i j k t n /\
    v = fst (at_node i j k (t * nb + n)) /\ snd s a = Some (snd (at_node i j k (t * nb + n)) * (HPL / MEV))).
Lemma write_loops : exists s, opac_emis_to_hdf nt nb HPL MEV fort b = Some s /\ right_kj s /\ forall i j k t n, inside n1 n2 n3 nt nb i j k t n -> (t < 3)%Z -> fst s (slot n1 n2 nt nb i j k t n) <> None.
Proof.
  unfold opac_emis_to_hdf, int_of. destruct (Z.ltb_spec (Nrho b * NT b * NYe b * nt * nb) 2147483648); [|lia].
  set (I := right_kj). set (le := fun s s' : buffer * buffer => forall a, fst s a <> None -> fst s' a <> None).
  assert (LR : forall s, le s s) by (intros s a H0; exact H0). assert (LT : forall x y z, le x y -> le y z -> le x z) by (intros x y z A B a H0; auto).
  set (D3 := fun i j k (s : buffer * buffer) => forall t n, inside n1 n2 n3 nt nb i j k t n -> (t < 3)%Z -> fst s (slot n1 n2 nt nb i j k t n) <> None).
  set (D2 := fun i j (s : buffer * buffer) => forall k, In k (range n3) -> D3 i j k s).
  set (D1 := fun i (s : buffer * buffer) => forall j, In j (range n2) -> D2 i j s).
  destruct (each_ok I le LR LT (fun irho =>
        let rho := InvModel.pow10 (node (lrho_min b) (lrho_max b) (Nrho b) irho) in
        each (fun iT =>
          let T := InvModel.pow10 (node (lT_min b) (lT_max b) (NT b) iT) in
          each (fun iY =>
            let Ye := node (Ye_min b) (Ye_max b) (NYe b) iY in
            let e := ((Nrho b * (iY * NT b + iT) + irho) * nt * nb)%Z in
            opac_emis nb HPL MEV fort (Nrho b * NT b * NYe b * nt * nb) rho T Ye e) (range (NYe b))) (range (NT b))) D1 (range n1)) with (s := (fresh, fresh)) as (s & E & Is & _ & D).
  - intros i a c L H0 j Hj k Hk t n IN T3. apply L, H0; auto.
  - intros i s Hi Is. apply (each_ok I le LR LT _ (D2 i)); [|clear s Is; intros j s Hj Is|exact Is].
    { intros j a c L H0 k Hk t n IN T3. apply L, H0; auto. }
    apply (each_ok I le LR LT _ (D3 i j)); [|clear s Is; intros k s Hk Is|exact Is].
    { intros k a c L H0 t n IN T3. apply L, H0; auto. }
    cbv zeta. apply in_range in Hi, Hj, Hk. set (e := ((Nrho b * (k * NT b + j) + i) * nt * nb)%Z).
    assert (ES : forall t n, slot n1 n2 nt nb i j k t n = (e + (t * nb + n))%Z) by (intros t n; unfold slot, e, n1, n2; ring).
    assert (B0 : (0 <= e)%Z). { pose proof (slot_in n1 n2 n3 nt nb i j k 0 0 ltac:(repeat split; lia)) as Q. rewrite ES in Q. lia. }
    assert (B1 : (e + 3 * nb <= Nrho b * NT b * NYe b * nt * nb)%Z). { pose proof (slot_in n1 n2 n3 nt nb i j k 2 (nb - 1) ltac:(repeat split; lia)) as Q. rewrite ES in Q. unfold n1, n2, n3 in Q. lia. }
    destruct (opac_emis_ok (Nrho b * NT b * NYe b * nt * nb) (InvModel.pow10 (node (lrho_min b) (lrho_max b) (Nrho b) i)) (InvModel.pow10 (node (lT_min b) (lT_max b) (NT b) j)) (node (Ye_min b) (Ye_max b) (NYe b) k) e s B0 B1) as (s' & E' & F).
    exists s'. split; [exact E'|]. split; [|split].
    + intros a. destruct (F a) as (F1 & F2). rewrite F1, F2. destruct ((e <=? a) && (a <? e + 3 * nb))%Z eqn:BA; [|apply Is]. split; [split; discriminate|]. intros v V. injection V as <-.
      apply andb_prop in BA. destruct BA as (BA & BB). apply Z.leb_le in BA. apply Z.ltb_lt in BB.
      pose proof (Z.div_mod (a - e) nb ltac:(lia)) as DM. pose proof (Z.mod_pos_bound (a - e) nb ltac:(lia)) as MB. assert (0 <= (a - e) / nb)%Z by (apply Z.div_pos; lia). assert ((a - e) / nb < 3)%Z by (apply Z.div_lt_upper_bound; lia).
      exists i, j, k, ((a - e) / nb)%Z, ((a - e) mod nb)%Z. split; [repeat split; lia|]. split; [lia|]. replace ((a - e) / nb * nb + (a - e) mod nb)%Z with (a - e)%Z by lia. split; [rewrite ES; lia|]. split; reflexivity.
    + intros a A. destruct (F a) as (F1 & _). rewrite F1. destruct ((e <=? a) && (a <? e + 3 * nb))%Z; [discriminate|exact A].
    + intros t n (_ & _ & _ & IT & IN) T3. rewrite ES. destruct (F (e + (t * nb + n))%Z) as (F1 & _). rewrite F1.
      replace ((e <=? e + (t * nb + n)) && (e + (t * nb + n) <? e + 3 * nb))%Z with true; [discriminate|]. symmetry. apply andb_true_intro. split; [apply Z.leb_le|apply Z.ltb_lt]; nia.
  - intros a. split; [reflexivity|discriminate].
  - exists s. split; [exact E|]. split; [exact Is|]. intros i j k t n IN T3. pose proof IN as (A1 & A2 & A3 & _). apply in_range in A1, A2, A3. exact (D i A1 j A2 k A3 t n IN T3).
Qed.
Lemma written : exists kg jg, opac_emis_to_hdf nt nb HPL MEV fort b = Some (kg, jg) /\
  (forall i j k t n, inside n1 n2 n3 nt nb i j k t n -> (t < 3)%Z -> kg (slot n1 n2 nt nb i j k t n) = Some (fst (at_node i j k (t * nb + n))) /\ jg (slot n1 n2 nt nb i j k t n) = Some (snd (at_node i j k (t * nb + n)) * (HPL / MEV))) /\
  (forall i j k t n, inside n1 n2 n3 nt nb i j k t n -> (3 <= t)%Z -> kg (slot n1 n2 nt nb i j k t n) = None /\ jg (slot n1 n2 nt nb i j k t n) = None) /\
  (nt = 3%Z -> forall a, (0 <= a < n1 * n2 * n3 * nt * nb)%Z -> kg a <> None /\ jg a <> None).
Proof.
  destruct write_loops as ((kg & jg) & E & R & D). exists kg, jg. split; [exact E|]. unfold right_kj in R. cbn [fst snd] in R, D.
  assert (W : forall i j k t n, inside n1 n2 n3 nt nb i j k t n -> (t < 3)%Z -> kg (slot n1 n2 nt nb i j k t n) = Some (fst (at_node i j k (t * nb + n))) /\ jg (slot n1 n2 nt nb i j k t n) = Some (snd (at_node i j k (t * nb + n)) * (HPL / MEV))).
  { intros i j k t n IN T3. pose proof (D _ _ _ _ _ IN T3) as H. destruct (R (slot n1 n2 nt nb i j k t n)) as (_ & V). destruct (kg (slot n1 n2 nt nb i j k t n)) as [v|] eqn:B; [clear H|congruence].
    destruct (V v eq_refl) as (i' & j' & k' & t' & n' & IN' & _ & S & -> & J). destruct (slot_inj _ _ _ _ _ _ _ _ _ _ _ _ _ _ _ IN IN' S) as (<- & <- & <- & <- & <-). auto. }
  split; [exact W|]. split.
  - intros i j k t n IN T3. destruct (R (slot n1 n2 nt nb i j k t n)) as (N & V). destruct (kg (slot n1 n2 nt nb i j k t n)) as [v|] eqn:B; [|split; [reflexivity|apply N; reflexivity]].
    exfalso. destruct (V v eq_refl) as (i' & j' & k' & t' & n' & IN' & T & S & _). destruct (slot_inj _ _ _ _ _ _ _ _ _ _ _ _ _ _ _ IN IN' S) as (_ & _ & _ & <- & _). lia.
  - intros E3 a A. destruct (slot_onto n1 n2 n3 nt nb a) as (i & j & k & t & n & IN & ->); try (unfold n1, n2; lia); try exact A. destruct (W i j k t n IN) as (-> & ->); [destruct IN as (_ & _ & _ & T & _); lia|]. split; discriminate.
Qed.
End Emis.

(** the axes *)
Lemma axis_len lo hi n : length (axis_of lo hi n) = Z.to_nat n.
Proof. unfold axis_of, range. now rewrite !map_length, seq_length. Qed.
Lemma axis_rd lo hi n i : (0 <= i < n)%Z -> rd (axis_of lo hi n) i = Some (node lo hi n i).
Proof. intros I. unfold axis_of, range. rewrite map_map. rewrite rd_map_seq by lia. do 2 f_equal. lia. Qed.
Lemma axis_even lo hi n : (2 <= n <= 2147483647)%Z -> lo < hi -> even (axis_of lo hi n) ((hi - lo) / IZR (n - 1)).
Proof.
  intros N H. assert (1 <= IZR (n - 1)) by (apply IZR_le; lia). split; [rewrite axis_len; lia|]. split; [rewrite axis_len; lia|]. split; [apply Rdiv_lt_0_compat; lra|].
  intros i I. rewrite axis_len in I. rewrite axis_rd by lia. rewrite Z.sub_0_r.
  pose proof (axis_rd lo hi n 0 ltac:(lia)) as R0. unfold rd in R0. cbn [Z.ltb Z.compare Z.to_nat] in R0. apply nth_error_nth with (d := 0) in R0. rewrite R0. unfold node. f_equal. ring.
Qed.
Lemma axis_ends lo hi n i : (2 <= n)%Z -> (0 <= i < n)%Z -> rd (axis_of lo hi n) i = Some (between_ends lo hi n i).
Proof. intros N I. rewrite axis_rd by lia. unfold node, between_ends. f_equal. field. apply not_0_IZR. lia. Qed.

(** the frequencies *)
Lemma lnus_len nb lo hi : length (lnus nb lo hi) = Z.to_nat nb.
Proof. unfold lnus, lnugroup. now rewrite map_length, seq_length. Qed.
Lemma lnus_rd nb lo hi n : (2 <= nb <= 2147483647)%Z -> 0 < lo < hi -> (0 <= n < nb)%Z -> rd (lnus nb lo hi) n = Some (ln (nu_of lo hi (nb - 1) n)).
Proof. intros B L N. unfold lnus. now rewrite rd_group. Qed.
Lemma nth0 (l : list R) x : rd l 0 = Some x -> nth 0 l 0 = x.
Proof. unfold rd. cbn [Z.ltb Z.compare Z.to_nat]. apply nth_error_nth. Qed.
Lemma lnus_even nb lo hi : (2 <= nb <= 2147483647)%Z -> 0 < lo < hi -> even (lnus nb lo hi) ((ln hi - ln lo) / IZR (nb - 1)) /\ nth 0 (lnus nb lo hi) 0 = ln lo /\ nth (length (lnus nb lo hi) - 1) (lnus nb lo hi) 0 = ln hi.
Proof.
  intros B L. assert (1 <= IZR (nb - 1)) by (apply IZR_le; lia). assert (LL : ln lo < ln hi) by (apply ln_increasing; lra).
  assert (Z0 : nth 0 (lnus nb lo hi) 0 = ln lo). { apply nth0. rewrite lnus_rd by (auto; lia). rewrite ln_nu_of by lra. f_equal. field. lra. }
  assert (EV : even (lnus nb lo hi) ((ln hi - ln lo) / IZR (nb - 1))).
  { split; [rewrite lnus_len; lia|]. split; [rewrite lnus_len; lia|]. split; [apply Rdiv_lt_0_compat; lra|]. intros i I. rewrite lnus_len in I. rewrite lnus_rd by (auto; lia). rewrite ln_nu_of by lra. rewrite Z0, Z.sub_0_r. f_equal. field. lra. }
  split; [exact EV|]. split; [exact Z0|]. pose proof (ax_max_spec _ _ EV) as M. unfold ax_max, ax_min, ax_n in M. rewrite M. rewrite Z0, lnus_len. rewrite Z2Nat.id by lia. field. lra.
Qed.

Section Reread.
Variables (b : bounds) (nb nb' : Z) (lo hi lo' hi' : R) (grid : list R) (buf : buffer).
Let o := reread b 3 (lnus nb lo hi) nb' lo' hi'.
Hypotheses (NB : (2 <= nb <= 2147483647)%Z) (NB' : (2 <= nb' <= 2147483647)%Z) (L : 0 < lo < hi) (L' : 0 < lo' < hi') (SM : SMALL < (ln hi - ln lo) / IZR (nb - 1)).
Hypotheses (P1 : (1 <= Nrho b)%Z) (P2 : (1 <= NT b)%Z) (P3 : (1 <= NYe b)%Z) (HO : holds grid (Nrho b * NT b * NYe b * 3 * nb) buf).
Lemma reread_sizes : ax_n (lrhos o) = Nrho b /\ ax_n (lTs o) = NT b /\ ax_n (Yes o) = NYe b /\ ax_n (lNus o) = nb.
Proof. unfold ax_n, o, reread. cbn [lrhos lTs Yes lNus]. rewrite !axis_len, lnus_len. lia. Qed.
Lemma reread_top : hi' = hi -> regrid o grid = None.
Proof.
  intros E. destruct (lnus_even nb lo hi NB L) as (EV & Z0 & TP). destruct reread_sizes as (E1 & E2 & E3 & E4). destruct HO as (LG & _).
  apply (regrid_top o _ grid EV SM NB' ltac:(cbn; lia) L'); rewrite ?E1, ?E2, ?E3, ?E4; try lia; [exact LG|]. cbn [numax lNus o reread]. rewrite TP. unfold o, reread. cbn [numax]. now rewrite E.
Qed.
Lemma reread_ok : (forall n, (0 <= n < nb')%Z -> nu_of lo' hi' (nb' - 1) n <> hi) ->
  exists tab, regrid o grid = Some tab /\ forall i j k t n q, inside (Nrho b) (NT b) (NYe b) 3 nb' i j k t n -> (0 <= q)%Z -> (q + 1 < nb)%Z -> nu_of lo' hi' (nb' - 1) n = nu_of lo hi (nb - 1) q ->
    tab (slot (Nrho b) (NT b) 3 nb' i j k t n) = buf (slot (Nrho b) (NT b) 3 nb i j k t q).
Proof.
  intros OFF. destruct (lnus_even nb lo hi NB L) as (EV & Z0 & TP). destruct reread_sizes as (E1 & E2 & E3 & E4). destruct HO as (LG & RD).
  destruct (regrid_ok o _ grid EV SM NB' ltac:(cbn; lia) L') as (tab & R & _ & V); rewrite ?E1, ?E2, ?E3, ?E4; try lia; [exact LG| |].
  { intros n N. cbn [numin numax ngroups lNus o reread]. unfold o, reread. cbn [numin numax ngroups lNus]. rewrite TP. intros Q. apply ln_inv in Q; [now apply (OFF n N)|apply nu_of_pos; lra|lra]. }
  exists tab. split; [exact R|]. intros i j k t n q IN Q0 Q1 EQ. rewrite E1, E2, E3, E4 in V. change (ntypes o) with 3%Z in V. change (ngroups o) with nb' in V. change (numin o) with lo' in V. change (numax o) with hi' in V. change (lNus o) with (lnus nb lo hi) in V. rewrite TP, Z0 in V.
  destruct (V i j k t n IN) as (r & q' & xq & y0 & y1 & PL & (C0 & C1 & C2 & C3 & C4) & G0 & G1 & T). rewrite T. rewrite EQ in PL. set (d := (ln hi - ln lo) / IZR (nb - 1)) in *.
  assert (N1 : 1 <= IZR (nb - 1)) by (apply IZR_le; lia). assert (LL : ln lo < ln hi) by (apply ln_increasing; lra). assert (DP : 0 < d) by (unfold d; apply Rdiv_lt_0_compat; lra).
  assert (LQ : forall m, ln (nu_of lo hi (nb - 1) m) = ln lo + IZR m * d) by (intros m; rewrite ln_nu_of by lra; unfold d; field; lra).
  assert (HQ : ln hi = ln lo + IZR (nb - 1) * d) by (unfold d; field; lra). rewrite lnus_len in C1.
  assert (QR : 0 <= IZR q) by (apply (IZR_le 0); lia). assert (QT : IZR q < IZR (nb - 1)) by (apply IZR_lt; lia).
  cbn [placed] in PL. rewrite LQ in PL. assert (r = ln lo + IZR q * d) by (destruct PL as [(A & _)|[(_ & ->)|(A & _)]]; nra). subst r.
  rewrite lnus_rd in C2 by (auto; lia). injection C2 as <-. rewrite LQ in C4.
  assert (q' = q). { assert (IZR q' < IZR q + 1 /\ IZR q < IZR q' + 1) as (A & B) by nra. rewrite <- plus_IZR in A, B. apply lt_IZR in A, B. lia. } subst q'.
  rewrite LQ. unfold lerp. replace ((ln lo + IZR q * d - (ln lo + IZR q * d)) / d) with 0 by (field; lra). rewrite Rmult_0_l, Rplus_0_r. rewrite <- G0. apply RD.
  destruct IN as (A1 & A2 & A3 & A4 & _). pose proof (slot_in (Nrho b) (NT b) (NYe b) 3 nb i j k t q ltac:(repeat split; lia)). lia.
Qed.
End Reread.
