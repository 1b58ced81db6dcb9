(** Lemmas for the creation of tracers. *)
From Coq Require Import Reals Bool ZArith List Lia Lra Permutation.
From Verif Require Import RLib XLib IntLib BinModel BinProofs TracModel TracSpec.
Import ListNotations.
Open Scope R_scope.

(** ** Dealing *)
Lemma push_head_length {A} (ls : list (list A)) i x : length (push_head ls i x) = length ls.
Proof. revert i. induction ls as [|l ls IH]; intros [|i]; cbn; auto. Qed.
Lemma push_head_perm {A} (ls : list (list A)) i x : (i < length ls)%nat -> Permutation (concat (push_head ls i x)) (x :: concat ls).
Proof.
  revert i. induction ls as [|l ls IH]; intros [|i] H; cbn in *; try lia; [reflexivity|].
  rewrite IH by lia. symmetry. apply Permutation_middle.
Qed.
Lemma deal_length {A} nt s (l : list A) : forall ip ls, length (deal nt s ip l ls) = length ls.
Proof. induction l as [|x l IH]; intros; cbn [deal]; [reflexivity|]. rewrite IH. apply push_head_length. Qed.
Lemma deal_perm {A} nt s (l : list A) : forall ip ls, (0 < nt)%nat -> length ls = nt ->
  Permutation (concat (deal nt s ip l ls)) (l ++ concat ls).
Proof.
  induction l as [|x l IH]; intros ip ls P L; cbn [deal]; [reflexivity|].
  rewrite IH; [|exact P|now rewrite push_head_length]. rewrite push_head_perm by (rewrite L; apply Nat.mod_upper_bound; lia).
  cbn. symmetry. apply Permutation_middle.
Qed.
Lemma concat_repeat {A} n : concat (repeat (@nil A) n) = [].
Proof. induction n; cbn; auto. Qed.

(** ** Sampling *)
Section S.
Variable m : grid.
Variable rnd : nat -> R.
Variable k : Z.
Definition made1 (z : zone) (last : Z) (q n : nat) : list tracer :=
  map (fun t => make_tracer m rnd z k (last + Z.of_nat t) (q + t)) (seq 0 n).
Lemma made1_S z last q n : made1 z last q (S n) = make_tracer m rnd z k last q :: made1 z (last + 1) (S q) n.
Proof.
  unfold made1. cbn [seq map]. f_equal; [now rewrite Z.add_0_r, Nat.add_0_r|].
  rewrite <- seq_shift, map_map. apply map_ext. intros a. f_equal; lia.
Qed.
Lemma cell_perm z n : forall last q head, Permutation (sample_cell m rnd z k n last q head) (made1 z last q n ++ head).
Proof.
  induction n as [|n IH]; intros last q head; cbn [sample_cell]; [reflexivity|].
  rewrite IH, made1_S. cbn. symmetry. apply Permutation_middle.
Qed.
Fixpoint made (zs : list zone) (last : Z) (q : nat) : list tracer :=
  match zs with
  | [] => []
  | z :: zs => if flag z then made1 z last q (Z.to_nat k) ++ made zs (last + k) (q + Z.to_nat k) else made zs last q
  end.
Lemma zones_perm zs : forall last q head l, sample_zones m rnd k zs last q head = Ok l -> Permutation l (made zs last q ++ head).
Proof.
  induction zs as [|z zs IH]; intros last q head l; cbn [sample_zones made]; [intros E; injection E as <-; reflexivity|].
  destruct (flag z); [|apply IH]. destruct (INT_MAX <? last + k)%Z; [discriminate|]. intros E. apply IH in E.
  rewrite E, cell_perm, !app_assoc. apply Permutation_app_tail, Permutation_app_comm.
Qed.
Lemma cells_cons z zs : cells (z :: zs) = ((if flag z then 1 else 0) + cells zs)%Z.
Proof. unfold cells. cbn [filter]. destruct (flag z); cbn [length]; lia. Qed.
Lemma cells_pos zs : (0 <= cells zs)%Z. Proof. unfold cells. lia. Qed.
Lemma zones_total zs : (0 <= k)%Z -> forall last q head, (last + k * cells zs <= INT_MAX)%Z -> exists l, sample_zones m rnd k zs last q head = Ok l.
Proof.
  intros K. induction zs as [|z zs IH]; intros last q head; cbn [sample_zones]; [eauto|]. rewrite cells_cons.
  pose proof (cells_pos zs) as C. destruct (flag z); intros H.
  - destruct (Z.ltb_spec INT_MAX (last + k)); [nia|]. apply IH. nia.
  - apply IH. nia.
Qed.
Lemma zones_fit zs : (0 <= k)%Z -> forall last q head l, (last <= INT_MAX)%Z -> sample_zones m rnd k zs last q head = Ok l -> (last + k * cells zs <= INT_MAX)%Z.
Proof.
  intros K. induction zs as [|z zs IH]; intros last q head l L; cbn [sample_zones]; [unfold cells; cbn; lia|]. rewrite cells_cons.
  destruct (flag z).
  - destruct (Z.ltb_spec INT_MAX (last + k)); [discriminate|]. intros E. apply IH in E; lia.
  - intros E. apply IH in E; lia.
Qed.
Lemma seq_plus n n' : seq n n' = map (fun i => (n + i)%nat) (seq 0 n').
Proof. induction n as [|n IH]; [now rewrite map_id|]. rewrite <- seq_shift, IH, map_map. reflexivity. Qed.
Lemma run_app a n n' : run a (n + n') = run a n ++ run (a + Z.of_nat n) n'.
Proof.
  unfold run. rewrite seq_app, map_app. f_equal. rewrite Nat.add_0_l, seq_plus, map_map. apply map_ext. intros. lia.
Qed.
Lemma made_ids zs : (0 <= k)%Z -> forall last q, map id (made zs last q) = run last (Z.to_nat (k * cells zs)).
Proof.
  intros K. induction zs as [|z zs IH]; intros last q; cbn [made].
  - unfold cells. cbn. now rewrite Z.mul_0_r.
  - rewrite cells_cons. destruct (flag z); [|rewrite IH; f_equal; lia].
    rewrite map_app, IH. pose proof (cells_pos zs).
    replace (Z.to_nat (k * (1 + cells zs))) with (Z.to_nat k + Z.to_nat (k * cells zs))%nat by nia.
    rewrite run_app, Z2Nat.id by exact K. f_equal. unfold made1, run. rewrite map_map. reflexivity.
Qed.
Lemma made_length zs : (0 <= k)%Z -> forall last q, length (made zs last q) = Z.to_nat (k * cells zs).
Proof. intros K last q. rewrite <- (map_length id), made_ids by exact K. unfold run. now rewrite map_length, seq_length. Qed.

(** ** Where they are and what they weigh *)
Hypothesis dx0 : forall dir, 0 < dx m dir.
Hypothesis r01 : forall n, 0 <= rnd n < 1.
Lemma made_origin z last q dir : (0 <= ijk z dir < INT_MAX)%Z -> origin (make_tracer m rnd z k last q) dir = Some (ijk z dir).
Proof using dx0 r01.
  intros I. unfold make_tracer. cbn [origin]. specialize (dx0 dir). specialize (r01 (3 * q + (dir - 1))%nat).
  apply (position m _ (ijk z) dir dx0); [unfold INT_MAX in I; lia|].
  unfold coord. cbn [centred]. unfold coord1.
  replace (IZR (ijk z dir + 1 + gs m dir - NG)) with (IZR (ijk z dir + gs m dir - NG) + 1) by (rewrite !minus_IZR, !plus_IZR; lra).
  set (a := IZR (ijk z dir + gs m dir - NG)). set (r := rnd _) in *. split; [|].
  - assert (0 <= r * dx m dir) by (apply Rmult_le_pos; lra). lra.
  - assert (r * dx m dir < 1 * dx m dir) by (apply Rmult_lt_compat_r; lra). lra.
Qed.
Lemma from_own z z' last q : (forall dir, 0 <= ijk z dir < INT_MAX)%Z ->
  comes_from z' (make_tracer m rnd z k last q) = (Z.eqb (zi z) (zi z') && Z.eqb (zj z) (zj z') && Z.eqb (zk z) (zk z')).
Proof using dx0 r01. intros I. unfold comes_from. rewrite !made_origin by apply I. reflexivity. Qed.
Lemma filter_made1 z z' last q n : (forall dir, 0 <= ijk z dir < INT_MAX)%Z ->
  filter (comes_from z') (made1 z last q n) = if (Z.eqb (zi z) (zi z') && Z.eqb (zj z) (zj z') && Z.eqb (zk z) (zk z')) then made1 z last q n else [].
Proof using dx0 r01.
  intros I. unfold made1. generalize (seq 0 n). intros l. set (b := _ && _). induction l as [|a l IH]; cbn [map filter]; [now destruct b|].
  rewrite from_own by exact I. fold b. rewrite IH. now destruct b.
Qed.
Lemma filter_made_none z' zs : (forall z, In z zs -> forall dir, 0 <= ijk z dir < INT_MAX)%Z -> ~ In (zi z', zj z', zk z') (map (fun z => (zi z, zj z, zk z)) zs) ->
  forall last q, filter (comes_from z') (made zs last q) = [].
Proof using dx0 r01.
  induction zs as [|z zs IH]; intros I N last q; cbn [made]; [reflexivity|].
  assert (IHz : forall last q, filter (comes_from z') (made zs last q) = []).
  { apply IH; [intros; apply I; now right|]. intros C. apply N. now right. }
  destruct (flag z); [|apply IHz].
  rewrite filter_app, IHz, app_nil_r, filter_made1 by (apply I; now left).
  destruct (Z.eqb_spec (zi z) (zi z')); [|reflexivity]. destruct (Z.eqb_spec (zj z) (zj z')); [|reflexivity]. destruct (Z.eqb_spec (zk z) (zk z')); [|reflexivity].
  exfalso. apply N. left. congruence.
Qed.
Lemma filter_made z' zs : zones_ok zs -> In z' zs -> forall last q,
  exists last' q', filter (comes_from z') (made zs last q) = if flag z' then made1 z' last' q' (Z.to_nat k) else [].
Proof using dx0 r01.
  intros [N I]. revert N I. induction zs as [|z zs IH]; intros N I H last q; [contradiction|].
  cbn [map] in N. apply NoDup_cons_iff in N. destruct N as [N1 N2]. cbn [made]. destruct H as [E|H].
  - subst z'. exists last, q. destruct (flag z).
    + rewrite filter_app, filter_made1 by (apply I; now left). rewrite !Z.eqb_refl. cbn [andb].
      rewrite filter_made_none, app_nil_r; [reflexivity|intros; apply I; now right|exact N1].
    + apply filter_made_none; [intros; apply I; now right|exact N1].
  - assert (D : forall last q n, filter (comes_from z') (made1 z last q n) = []).
    { intros. rewrite filter_made1 by (apply I; now left).
      destruct (Z.eqb_spec (zi z) (zi z')) as [E1|]; [|reflexivity]. destruct (Z.eqb_spec (zj z) (zj z')) as [E2|]; [|reflexivity]. destruct (Z.eqb_spec (zk z) (zk z')) as [E3|]; [|reflexivity].
      exfalso. apply N1. rewrite E1, E2, E3. apply (in_map (fun z => (zi z, zj z, zk z)) _ _ H). }
    assert (I' : forall z, In z zs -> forall dir, (0 <= ijk z dir < INT_MAX)%Z) by (intros; apply I; now right).
    destruct (flag z); [rewrite filter_app, D; cbn [app]|]; now apply IH.
Qed.
Lemma made1_mass z last q : (0 < k)%Z -> sumR (map mass (made1 z last q (Z.to_nat k))) = zone_mass m z.
Proof.
  intros K. assert (Q : forall n last q, sumR (map mass (made1 z last q n)) = INR n * (zone_mass m z / IZR k)).
  { induction n as [|n IH]; intros l q'; [unfold made1; cbn [seq map sumR]; change (INR 0) with 0; ring|].
    rewrite made1_S. cbn [map sumR]. rewrite IH, S_INR. unfold make_tracer. cbn [mass]. unfold zone_mass. field. apply not_0_IZR. lia. }
  rewrite Q, INR_IZR_INZ, Z2Nat.id by lia. field. apply not_0_IZR. lia.
Qed.
Lemma sumR_app a b : sumR (a ++ b) = sumR a + sumR b.
Proof. induction a as [|x a IH]; cbn; [|rewrite IH]; ring. Qed.
Lemma sumR_perm a b : Permutation a b -> sumR a = sumR b.
Proof. induction 1; cbn; lra. Qed.
Lemma made_mass zs : (0 < k)%Z -> forall last q, sumR (map mass (made zs last q)) = sumR (map (zone_mass m) (filter flag zs)).
Proof.
  intros K. induction zs as [|z zs IH]; intros last q; cbn [made filter]; [reflexivity|].
  destruct (flag z); [|apply IH]. rewrite map_app, sumR_app, IH, made1_mass by exact K. reflexivity.
Qed.
End S.

(** ** Numbers per cell *)
Lemma more_ok fuel ncells total : (0 < ncells)%Z -> (ncells <= total)%Z -> (total <= INT_MAX)%Z -> (2 <= fuel)%nat ->
  tcrs_p_cell fuel ncells total = if (total mod ncells =? 0)%Z then Ok (total / ncells)%Z
    else if (INT_MAX <? (total / ncells + 1) * ncells)%Z then Undef else Ok (total / ncells + 1)%Z.
Proof.
  intros N T M F. unfold tcrs_p_cell. destruct (Z.eqb_spec ncells 0); [lia|]. cbv zeta.
  pose proof (Z.div_mod total ncells ltac:(lia)) as D. pose proof (Z.mod_pos_bound total ncells N) as B.
  assert (Q1 : (1 <= total / ncells)%Z) by (apply Z.div_le_lower_bound; lia).
  replace (if (total / ncells >? 1)%Z then (total / ncells)%Z else 1%Z) with (total / ncells)%Z by (destruct (total / ncells >? 1)%Z eqn:G; [reflexivity|]; rewrite Z.gtb_ltb in G; apply Z.ltb_ge in G; lia).
  destruct fuel as [|[|f]]; try lia. cbn [more].
  set (q := (total / ncells)%Z) in *. set (r := (total mod ncells)%Z) in *. clearbody q r.
  destruct (Z.ltb_spec INT_MAX (q * ncells)) as [H|H]; [lia|].
  destruct (Z.ltb_spec (q * ncells) total) as [H1|H1].
  - destruct (Z.eqb_spec r 0); [lia|]. destruct (Z.ltb_spec INT_MAX ((q + 1) * ncells)) as [H2|H2]; [reflexivity|].
    destruct (Z.ltb_spec ((q + 1) * ncells) total); [lia|reflexivity].
  - destruct (Z.eqb_spec r 0); [reflexivity|lia].
Qed.
Lemma more_bounds fuel ncells total k : (0 < ncells)%Z -> (ncells <= total)%Z -> tcrs_p_cell fuel ncells total = Ok k ->
  (1 <= k /\ total <= k * ncells < total + ncells)%Z.
Proof.
  intros N T. unfold tcrs_p_cell. destruct (Z.eqb_spec ncells 0); [lia|]. cbv zeta.
  pose proof (Z.div_mod total ncells ltac:(lia)) as D. pose proof (Z.mod_pos_bound total ncells N) as B.
  assert (Q1 : (1 <= total / ncells)%Z) by (apply Z.div_le_lower_bound; lia).
  replace (if (total / ncells >? 1)%Z then (total / ncells)%Z else 1%Z) with (total / ncells)%Z by (destruct (total / ncells >? 1)%Z eqn:G; [reflexivity|]; rewrite Z.gtb_ltb in G; apply Z.ltb_ge in G; lia).
  assert (G : forall f j, (1 <= j)%Z -> (j * ncells < total + ncells)%Z -> more f ncells total j = Ok k -> (1 <= k /\ total <= k * ncells < total + ncells)%Z).
  { induction f as [|f IH]; intros j J L; cbn [more]; [discriminate|]. destruct (INT_MAX <? j * ncells)%Z; [discriminate|].
    destruct (Z.ltb_spec (j * ncells) total); [apply IH; lia|]. intros E. injection E as <-. lia. }
  apply G; [exact Q1|]. nia.
Qed.

(** ** The whole *)
Lemma max_id_range io n t : (0 <= n)%Z -> tracer_max_id io n = Ok t -> (t <= INT_MAX)%Z.
Proof.
  intros N. unfold tracer_max_id. destruct (_ && io); [discriminate|]. intros E. injection E as <-. unfold INT_MAX.
  pose proof (Z.mod_pos_bound n 4294967296 ltac:(lia)). destruct (Z.leb_spec (n mod 4294967296) 2147483647); lia.
Qed.
Lemma max_id_small io n : (0 <= n <= INT_MAX)%Z -> tracer_max_id io n = Ok n.
Proof.
  intros N. unfold tracer_max_id. destruct (Z.ltb_spec INT_MAX n); [lia|]. cbn [andb]. unfold INT_MAX in *.
  rewrite Z.mod_small by lia. destruct (Z.leb_spec n 2147483647); [reflexivity|lia].
Qed.
Lemma run_NoDup a j : NoDup (run a j).
Proof. unfold run. apply FinFun.Injective_map_NoDup; [|apply seq_NoDup]. intros x y. lia. Qed.
Lemma in_run a j x : In x (run a j) <-> (a <= x < a + Z.of_nat j)%Z.
Proof.
  unfold run. rewrite in_map_iff. split; [intros (i & <- & I); apply in_seq in I; lia|].
  intros H. exists (Z.to_nat (x - a)). split; [lia|]. apply in_seq. lia.
Qed.
Lemma filter_perm {A} (f : A -> bool) a b : Permutation a b -> Permutation (filter f a) (filter f b).
Proof.
  induction 1 as [|x a b P IH|x y a|a b c P1 IH1 P2 IH2]; cbn; [constructor|destruct (f x); [now constructor|exact IH]| |now rewrite IH1].
  destruct (f x), (f y); try reflexivity. apply perm_swap.
Qed.
Section Rank.
Variables (m : grid) (rnd : nat -> R) (fuel : nat) (n NTOT nc np rank : Z) (nt start : nat) (zs : list zone) (ls : list (list tracer)).
Hypothesis ran : sample_all_tracers m rnd fuel n NTOT nc np rank nt start zs (repeat [] nt) = Ok ls.
Hypothesis n0 : (0 <= n <= INT_MAX)%Z.
Hypothesis nt0 : (0 < nt)%nat.
Hypothesis nc0 : (0 < nc <= NTOT)%Z.
Lemma rank_spec : exists k, tcrs_p_cell fuel nc n = Ok k /\ (1 <= k)%Z /\ (n <= k * nc < n + nc)%Z /\ (NTOT <= n)%Z /\ (3 * (n / np) * rank / 2 <= INT_MAX)%Z /\
  Permutation (tracers ls) (made m rnd k zs (3 * (n / np) * rank / 2) 0).
Proof using ran n0 nt0 nc0.
  revert ran. unfold sample_all_tracers. rewrite max_id_small by exact n0. destruct (INT_MAX <? NTOT)%Z; [discriminate|].
  destruct (Z.ltb_spec n NTOT) as [|L]; [discriminate|]. cbv zeta. destruct (Z.ltb_spec INT_MAX (3 * (n / np) * rank / 2)) as [|I]; [discriminate|].
  destruct (tcrs_p_cell fuel nc n) as [k| | |] eqn:T; try discriminate.
  destruct (sample_zones m rnd k zs _ 0 []) as [l| | |] eqn:E; try discriminate. intros Q. injection Q as <-.
  exists k. split; [reflexivity|]. destruct (more_bounds fuel nc n k) as [K1 K2]; [lia|lia|exact T|].
  split; [exact K1|]. split; [exact K2|]. split; [exact L|]. split; [exact I|].
  unfold tracers. rewrite deal_perm by (rewrite ?repeat_length; auto). rewrite concat_repeat, app_nil_r.
  rewrite (zones_perm _ _ _ _ _ _ _ _ E). now rewrite app_nil_r.
Qed.
Lemma rank_ids : exists k, tcrs_p_cell fuel nc n = Ok k /\ Permutation (map id (tracers ls)) (run (3 * (n / np) * rank / 2) (Z.to_nat (k * cells zs))).
Proof using ran n0 nt0 nc0.
  destruct rank_spec as (k & T & K & _ & _ & _ & P). exists k. split; [exact T|]. rewrite P, made_ids by lia. reflexivity.
Qed.
Lemma rank_unique : NoDup (map id (tracers ls)).
Proof using ran n0 nt0 nc0. destruct rank_ids as (k & _ & P). eapply Permutation_NoDup; [symmetry; exact P|]. apply run_NoDup. Qed.
Lemma rank_count : exists k, (1 <= k)%Z /\ (n <= k * nc < n + nc)%Z /\ Z.of_nat (length (tracers ls)) = (k * cells zs)%Z.
Proof using ran n0 nt0 nc0.
  destruct rank_spec as (k & T & K & B & _ & _ & P). exists k. split; [exact K|]. split; [exact B|].
  rewrite (Permutation_length P), made_length by lia. rewrite Z2Nat.id; [reflexivity|]. pose proof (cells_pos zs). nia.
Qed.
Hypothesis dx0 : forall dir, 0 < dx m dir.
Hypothesis r01 : forall i, 0 <= rnd i < 1.
Hypothesis zok : zones_ok zs.
Lemma rank_cell z k : In z zs -> tcrs_p_cell fuel nc n = Ok k ->
  Z.of_nat (length (filter (comes_from z) (tracers ls))) = (if flag z then k else 0%Z) /\
  sumR (map mass (filter (comes_from z) (tracers ls))) = if flag z then zone_mass m z else 0.
Proof using ran n0 nt0 nc0 dx0 r01 zok.
  intros H T. destruct rank_spec as (k' & T' & K & B & _ & _ & P). rewrite T in T'. injection T' as <-.
  pose proof (filter_perm (comes_from z) _ _ P) as PF.
  destruct (filter_made m rnd k dx0 r01 z zs zok H (3 * (n / np) * rank / 2) 0) as (l' & q' & E). rewrite E in PF.
  rewrite (Permutation_length PF), (sumR_perm _ _ (Permutation_map mass PF)).
  destruct (flag z); [|split; reflexivity]. split.
  - unfold made1. rewrite map_length, seq_length. lia.
  - apply made1_mass. lia.
Qed.
Lemma rank_mass : sumR (map mass (tracers ls)) = sumR (map (zone_mass m) (filter flag zs)).
Proof using ran n0 nt0 nc0.
  destruct rank_spec as (k & _ & K & _ & _ & _ & P). rewrite (sumR_perm _ _ (Permutation_map mass P)). apply made_mass. lia.
Qed.
End Rank.

(** ** All processes *)
Lemma nth_perm_concat {A} (outs : list (list A)) :
  (forall r l, nth_error outs r = Some l -> NoDup l) /\
  (forall r r' l l' x, (r < r')%nat -> nth_error outs r = Some l -> nth_error outs r' = Some l' -> In x l -> In x l' -> False) -> NoDup (concat outs).
Proof.
  induction outs as [|a outs IH]; cbn [concat]; [constructor|].
  intros [A1 A2]. assert (N2 : NoDup (concat outs)).
  { apply IH. split; [intros r; apply (A1 (S r))|intros r r' l l' x L; apply (A2 (S r) (S r')); lia]. }
  assert (N1 : NoDup a) by (apply (A1 0%nat); reflexivity).
  assert (D : forall x, In x a -> In x (concat outs) -> False).
  { intros x I C. apply in_concat in C. destruct C as (l & L & X). apply In_nth_error in L. destruct L as (r & L).
    apply (A2 0%nat (S r) a l x); auto; lia. }
  clear - N1 N2 D. induction a as [|y a IHa]; [exact N2|]. cbn. apply NoDup_cons_iff in N1. destruct N1 as [M1 M2]. constructor.
  - intros C. apply in_app_or in C. destruct C as [C|C]; [contradiction|]. apply (D y); [now left|exact C].
  - apply IHa; [exact M2|]. intros x I. apply D. now right.
Qed.
Lemma all_ids_as outs : all_ids outs = concat (map (fun l => map id (tracers l)) outs).
Proof. unfold all_ids. rewrite concat_map, map_map. reflexivity. Qed.
Lemma reduce_nonneg procs : (0 <= reduce procs)%Z.
Proof. induction procs as [|z p IH]; [cbn; lia|]. change (reduce (z :: p)) with (cells z + reduce p)%Z. pose proof (cells_pos z). lia. Qed.

Section All.
Variables (m : nat -> grid) (rnd : nat -> nat -> R) (fuel : nat) (n NTOT : Z) (nt : nat) (start : nat -> nat)
  (procs : list (list zone)) (outs : list (list (list tracer))).
Hypothesis ran : all_sample m rnd fuel n NTOT nt start procs outs.
Hypothesis n0 : (0 <= n <= INT_MAX)%Z.
Hypothesis nt0 : (0 < nt)%nat.
Hypothesis nc0 : (0 < reduce procs <= NTOT)%Z.
Lemma all_unique k : tcrs_p_cell fuel (reduce procs) n = Ok k ->
  (forall zs, In zs procs -> (k * cells zs <= 3 * (n / Z.of_nat (length procs)) / 2)%Z) -> NoDup (all_ids outs).
Proof using ran n0 nt0 nc0.
  intros T H. rewrite all_ids_as. destruct ran as [LN R]. set (np := Z.of_nat (length procs)) in *.
  assert (Q : forall r l, nth_error (map (fun l => map id (tracers l)) outs) r = Some l ->
    exists zs, In zs procs /\ (1 <= k)%Z /\ Permutation l (run (3 * (n / np) * Z.of_nat r / 2) (Z.to_nat (k * cells zs)))).
  { intros r l E. rewrite nth_error_map in E. destruct (nth_error outs r) as [ls|] eqn:EO; [|discriminate]. injection E as <-.
    destruct (nth_error procs r) as [zs|] eqn:EP.
    - exists zs. split; [eapply nth_error_In; eauto|]. destruct (rank_spec _ _ _ _ _ _ _ _ _ _ _ _ (R r zs ls EP EO) n0 nt0 nc0) as (k' & T' & K & _ & _ & _ & P).
      rewrite T in T'. injection T' as <-. split; [exact K|]. rewrite P, made_ids by lia. reflexivity.
    - exfalso. apply nth_error_None in EP. assert (nth_error outs r <> None) as C by congruence. apply nth_error_Some in C. lia. }
  apply nth_perm_concat. split.
  - intros r l E. destruct (Q r l E) as (zs & _ & _ & P). eapply Permutation_NoDup; [symmetry; exact P|apply run_NoDup].
  - intros r r' l l' x L E E' I I'. destruct (Q r l E) as (zs & Z1 & K & P), (Q r' l' E') as (zs' & Z2 & _ & P').
    apply (Permutation_in _ P), in_run in I. apply (Permutation_in _ P'), in_run in I'.
    pose proof (H zs Z1) as H1. set (p := (n / np)%Z) in *.
    assert (P0 : (0 <= p)%Z) by (apply Z.div_pos; [lia|]; unfold np; destruct procs; [cbn in nc0; lia|cbn; lia]).
    clearbody p. pose proof (cells_pos zs) as C.
    rewrite Z2Nat.id in I by nia.
    assert (D : (3 * p * Z.of_nat r / 2 + 3 * p / 2 <= 3 * p * Z.of_nat r' / 2)%Z).
    { apply Z.div_le_lower_bound; [lia|].
      pose proof (Z.mul_div_le (3 * p * Z.of_nat r) 2 ltac:(lia)). pose proof (Z.mul_div_le (3 * p) 2 ltac:(lia)). nia. }
    lia.
Qed.
End All.
Lemma ceil_unique nc n k k' : (n <= k * nc < n + nc -> n <= k' * nc < n + nc -> k = k')%Z.
Proof. intros A B. nia. Qed.
Section All2.
Variables (m : nat -> grid) (rnd : nat -> nat -> R) (fuel : nat) (n NTOT : Z) (nt : nat) (start : nat -> nat)
  (procs : list (list zone)) (outs : list (list (list tracer))).
Hypothesis ran : all_sample m rnd fuel n NTOT nt start procs outs.
Hypothesis n0 : (0 <= n <= INT_MAX)%Z.
Hypothesis nt0 : (0 < nt)%nat.
Hypothesis nc0 : (0 < reduce procs <= NTOT)%Z.
Lemma some_k : exists k, tcrs_p_cell fuel (reduce procs) n = Ok k /\ (1 <= k)%Z /\ (n <= k * reduce procs < n + reduce procs)%Z /\ (NTOT <= n)%Z.
Proof using ran n0 nt0 nc0.
  destruct ran as [L R]. destruct procs as [|zs ps] eqn:EP; [cbn in nc0; lia|]. destruct outs as [|ls os] eqn:EO; [discriminate|].
  destruct (rank_spec _ _ _ _ _ _ _ _ _ _ _ _ (R 0%nat zs ls eq_refl eq_refl) n0 nt0 nc0) as (k & T & K & B & N & _). exists k. auto.
Qed.
Lemma the_k k : (n <= k * reduce procs < n + reduce procs)%Z -> tcrs_p_cell fuel (reduce procs) n = Ok k /\ (1 <= k)%Z.
Proof using ran n0 nt0 nc0. intros H. destruct some_k as (k' & T & K & B & _). now rewrite (ceil_unique _ _ _ _ H B). Qed.
Lemma unique k : (n <= k * reduce procs < n + reduce procs)%Z ->
  (forall zs, In zs procs -> (k * cells zs <= 3 * (n / Z.of_nat (length procs)) / 2)%Z) -> NoDup (all_ids outs).
Proof using ran n0 nt0 nc0. intros H. apply (all_unique m rnd fuel n NTOT nt start procs outs ran n0 nt0 nc0). now apply the_k. Qed.
Lemma reduce_even c : (forall zs, In zs procs -> cells zs = c) -> reduce procs = (Z.of_nat (length procs) * c)%Z.
Proof using.
  clear. induction procs as [|z p IH]; intros H; [reflexivity|]. change (reduce (z :: p)) with (cells z + reduce p)%Z.
  rewrite IH by (intros; apply H; now right). rewrite (H z) by now left. cbn [length]. lia.
Qed.
Lemma unique_even c : (forall zs, In zs procs -> cells zs = c) -> (2 * reduce procs <= n)%Z -> NoDup (all_ids outs).
Proof using ran n0 nt0 nc0.
  intros H N. destruct some_k as (k & T & K & B & _). apply (unique k B). intros zs Z1. rewrite (H zs Z1).
  pose proof (reduce_even c H) as E. set (np := Z.of_nat (length procs)) in *.
  assert (NP : (0 < np)%Z) by (unfold np; destruct procs; [cbn in nc0; lia|cbn; lia]).
  assert (P2 : (2 * c <= n / np)%Z) by (apply Z.div_le_lower_bound; nia).
  pose proof (Z.div_mod n np ltac:(lia)) as D. pose proof (Z.mod_pos_bound n np NP) as M. set (p := (n / np)%Z) in *. clearbody p np.
  assert (Q : (k * c <= p + c)%Z) by nia.
  apply Z.div_le_lower_bound; lia.
Qed.
Lemma all_count k : (n <= k * reduce procs < n + reduce procs)%Z -> (1 <= k)%Z /\ Z.of_nat (length (concat (map tracers outs))) = (k * reduce procs)%Z.
Proof using ran n0 nt0 nc0.
  intros H. destruct (the_k k H) as [T K]. split; [exact K|].
  destruct ran as [L R].
  assert (Q : forall r zs ls, nth_error procs r = Some zs -> nth_error outs r = Some ls -> Z.of_nat (length (tracers ls)) = (k * cells zs)%Z).
  { intros r zs ls EP EO. destruct (rank_count _ _ _ _ _ _ _ _ _ _ _ _ (R r zs ls EP EO) n0 nt0 nc0) as (k' & _ & B & E). rewrite E. f_equal. eapply ceil_unique; eauto. }
  clear - L Q. revert outs L Q. induction procs as [|z p IH]; intros [|o os] L Q; try discriminate; [cbn; lia|].
  change (reduce (z :: p)) with (cells z + reduce p)%Z. cbn [map concat]. rewrite app_length, Nat2Z.inj_add.
  rewrite (Q 0%nat z o eq_refl eq_refl). rewrite (IH os); [lia|now injection L|]. intros r. apply (Q (S r)).
Qed.
End All2.

(** ** Runs that happen *)
Lemma sample_total m rnd fuel n NTOT nc np rank nt start zs lists k : (0 <= n <= INT_MAX)%Z -> (NTOT <= n)%Z ->
  tcrs_p_cell fuel nc n = Ok k -> (0 <= k)%Z -> (3 * (n / np) * rank / 2 + k * cells zs <= INT_MAX)%Z ->
  exists ls, sample_all_tracers m rnd fuel n NTOT nc np rank nt start zs lists = Ok ls.
Proof.
  intros N T K K0 I. unfold sample_all_tracers. rewrite max_id_small by exact N.
  destruct (Z.ltb_spec INT_MAX NTOT); [lia|]. destruct (Z.ltb_spec n NTOT); [lia|]. cbv zeta. pose proof (cells_pos zs).
  destruct (Z.ltb_spec INT_MAX (3 * (n / np) * rank / 2)); [nia|]. rewrite K.
  destruct (zones_total m rnd k zs K0 (3 * (n / np) * rank / 2) 0 [] I) as (l & ->). eauto.
Qed.
Definition unit_grid : grid := {| start := fun _ => 0; dx := fun _ => 1; gs := fun _ => 0%Z |}.
Definition zn (b : bool) (i : Z) : zone := mkz i 3 3 b 1 1.
Definition nine : list zone := map (zn true) [3; 4; 5; 6; 7; 8; 9; 10; 11]%Z.
Definition one : list zone := zn true 3 :: map (zn false) [4; 5; 6; 7; 8; 9; 10; 11]%Z.
Definition eight : list zone := map (zn true) [3; 4; 5; 6; 7; 8; 9; 10]%Z.
Lemma two_ranks n NTOT z0 z1 k : (0 <= n <= INT_MAX)%Z -> (NTOT <= n)%Z -> tcrs_p_cell 2 (reduce [z0; z1]) n = Ok k -> (1 <= k)%Z -> (0 < reduce [z0; z1] <= NTOT)%Z ->
  (k * cells z0 <= INT_MAX)%Z -> (3 * (n / 2) * 1 / 2 + k * cells z1 <= INT_MAX)%Z ->
  exists o0 o1, all_sample (fun _ => unit_grid) (fun _ _ => 1 / 2) 2 n NTOT 1 (fun _ => 0%nat) [z0; z1] [o0; o1] /\
  (forall x, In x (map id (tracers o0)) <-> (0 <= x < k * cells z0)%Z) /\
  (forall x, In x (map id (tracers o1)) <-> (3 * (n / 2) / 2 <= x < 3 * (n / 2) / 2 + k * cells z1)%Z).
Proof.
  intros N NT K K1 NC F0 F1.
  destruct (sample_total unit_grid (fun _ => 1 / 2) 2 n NTOT (reduce [z0; z1]) 2 0 1 0 z0 [[]] k) as (o0 & O0); auto; [lia|rewrite Z.mul_0_r; exact F0|].
  destruct (sample_total unit_grid (fun _ => 1 / 2) 2 n NTOT (reduce [z0; z1]) 2 1 1 0 z1 [[]] k) as (o1 & O1); auto; [lia|].
  exists o0, o1.
  destruct (rank_ids _ _ _ _ _ _ _ _ _ _ _ _ O0 N ltac:(lia) NC) as (k0 & T0 & P0). destruct (rank_ids _ _ _ _ _ _ _ _ _ _ _ _ O1 N ltac:(lia) NC) as (k1 & T1 & P1).
  rewrite K in T0, T1. injection T0 as <-. injection T1 as <-.
  split; [split; [reflexivity|]|].
  - intros [|[|r]] zs ls; cbn [nth_error]; intros A B; [injection A as <-; injection B as <-; exact O0|injection A as <-; injection B as <-; exact O1|destruct r; discriminate].
  - pose proof (cells_pos z0). pose proof (cells_pos z1). rewrite Z.mul_0_r in P0. rewrite Z.mul_1_r in P1. change (0 / 2)%Z with 0%Z in P0. split; intros x.
    + rewrite (Permutation_in_iff P0) || (split; [intros I; apply (Permutation_in _ P0) in I|intros I; apply (Permutation_in _ (Permutation_sym P0))]; apply in_run in I || apply in_run; lia).
    + split; [intros I; apply (Permutation_in _ P1) in I; apply in_run in I; lia|intros I; apply (Permutation_in _ (Permutation_sym P1)); apply in_run; lia].
Qed.
Lemma clash_uneven : exists n NTOT procs o0 o1 x, (n = NTOT)%Z /\ (NTOT = Z.of_nat (length (concat procs)))%Z /\
  all_sample (fun _ => unit_grid) (fun _ _ => 1 / 2) 2 n NTOT 1 (fun _ => 0%nat) procs [o0; o1] /\ In x (map id (tracers o0)) /\ In x (map id (tracers o1)).
Proof.
  destruct (two_ranks 18 18 nine one 2) as (o0 & o1 & A & I0 & I1); [unfold INT_MAX; lia|lia|reflexivity|lia|vm_compute; split; congruence|vm_compute; congruence|vm_compute; congruence|].
  exists 18%Z, 18%Z, [nine; one], o0, o1, 13%Z. split; [reflexivity|]. split; [reflexivity|]. split; [exact A|].
  split; [apply I0|apply I1]; vm_compute; split; congruence.
Qed.
Lemma clash_even : exists n NTOT procs o0 o1 x, (NTOT < n)%Z /\ (NTOT = Z.of_nat (length (concat procs)))%Z /\ (forall zs, In zs procs -> length zs = 8%nat /\ forall z, In z zs -> flag z = true) /\
  all_sample (fun _ => unit_grid) (fun _ _ => 1 / 2) 2 n NTOT 1 (fun _ => 0%nat) procs [o0; o1] /\ In x (map id (tracers o0)) /\ In x (map id (tracers o1)).
Proof.
  destruct (two_ranks 17 16 eight eight 2) as (o0 & o1 & A & I0 & I1); [unfold INT_MAX; lia|lia|reflexivity|lia|vm_compute; split; congruence|vm_compute; congruence|vm_compute; congruence|].
  exists 17%Z, 16%Z, [eight; eight], o0, o1, 12%Z. split; [lia|]. split; [reflexivity|]. split.
  - intros zs Z1. assert (E : zs = eight) by (destruct Z1 as [<-|[<-|[]]]; reflexivity). subst zs. split; [reflexivity|]. intros z H. apply in_map_iff in H. destruct H as (i & <- & _). reflexivity.
  - split; [exact A|]. split; [apply I0|apply I1]; vm_compute; split; congruence.
Qed.
Lemma even_happens : exists procs outs, all_sample (fun _ => unit_grid) (fun _ _ => 1 / 2) 2 32 16 1 (fun _ => 0%nat) procs outs /\
  (forall zs, In zs procs -> cells zs = 8%Z) /\ (reduce procs = 16)%Z /\ (forall zs, In zs procs -> zones_ok zs).
Proof.
  destruct (two_ranks 32 16 eight eight 2) as (o0 & o1 & A & _); [unfold INT_MAX; lia|lia|reflexivity|lia|vm_compute; split; congruence|vm_compute; congruence|vm_compute; congruence|].
  exists [eight; eight], [o0; o1]. split; [exact A|].
  assert (E : forall zs, In zs [eight; eight] -> zs = eight) by (intros zs Z1; destruct Z1 as [<-|[<-|[]]]; reflexivity).
  split; [intros zs Z1; rewrite (E zs Z1); reflexivity|]. split; [reflexivity|]. intros zs Z1. rewrite (E zs Z1). split.
  - unfold eight. cbn [map zn zi zj zk]. repeat constructor; cbn; intuition congruence.
  - intros z H dir. apply in_map_iff in H. destruct H as (i & <- & H). unfold INT_MAX.
    assert (B : (3 <= i <= 10)%Z) by (cbn in H; lia). destruct dir as [|[|[|d]]]; cbn [ijk zn zi zj zk]; lia.
Qed.
(** ** Failures *)
Lemma no_cells m rnd fuel n NTOT np rank nt start zs lists : (0 <= n <= INT_MAX)%Z -> (NTOT <= n)%Z -> (3 * (n / np) * rank / 2 <= INT_MAX)%Z ->
  sample_all_tracers m rnd fuel n NTOT 0 np rank nt start zs lists = Undef.
Proof.
  intros N T I. unfold sample_all_tracers. rewrite max_id_small by exact N.
  destruct (Z.ltb_spec INT_MAX NTOT); [lia|]. destruct (Z.ltb_spec n NTOT); [lia|]. cbv zeta.
  destruct (Z.ltb_spec INT_MAX (3 * (n / np) * rank / 2)); [lia|]. reflexivity.
Qed.
Lemma overflow : exists zs, cells zs = 2%Z /\ forall m rnd fuel nt start lists, (2 <= fuel)%nat ->
  sample_all_tracers m rnd fuel INT_MAX 2 (cells zs) 1 0 nt start zs lists = Undef.
Proof.
  exists [zn true 3; zn true 4]. split; [reflexivity|]. intros m rnd fuel nt start lists F. unfold sample_all_tracers.
  rewrite max_id_small by (unfold INT_MAX; lia). change (INT_MAX <? 2)%Z with false. change (INT_MAX <? 2)%Z with false. cbv zeta.
  change (3 * (INT_MAX / 1) * 0 / 2)%Z with 0%Z. change (INT_MAX <? 0)%Z with false. change (cells _) with 2%Z.
  rewrite more_ok; [reflexivity|unfold INT_MAX; lia..|exact F].
Qed.
Lemma terminates m rnd fuel n NTOT nc np rank nt start zs lists : (0 <= n)%Z -> (0 <= nc <= NTOT)%Z -> (2 <= fuel)%nat ->
  sample_all_tracers m rnd fuel n NTOT nc np rank nt start zs lists <> More.
Proof.
  intros N C F. unfold sample_all_tracers. destruct (tracer_max_id _ n) as [t| | |] eqn:E; try discriminate.
  2:{ revert E. unfold tracer_max_id. destruct (_ && _); discriminate. }
  apply max_id_range in E; [|exact N]. destruct (INT_MAX <? NTOT)%Z; [discriminate|]. destruct (Z.ltb_spec t NTOT); [discriminate|]. cbv zeta.
  destruct (INT_MAX <? _)%Z; [discriminate|].
  destruct (Z.eq_dec nc 0) as [->|NZ]; [discriminate|].
  assert (T : tcrs_p_cell fuel nc t <> More). { rewrite more_ok by lia. destruct (_ =? _)%Z; [discriminate|]. destruct (_ <? _)%Z; discriminate. }
  destruct (tcrs_p_cell fuel nc t) as [k| | |]; try discriminate; [|contradiction].
  assert (Z1 : forall zs last q head, sample_zones m rnd k zs last q head <> More).
  { clear. induction zs as [|z zs IH]; intros last q head; cbn [sample_zones]; [discriminate|]. destruct (flag z); [|apply IH]. destruct (_ <? _)%Z; [discriminate|apply IH]. }
  specialize (Z1 zs (3 * (t / np) * rank / 2)%Z 0%nat []). destruct (sample_zones _ _ _ _ _ _ _); congruence.
Qed.
(** ** Evenness of the dealing *)
Lemma push_head_nth {A} (ls : list (list A)) i x j : (i < length ls)%nat ->
  length (nth j (push_head ls i x) []) = (length (nth j ls []) + (if Nat.eqb i j then 1 else 0))%nat.
Proof.
  revert i j. induction ls as [|l ls IH]; intros [|i] [|j] H; cbn in *; try lia. rewrite IH by lia. reflexivity.
Qed.
(** how many of the first n numbers from s on are j modulo nt *)
Definition upto (nt j n : nat) : nat := ((n + (nt - 1 - j)) / nt)%nat.
Lemma upto_S nt j n : (j < nt)%nat -> upto nt j (S n) = (upto nt j n + (if Nat.eqb (n mod nt) j then 1 else 0))%nat.
Proof.
  intros J. unfold upto. pose proof (Nat.div_mod n nt ltac:(lia)) as D. pose proof (Nat.mod_upper_bound n nt ltac:(lia)) as B.
  set (q := (n / nt)%nat) in *. set (r := (n mod nt)%nat) in *. clearbody q r. subst n.
  destruct (Nat.eqb_spec r j) as [->|N].
  - replace (S (nt * q + j) + (nt - 1 - j))%nat with ((q + 1) * nt + 0)%nat by lia. replace (nt * q + j + (nt - 1 - j))%nat with (q * nt + (nt - 1))%nat by lia.
    rewrite !Nat.div_add_l by lia. rewrite !Nat.div_small by lia. lia.
  - destruct (le_lt_dec r j).
    + replace (S (nt * q + r) + (nt - 1 - j))%nat with (q * nt + (S r + nt - 1 - j))%nat by lia. replace (nt * q + r + (nt - 1 - j))%nat with (q * nt + (r + nt - 1 - j))%nat by lia.
      rewrite !Nat.div_add_l by lia. rewrite !Nat.div_small by lia. lia.
    + replace (S (nt * q + r) + (nt - 1 - j))%nat with ((q + 1) * nt + (r - j))%nat by lia. replace (nt * q + r + (nt - 1 - j))%nat with ((q + 1) * nt + (r - j - 1))%nat by lia.
      rewrite !Nat.div_add_l by lia. rewrite !Nat.div_small by lia. lia.
Qed.
Lemma deal_nth {A} nt s (l : list A) j : (j < nt)%nat -> forall ip ls, length ls = nt ->
  (length (nth j (deal nt s ip l ls) []) + upto nt j (s + ip) = length (nth j ls []) + upto nt j (s + ip + length l))%nat.
Proof.
  intros J. induction l as [|x l IH]; intros ip ls L; cbn [deal length]; [rewrite Nat.add_0_r; reflexivity|].
  specialize (IH (S ip) (push_head ls ((s + ip) mod nt) x) ltac:(now rewrite push_head_length)).
  rewrite push_head_nth in IH by (rewrite L; apply Nat.mod_upper_bound; lia).
  replace (s + S ip)%nat with (S (s + ip)) in IH by lia. rewrite upto_S in IH by exact J.
  replace (S (s + ip) + length l)%nat with (s + ip + S (length l))%nat in IH by lia. lia.
Qed.
Lemma deal_even {A} nt s (l : list A) i j : (i < nt)%nat -> (j < nt)%nat ->
  (length (nth i (deal nt s 0 l (repeat [] nt)) []) <= length (nth j (deal nt s 0 l (repeat [] nt)) []) + 1)%nat.
Proof.
  intros I J. pose proof (deal_nth nt s l i I 0 (repeat [] nt) (repeat_length _ _)) as A1. pose proof (deal_nth nt s l j J 0 (repeat [] nt) (repeat_length _ _)) as A2.
  rewrite !nth_repeat in A1. rewrite !nth_repeat in A2. cbn [length] in A1, A2.
  assert (Q : forall j n, (j < nt)%nat -> upto nt j n = (n / nt + (if Nat.ltb j (n mod nt) then 1 else 0))%nat).
  { clear. intros j n J. unfold upto. pose proof (Nat.div_mod n nt ltac:(lia)) as D. pose proof (Nat.mod_upper_bound n nt ltac:(lia)) as B.
    set (q := (n / nt)%nat) in *. set (r := (n mod nt)%nat) in *. clearbody q r. subst n. destruct (Nat.ltb_spec j r).
    - replace (nt * q + r + (nt - 1 - j))%nat with ((q + 1) * nt + (r - j - 1))%nat by lia. rewrite Nat.div_add_l, Nat.div_small by lia. lia.
    - replace (nt * q + r + (nt - 1 - j))%nat with (q * nt + (r + nt - 1 - j))%nat by lia. rewrite Nat.div_add_l, Nat.div_small by lia. lia. }
  rewrite !Q in A1, A2 by assumption.
  set (r1 := ((s + 0) mod nt)%nat) in *. set (r2 := ((s + 0 + length l) mod nt)%nat) in *. clearbody r1 r2.
  destruct (Nat.ltb_spec i r1), (Nat.ltb_spec i r2), (Nat.ltb_spec j r1), (Nat.ltb_spec j r2); lia.
Qed.
Lemma rank_even m rnd fuel n NTOT nc np rank nt start zs ls i j : 
  sample_all_tracers m rnd fuel n NTOT nc np rank nt start zs (repeat [] nt) = Ok ls -> (i < nt)%nat -> (j < nt)%nat ->
  (length (nth i ls []) <= length (nth j ls []) + 1)%nat.
Proof.
  unfold sample_all_tracers. destruct (tracer_max_id _ n) as [t| | |]; try discriminate.
  destruct (_ <? _)%Z; [discriminate|]. destruct (_ <? _)%Z; [discriminate|]. cbv zeta. destruct (_ <? _)%Z; [discriminate|].
  destruct (tcrs_p_cell _ _ _) as [k| | |]; try discriminate. destruct (sample_zones _ _ _ _ _ _ _) as [l| | |]; try discriminate.
  intros E I J. injection E as <-. now apply deal_even.
Qed.
Section Cells.
Variables (m : grid) (rnd : nat -> R) (fuel : nat) (n NTOT nc np rank : Z) (nt start : nat) (zs : list zone) (ls : list (list tracer)).
Hypothesis ran : sample_all_tracers m rnd fuel n NTOT nc np rank nt start zs (repeat [] nt) = Ok ls.
Hypothesis n0 : (0 <= n <= INT_MAX)%Z.
Hypothesis nt0 : (0 < nt)%nat.
Hypothesis nc0 : (0 < nc <= NTOT)%Z.
Hypothesis dx0 : forall dir, 0 < dx m dir.
Hypothesis r01 : forall i, 0 <= rnd i < 1.
Hypothesis zok : zones_ok zs.
Lemma rank_even_cells z k : In z zs -> (n <= k * nc < n + nc)%Z -> Z.of_nat (length (filter (comes_from z) (tracers ls))) = if flag z then k else 0%Z.
Proof using ran n0 nt0 nc0 dx0 r01 zok.
  intros I H. destruct (rank_spec _ _ _ _ _ _ _ _ _ _ _ _ ran n0 nt0 nc0) as (k' & T & _ & B & _). rewrite (ceil_unique _ _ _ _ H B).
  eapply rank_cell; eauto.
Qed.
Lemma rank_cell_mass z : In z zs -> sumR (map mass (filter (comes_from z) (tracers ls))) = if flag z then zone_mass m z else 0.
Proof using ran n0 nt0 nc0 dx0 r01 zok.
  intros I. destruct (rank_spec _ _ _ _ _ _ _ _ _ _ _ _ ran n0 nt0 nc0) as (k' & T & _ & B & _). eapply rank_cell; eauto.
Qed.
Lemma in_made k zs' last q t : In t (made m rnd k zs' last q) -> exists z l' q', In z zs' /\ flag z = true /\ t = make_tracer m rnd z k l' q'.
Proof using.
  clear. revert last q. induction zs' as [|z zs' IH]; intros last q; cbn [made]; [contradiction|]. destruct (flag z) eqn:F.
  - intros H. apply in_app_or in H. destruct H as [H|H].
    + unfold made1 in H. apply in_map_iff in H. destruct H as (i & <- & _). exists z, (last + Z.of_nat i)%Z, (q + i)%nat. split; [now left|]. auto.
    + destruct (IH _ _ H) as (z' & l' & q' & A & B). exists z', l', q'. split; [now right|exact B].
  - intros H. destruct (IH _ _ H) as (z' & l' & q' & A & B). exists z', l', q'. split; [now right|exact B].
Qed.
Lemma rank_place t : In t (tracers ls) -> exists z, In z zs /\ flag z = true /\ comes_from z t = true /\
    forall dir, coord m CORN (ijk z) dir <= pos t dir < coord m CORN (fun d => (ijk z d + 1)%Z) dir.
Proof using ran n0 nt0 nc0 dx0 r01 zok.
  intros I. destruct (rank_spec _ _ _ _ _ _ _ _ _ _ _ _ ran n0 nt0 nc0) as (k & T & _ & B & _ & _ & P).
  apply (Permutation_in _ P) in I. apply in_made in I. destruct I as (z & l' & q' & Z1 & F & ->). exists z. split; [exact Z1|]. split; [exact F|].
  destruct zok as [_ ZI]. split; [rewrite from_own by (auto; apply ZI, Z1); now rewrite !Z.eqb_refl|].
  intros dir. unfold make_tracer. cbn [pos]. unfold coord. cbn [centred]. unfold coord1. pose proof (dx0 dir) as D. pose proof (r01 (3 * q' + (dir - 1))%nat) as R0.
  replace (IZR (ijk z dir + 1 + gs m dir - NG)) with (IZR (ijk z dir + gs m dir - NG) + 1) by (rewrite !minus_IZR, !plus_IZR; lra).
  set (a := IZR (ijk z dir + gs m dir - NG)). set (r := rnd _) in *. split.
  - assert (0 <= r * dx m dir) by (apply Rmult_le_pos; lra). lra.
  - assert (r * dx m dir < 1 * dx m dir) by (apply Rmult_lt_compat_r; lra). lra.
Qed.
End Cells.
Lemma even_makes : exists procs outs, all_sample (fun _ => unit_grid) (fun _ _ => 1 / 2) 2 32 16 1 (fun _ => 0%nat) procs outs /\
  length (concat (map tracers outs)) = 32%nat.
Proof.
  destruct even_happens as (procs & outs & A & C & E & _). exists procs, outs. split; [exact A|].
  destruct (all_count _ _ _ _ _ _ _ _ _ A ltac:(unfold INT_MAX; lia) ltac:(lia) ltac:(lia) 2) as [_ Q]; [lia|]. lia.
Qed.
Lemma even_mass : exists procs outs, all_sample (fun _ => unit_grid) (fun _ _ => 1 / 2) 2 32 16 1 (fun _ => 0%nat) procs outs /\
  forall ls, In ls outs -> sumR (map mass (tracers ls)) = 8.
Proof.
  destruct (two_ranks 32 16 eight eight 2) as (o0 & o1 & A & _); [unfold INT_MAX; lia|lia|reflexivity|lia|vm_compute; split; congruence|vm_compute; congruence|vm_compute; congruence|].
  exists [eight; eight], [o0; o1]. split; [exact A|]. destruct A as [_ A].
  assert (R8 : sumR (map (zone_mass unit_grid) (filter flag eight)) = 8) by (unfold eight, zone_mass, unit_grid; cbn [map filter flag zn sumR rho gdet dx]; lra).
  assert (RC : reduce [eight; eight] = 16%Z) by reflexivity.
  intros ls [<-|[<-|[]]].
  - rewrite <- R8. apply (rank_mass _ _ _ _ _ _ _ _ _ _ _ _ (A 0%nat eight o0 eq_refl eq_refl)); rewrite ?RC; unfold INT_MAX; lia.
  - rewrite <- R8. apply (rank_mass _ _ _ _ _ _ _ _ _ _ _ _ (A 1%nat eight o1 eq_refl eq_refl)); rewrite ?RC; unfold INT_MAX; lia.
Qed.
