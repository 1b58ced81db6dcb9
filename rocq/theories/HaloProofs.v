From Coq Require Import ZArith List Bool Lia Permutation ZifyBool.
Import ListNotations.
From Verif Require Import SumLib ExchModel ExchProofs HaloModel HaloSpec.
Open Scope Z_scope.

(** ** Decomposition *)
Lemma decomposition P N c : 0 < P -> 0 <= N -> 0 <= c < P ->
  local_size (P * N) P = N /\ global_start (P * N) P c = c * N /\ global_stop (P * N) P c = (c + 1) * N.
Proof.
  intros HP HN Hc. unfold local_size, global_start, global_stop.
  repeat split.
  - rewrite (Z.mul_comm P N). apply Z.quot_mul. lia.
  - replace (c * (P * N)) with (c * N * P) by ring. apply Z.quot_mul. lia.
  - replace ((c + 1) * (P * N)) with ((c + 1) * N * P) by ring. apply Z.quot_mul. lia.
Qed.

Lemma zone_partition P N : 0 < P -> 0 < N -> forall x, 0 <= x < P * N ->
  exists! c, 0 <= c < P /\
    let (s, n) := zone_region (P * N) P c in s <= x < s + n.
Proof.
  intros HP HN x Hx. unfold zone_region.
  exists (x / N). split.
  - assert (0 <= x / N < P).
    { split; [apply Z.div_pos; lia|]. apply Z.div_lt_upper_bound; lia. }
    split; [trivial|]. destruct (decomposition P N (x / N)) as (E1 & E2 & _); [lia|lia|lia|].
    rewrite E1, E2. pose proof (Z.div_mod x N). pose proof (Z.mod_pos_bound x N). nia.
  - intros c [Hc H]. destruct (decomposition P N c) as (E1 & E2 & _); try lia.
    rewrite E1, E2 in H. symmetry. apply Z.div_unique with (r := x - c * N); lia.
Qed.

Lemma face_partition P N : 0 < P -> 0 < N -> forall x, 0 <= x < P * N + 1 ->
  exists! c, 0 <= c < P /\
    let (s, n) := face_region (P * N) P c in s <= x < s + n.
Proof.
  intros HP HN x Hx. unfold face_region.
  assert (E : forall c, 0 <= c < P -> global_stop (P * N) P c =? P * N + 1 - 1 = (c =? P - 1)).
  { intros c Hc. destruct (decomposition P N c) as (_ & _ & ->); try lia.
    destruct (Z.eqb_spec c (P - 1)) as [->|Hn]; [nia|].
    destruct (Z.eqb_spec ((c + 1) * N) (P * N + 1 - 1)); trivial. nia. }
  destruct (Z.eq_dec x (P * N)) as [->|Hx2].
  - exists (P - 1). split.
    + split; [lia|]. rewrite E by lia. rewrite Z.eqb_refl.
      destruct (decomposition P N (P - 1)) as (E1 & E2 & _); [lia|lia|lia|]. rewrite E1, E2. nia.
    + intros c [Hc H]. rewrite E in H by trivial.
      destruct (decomposition P N c) as (E1 & E2 & _); try lia. rewrite E1, E2 in H.
      destruct (Z.eqb_spec c (P - 1)); [lia|]. nia.
  - exists (x / N).
    assert (B : 0 <= x / N < P).
    { split; [apply Z.div_pos; lia|]. apply Z.div_lt_upper_bound; lia. }
    pose proof (Z.div_mod x N). pose proof (Z.mod_pos_bound x N). split.
    + split; [trivial|]. destruct (decomposition P N (x / N)) as (E1 & E2 & _); [lia|lia|lia|].
      rewrite E1, E2. destruct (_ =? _); nia.
    + intros c [Hc HH]. rewrite E in HH by trivial.
      destruct (decomposition P N c) as (E1 & E2 & _); try lia. rewrite E1, E2 in HH.
      symmetry. apply Z.div_unique with (r := x - c * N); [|lia].
      destruct (Z.eqb_spec c (P - 1)); nia.
Qed.

(** Not dividing evenly: a zone nobody owns. *)
Lemma uneven_refuted : exists nt p x, 0 < p /\ 0 <= x < nt /\
  forall c, 0 <= c < p -> let (s, n) := zone_region nt p c in ~ (s <= x < s + n).
Proof.
  exists 5, 2, 4. split; [lia|]. split; [lia|]. intros c Hc. assert (H : c = 0 \/ c = 1) by lia.
  destruct H; subst; cbn; lia.
Qed.

(** ** Prefix sums *)
Lemma fold_add l : forall a, fold_left Z.add l a = a + fold_left Z.add l 0.
Proof.
  induction l as [|x l IH]; intros a; cbn [fold_left]; [lia|]. rewrite IH, (IH (0 + x)). lia.
Qed.

Lemma accumulate_step vals r v : nth_error vals r = Some v ->
  accumulate vals (S r) = accumulate vals r + v.
Proof.
  unfold accumulate. revert r. induction vals as [|x vals IH]; intros [|r] H; try discriminate.
  - injection H as ->. reflexivity.
  - cbn [firstn fold_left]. cbn [nth_error] in H.
    rewrite fold_add, (fold_add _ (0 + x)). specialize (IH r H). cbn [firstn] in IH. lia.
Qed.

Lemma accumulate_0 vals : accumulate vals 0 = 0.
Proof. reflexivity. Qed.

Lemma accumulate_mono vals r s : Forall (fun v => 0 <= v) vals -> (r <= s <= length vals)%nat ->
  accumulate vals r <= accumulate vals s.
Proof.
  intros F [H1 H2]. induction H1 as [|s H1 IH]; [lia|].
  destruct (nth_error vals s) as [v|] eqn:E.
  - rewrite (accumulate_step _ _ _ E). assert (0 <= v).
    { rewrite Forall_forall in F. apply F. eapply nth_error_In; eauto. } specialize (IH ltac:(lia)). lia.
  - apply nth_error_None in E. lia.
Qed.

Lemma prefix_tiles vals : Forall (fun v => 0 <= v) vals ->
  forall x, 0 <= x < accumulate vals (length vals) ->
  exists! r, exists v, nth_error vals r = Some v /\
     accumulate vals r <= x < accumulate vals r + v.
Proof.
  intros F x Hx.
  assert (EX : forall n, (n <= length vals)%nat -> x < accumulate vals n ->
    exists r, (r < n)%nat /\ exists v, nth_error vals r = Some v /\
     accumulate vals r <= x < accumulate vals r + v).
  { induction n as [|n IH]; intros Hn Hlt; [rewrite accumulate_0 in Hlt; lia|].
    destruct (nth_error vals n) as [v|] eqn:E.
    - destruct (Z_lt_ge_dec x (accumulate vals n)) as [H|H].
      + destruct (IH ltac:(lia) H) as (r & Hr & H'). exists r. split; [lia|trivial].
      + exists n. split; [lia|]. exists v. rewrite (accumulate_step _ _ _ E) in Hlt.
        repeat split; trivial; lia.
    - apply nth_error_None in E. lia. }
  destruct (EX (length vals) (le_n _) (proj2 Hx)) as (r & Hr & v & E & B). exists r. split.
  - exists v. now split.
  - intros s (w & E' & B').
    assert (Hs : (s < length vals)%nat) by (apply nth_error_Some; congruence).
    destruct (Nat.lt_trichotomy r s) as [H|[H|H]]; trivial; exfalso.
    + pose proof (accumulate_mono vals (S r) s F ltac:(lia)). rewrite (accumulate_step _ _ _ E) in H0. lia.
    + pose proof (accumulate_mono vals (S s) r F ltac:(lia)). rewrite (accumulate_step _ _ _ E') in H0. lia.
Qed.

(** ** Ghost filling *)
Lemma other_ok_set g d x z : other_ok g d (set d x z) = other_ok g d z.
Proof. destruct d, z; reflexivity. Qed.
Lemma set_set d x y z : set d x (set d y z) = set d x z.
Proof. destruct d, z; reflexivity. Qed.
Lemma set_get d z : set d (get d z) z = z.
Proof. destruct d, z; reflexivity. Qed.
Lemma gz_set g c d x z : gz g c (set d x z) = set d (get d c * get d (nloc g) + x) (gz g c z).
Proof. destruct d, z; reflexivity. Qed.
Lemma gz_setc g c d y x z :
  gz g (set d y c) (set d x z) = set d (y * get d (nloc g) + x) (gz g c z).
Proof. destruct d, z, c; reflexivity. Qed.
Lemma get_gz g c d z : get d (gz g c z) = get d c * get d (nloc g) + get d z.
Proof. destruct d; reflexivity. Qed.

Lemma nbr_left g d c : on_grid g c -> 
  nbr g d (-1) c = if get d c =? 0 then
     if per g d then Some (set d (get d (nproc g) - 1) c) else None
   else Some (set d (get d c - 1) c).
Proof.
  intros H. unfold nbr. specialize (H d). rewrite mod_minus1 by lia.
  destruct (get d c =? 0) eqn:E.
  - replace (get d c + -1 <? 0) with true by lia. cbn [orb]. destruct (per g d); reflexivity.
  - replace (get d c + -1 <? 0) with false by lia.
    replace (get d (nproc g) <=? get d c + -1) with false by lia. reflexivity.
Qed.
Lemma nbr_right g d c : on_grid g c -> 
  nbr g d 1 c = if get d c =? get d (nproc g) - 1 then
     if per g d then Some (set d 0 c) else None
   else Some (set d (get d c + 1) c).
Proof.
  intros H. unfold nbr. specialize (H d). rewrite mod_plus1 by lia.
  destruct (get d c =? get d (nproc g) - 1) eqn:E.
  - replace (get d c + 1 <? 0) with false by lia.
    replace (get d (nproc g) <=? get d c + 1) with true by lia. cbn [orb].
    replace (get d c + 1 =? get d (nproc g)) with true by lia. destruct (per g d); reflexivity.
  - replace (get d c + 1 <? 0) with false by lia.
    replace (get d (nproc g) <=? get d c + 1) with false by lia.
    replace (get d c + 1 =? get d (nproc g)) with false by lia. reflexivity.
Qed.
Lemma on_grid_set g d c y : on_grid g c -> 0 <= y < get d (nproc g) -> on_grid g (set d y c).
Proof.
  intros H Hy e. destruct (dir_dec e d) as [->|He].
  - now rewrite get_set_same.
  - rewrite get_set_other by trivial. apply H.
Qed.

Section FillP.
Context {V : Type} (tr : dir -> bc -> v3 -> v3 -> V -> V).

Lemma bound_dir_ok g d (st : rank -> v3 -> V) F :
  bc_ok g -> dir_ok g d -> not_x3r_outflow g d ->
  (forall c z, on_grid g c -> other_ok g d z = true -> 0 <= get d z < get d (nloc g) ->
     st c z = F (gz g c z)) ->
  forall c z, on_grid g c -> other_ok g d z = true ->
    - NG <= get d z < get d (nloc g) + NG ->
    bound_dir tr g d st c z = ext tr g d F (gz g c z).
Proof.
  intros (BP & B1 & B2 & B3 & B4) [HP HN] X3 H c z Hc Ho Hz.
  set (n := get d (nloc g)) in *. set (P := get d (nproc g)) in *. set (x := get d z) in *.
  pose proof (Hc d) as Hcd. fold P in Hcd.
  assert (PER : per g d = true <-> bcL g d = Periodic).
  { unfold per. specialize (BP d). destruct (bcL g d), (bcR g d); cbn; intuition congruence. }
  assert (PERR : per g d = true <-> bcR g d = Periodic).
  { rewrite PER. apply BP. }
  (* one-zone directions *)
  destruct (Z.eq_dec n 1) as [Hn1|Hn1].
  { assert (P1 : P = 1) by (unfold NG in *; lia).
    assert (c0 : get d c = 0) by lia.
    assert (NT : ntot g d = 1) by (unfold ntot; fold n P; nia).
    assert (HF : ext tr g d F (gz g c z) = F (gz g c (set d 0 z))).
    { unfold ext. rewrite get_gz. fold n x. rewrite NT, c0. unfold interior.
      destruct ((0 <=? 0 * n + x) && (0 * n + x <? 1)) eqn:E.
      - assert (x = 0) by lia. assert (z = set d 0 z) as <-; trivial.
        rewrite <- H0. unfold x. now rewrite set_get.
      - rewrite Z.eqb_refl, gz_set. fold n. rewrite c0. reflexivity. }
    rewrite HF.
    assert (NL : nbr g d (-1) c = if per g d then Some c else None).
    { rewrite nbr_left by trivial. rewrite c0. cbn [Z.eqb]. fold P. rewrite P1. cbn [Z.sub Z.add Z.opp Z.pos_sub].
      replace (set d 0 c) with c; trivial. rewrite <- c0 at 1. now rewrite set_get. }
    assert (NR : nbr g d 1 c = if per g d then Some c else None).
    { rewrite nbr_right by trivial. fold P. rewrite P1, c0. cbn [Z.eqb Z.sub Z.add Z.opp Z.pos_sub].
      replace (set d 0 c) with c; trivial. rewrite <- c0 at 1. now rewrite set_get. }
    assert (H0 : forall y, y = 0 -> st c (set d y z) = F (gz g c (set d 0 z))).
    { intros y ->. apply H; trivial.
      - now rewrite other_ok_set.
      - rewrite get_set_same. lia. }
    (* value after the left stages at any index in [-NG,1) *)
    assert (SL : forall y, - NG <= y < 1 ->
       sync_left g d (fill_left tr g d st) c (set d y z) = F (gz g c (set d 0 z))).
    { intros y Hy.
      assert (FL : forall w, - NG <= w < 1 -> fill_left tr g d st c (set d w z) = F (gz g c (set d 0 z))).
      { intros w Hw. unfold fill_left. rewrite get_set_same, other_ok_set, Ho, c0.
        destruct (in_left w) eqn:E; cbn [andb Z.eqb].
        - fold n. replace (n <? NG) with true by (unfold NG; lia). rewrite set_set. now apply H0.
        - apply H0. unfold in_left in E. lia. }
      unfold sync_left. rewrite get_set_same, other_ok_set, Ho, NL, andb_true_r.
      destruct (in_left y) eqn:E; [|now apply FL].
      destruct (per g d); [|now apply FL]. rewrite set_set. apply FL.
      fold n. unfold in_left in E. lia. }
    assert (FR : forall y, - NG <= y < 1 + NG ->
       fill_right tr g d (sync_left g d (fill_left tr g d st)) c (set d y z) = F (gz g c (set d 0 z))).
    { intros y Hy. unfold fill_right. rewrite get_set_same, other_ok_set, Ho. fold n P.
      rewrite c0, P1. cbn [Z.eqb Z.sub Z.add Z.opp Z.pos_sub andb]. rewrite andb_true_r.
      destruct (in_right n y) eqn:E.
      - replace (n <? NG) with true by (unfold NG; lia). rewrite set_set. apply SL. unfold NG; lia.
      - apply SL. unfold in_right in E. lia. }
    unfold bound_dir, sync_right. rewrite Ho, andb_true_r. fold n x. rewrite NR.
    assert (Zx : set d x z = z) by (unfold x; apply set_get).
    destruct (in_right n x) eqn:E.
    - destruct (per g d).
      + apply FR. unfold in_right in E. lia.
      + rewrite <- Zx at 1. apply FR. lia.
    - rewrite <- Zx at 1. apply FR. lia. }
  (* blocks at least as wide as the ghost region *)
  assert (HN' : NG <= n) by (destruct HN as [?|[? _]]; trivial; lia). clear HN.
  assert (NG3 : NG = 3) by reflexivity.
  assert (NT : ntot g d = P * n) by reflexivity.
  assert (NT1 : P * n <> 1) by nia.
  (* interior zones are untouched by the left stages *)
  assert (INT : forall c' y, on_grid g c' -> 0 <= y < n ->
     sync_left g d (fill_left tr g d st) c' (set d y z) =
       F (set d (get d c' * n + y) (gz g c' z))).
  { intros c' y Hc' Hy. unfold sync_left, fill_left. rewrite get_set_same.
    replace (in_left y) with false by (unfold in_left; lia). rewrite andb_false_r. cbn [andb].
    rewrite H; trivial; [now rewrite gz_set|now rewrite other_ok_set|now rewrite get_set_same]. }
  assert (INTF : forall c' y, on_grid g c' -> 0 <= y < n ->
     fill_left tr g d st c' (set d y z) = F (set d (get d c' * n + y) (gz g c' z))).
  { intros c' y Hc' Hy. unfold fill_left. rewrite get_set_same.
    replace (in_left y) with false by (unfold in_left; lia). rewrite andb_false_r. cbn [andb].
    rewrite H; trivial; [now rewrite gz_set|now rewrite other_ok_set|now rewrite get_set_same]. }
  assert (INTFR : forall c' y, on_grid g c' -> 0 <= y < n ->
     fill_right tr g d (sync_left g d (fill_left tr g d st)) c' (set d y z) =
       F (set d (get d c' * n + y) (gz g c' z))).
  { intros c' y Hc' Hy. unfold fill_right. rewrite get_set_same. fold n.
    replace (in_right n y) with false by (unfold in_right; lia). rewrite andb_false_r. cbn [andb].
    now apply INT. }
  assert (GZS : forall y w, set d w (gz g (set d y c) z) = set d w (gz g c z)).
  { intros y w. destruct d, c, z; reflexivity. }
  assert (Zx : set d x z = z) by (unfold x; apply set_get).
  assert (GX : get d (gz g c z) = get d c * n + x) by apply get_gz.
  assert (SG : set d (get d c * n + x) (gz g c z) = gz g c z) by (rewrite <- GX; apply set_get).
  assert (Hlr : x < 0 \/ 0 <= x < n \/ n <= x) by lia.
  destruct Hlr as [Hl|[Hm|Hr]].
  - (* left ghosts *)
    unfold bound_dir, sync_right, fill_right. fold n x.
    replace (in_right n x) with false by (unfold in_right; lia).
    rewrite andb_false_r. cbn [andb].
    unfold sync_left. fold x. rewrite Ho. replace (in_left x) with true by (unfold in_left; lia).
    cbn [andb]. rewrite nbr_left by trivial. fold P n.
    destruct (get d c =? 0) eqn:E0.
    + assert (c0 : get d c = 0) by lia.
      destruct (per g d) eqn:EP.
      * rewrite INTF by (try apply on_grid_set; trivial; fold P; lia).
        rewrite get_set_same, GZS.
        unfold ext. rewrite GX, c0, NT. fold n.
        replace (interior (P * n) (0 * n + x)) with false by (unfold interior; lia).
        replace (P * n =? 1) with false by lia.
        replace (0 * n + x <? 0) with true by lia.
        destruct PER as [PER _]. rewrite (PER eq_refl). unfold source.
        f_equal. f_equal. apply Z.mod_unique with (q := -1); [left; nia|ring_simplify; nia].
      * assert (NP : bcL g d <> Periodic) by (intros Q; apply PER in Q; discriminate).
        unfold fill_left. fold x n. rewrite E0, Ho. replace (in_left x) with true by (unfold in_left; lia).
        cbn [andb]. replace (n <? NG) with false by lia.
        unfold ext. rewrite GX, c0, NT. fold n.
        replace (interior (P * n) (0 * n + x)) with false by (unfold interior; lia).
        replace (P * n =? 1) with false by lia.
        replace (0 * n + x <? 0) with true by lia.
        destruct (bcL g d) eqn:EB; [| |congruence].
        -- rewrite H; [|trivial|now rewrite other_ok_set|rewrite get_set_same; unfold actL; fold n; lia].
           rewrite gz_set, c0. cbn [source actL]. fold n. replace (0 * n + x <? 0) with true by lia.
           replace (0 * n + 0) with 0 by lia. reflexivity.
        -- rewrite H; [|trivial|now rewrite other_ok_set|rewrite get_set_same; unfold actL; fold n; lia].
           rewrite gz_set, c0. cbn [source actL]. fold n. replace (0 * n + x <? 0) with true by lia.
           replace (0 * n + (- (x + NG) + 2 * NG - 1 - NG)) with (-1 - (0 * n + x)) by lia. reflexivity.
    + rewrite INTF by (try apply on_grid_set; trivial; fold P; lia).
      rewrite get_set_same, GZS.
      unfold ext. rewrite GX, NT.
      replace (interior (P * n) (get d c * n + x)) with true by (unfold interior; nia).
      replace ((get d c - 1) * n + (x + n)) with (get d c * n + x) by ring.
      now rewrite SG.
  - (* interior *)
    unfold bound_dir, sync_right. fold n x.
    replace (in_right n x) with false by (unfold in_right; lia). cbn [andb].
    rewrite <- Zx at 1. rewrite INTFR by trivial. rewrite SG.
    unfold ext. rewrite GX, NT.
    now replace (interior (P * n) (get d c * n + x)) with true by (unfold interior; nia).
  - (* right ghosts *)
    unfold bound_dir, sync_right. fold n x. rewrite Ho.
    replace (in_right n x) with true by (unfold in_right; lia). cbn [andb].
    rewrite nbr_right by trivial. fold P.
    destruct (get d c =? P - 1) eqn:E0.
    + assert (c0 : get d c = P - 1) by lia.
      destruct (per g d) eqn:EP.
      * rewrite INTFR by (try apply on_grid_set; trivial; fold P; lia).
        rewrite get_set_same, GZS.
        unfold ext. rewrite GX, c0, NT.
        replace (interior (P * n) ((P - 1) * n + x)) with false by (unfold interior; nia).
        replace (P * n =? 1) with false by lia.
        replace ((P - 1) * n + x <? 0) with false by nia.
        destruct PERR as [PERR _]. rewrite (PERR eq_refl). unfold source.
        f_equal. f_equal. apply Z.mod_unique with (q := 1); [left; nia|ring_simplify; nia].
      * assert (NP : bcR g d <> Periodic) by (intros Q; apply PERR in Q; discriminate).
        unfold fill_right. fold x n P. rewrite E0, Ho. replace (in_right n x) with true by (unfold in_right; lia).
        cbn [andb]. replace (n <? NG) with false by lia.
        unfold ext. rewrite GX, c0, NT.
        replace (interior (P * n) ((P - 1) * n + x)) with false by (unfold interior; nia).
        replace (P * n =? 1) with false by lia.
        replace ((P - 1) * n + x <? 0) with false by nia.
        destruct (bcR g d) eqn:EB; [| |congruence].
        -- assert (Ed : actR n d Outflow x = n - 1).
           { unfold actR. destruct d; trivial. exfalso. specialize (X3 eq_refl EB). lia. }
           rewrite Ed. rewrite INT by (trivial; lia). rewrite gz_set. fold n. rewrite c0. cbn [source].
           replace ((P - 1) * n + x <? 0) with false by nia.
           replace ((P - 1) * n + (n - 1)) with (P * n - 1) by ring. reflexivity.
        -- rewrite INT by (trivial; unfold actR; lia). rewrite gz_set. fold n. rewrite c0.
           cbn [source actR].
           replace ((P - 1) * n + x <? 0) with false by nia.
           replace ((P - 1) * n + (- (x + NG) + 2 * (n + NG) - 1 - NG)) with (2 * (P * n) - 1 - ((P - 1) * n + x)) by (rewrite NG3; ring).
           reflexivity.
    + rewrite INTFR by (try apply on_grid_set; trivial; fold P; lia).
      rewrite get_set_same, GZS.
      unfold ext. rewrite GX, NT.
      replace (interior (P * n) (get d c * n + x)) with true by (unfold interior; nia).
      replace ((get d c + 1) * n + (x - n)) with (get d c * n + x) by ring.
      now rewrite SG.
Qed.

Lemma bound_prim_ok g (st : rank -> v3 -> V) F :
  bc_ok g -> (forall d, dir_ok g d) -> not_x3r_outflow g D3 ->
  represents g F st ->
  forall c z, on_grid g c -> (forall d, - NG <= get d z < get d (nloc g) + NG) ->
    bound_prim tr g st c z = ext3 tr g F (gz g c z).
Proof.
  intros BC HD X3 H c z Hc Hz. unfold bound_prim, ext3.
  assert (N1 : not_x3r_outflow g D1) by (intros ?; discriminate).
  assert (N2 : not_x3r_outflow g D2) by (intros ?; discriminate).
  apply bound_dir_ok; trivial.
  2:{ unfold other_ok, padded. pose proof (Hz D1). pose proof (Hz D2). cbn [get] in *. lia. }
  intros c2 z2 Hc2 Ho2 Hi2. apply bound_dir_ok; trivial.
  2:{ unfold other_ok, padded, interior in *. cbn [get] in *. lia. }
  2:{ unfold other_ok, padded, interior in *. cbn [get] in *. lia. }
  intros c1 z1 Hc1 Ho1 Hi1. apply bound_dir_ok; trivial.
  2:{ unfold other_ok, padded, interior in *. cbn [get] in *. lia. }
  2:{ unfold other_ok, padded, interior in *. cbn [get] in *. lia. }
  intros c0 z0 Hc0 Ho0 Hi0. apply H; trivial.
  unfold other_ok, padded, interior in *. intros [| |]; cbn [get] in *; lia.
Qed.
End FillP.

(** ** Reduction of deposits *)
Section ReduceP.
Context {M : Type} (zero : M) (plus : M -> M -> M).
Hypothesis plus_comm : forall a b, plus a b = plus b a.
Hypothesis plus_assoc : forall a b c, plus a (plus b c) = plus (plus a b) c.
Hypothesis plus_zero : forall a, plus zero a = a.
Notation sum := (gsum zero plus).

Lemma slots_in g d a x : In (a, x) (slots g d) <->
  0 <= a < get d (nproc g) /\ -1 <= x <= get d (nloc g).
Proof.
  unfold slots. rewrite in_flat_map. split.
  - intros (a' & Ha & H). apply in_map_iff in H as (y & [= -> <-] & Hy).
    apply zrange_in in Ha, Hy. lia.
  - intros [Ha Hx]. exists a. split; [now apply zrange_in|]. apply in_map_iff.
    exists (x + 1). split; [f_equal; lia|]. apply zrange_in. lia.
Qed.
Lemma slots_nodup g d : NoDup (slots g d).
Proof.
  unfold slots. apply NoDup_flat_map; [apply zrange_nodup| |].
  - intros a _. apply FinFun.Injective_map_NoDup; [|apply zrange_nodup]. intros u v [= H]; lia.
  - intros a a' z _ _ H1 H2. apply in_map_iff in H1 as (k & <- & _).
    apply in_map_iff in H2 as (k' & H & _). congruence.
Qed.
Lemma depositors_in g d G a x : In (a, x) (depositors g d G) <->
  (0 <= a < get d (nproc g) /\ -1 <= x <= get d (nloc g)) /\ target g d a x = Some G.
Proof.
  unfold depositors. rewrite filter_In, slots_in. cbn [fst snd].
  destruct (target g d a x) as [t|]; [|intuition discriminate].
  rewrite Z.eqb_eq. intuition congruence.
Qed.

Definition senders (g : hcfg) (d : dir) (c z : Z) : list (Z * Z) :=
  let P := get d (nproc g) in let n := get d (nloc g) in
  (c, z) ::
  (if z =? 0 then if c =? 0 then if per g d then [(P - 1, n)] else [] else [(c - 1, n)] else []) ++
  (if z =? n - 1 then if c =? P - 1 then if per g d then [(0, -1)] else [] else [(c + 1, -1)] else []).

Lemma depositors_senders g d c z :
  2 <= get d (nloc g) -> 0 <= c < get d (nproc g) -> 0 <= z < get d (nloc g) ->
  Permutation (depositors g d (c * get d (nloc g) + z)) (senders g d c z).
Proof.
  intros Hn Hc Hz. set (n := get d (nloc g)) in *. set (P := get d (nproc g)) in *.
  apply NoDup_Permutation.
  - apply NoDup_filter, slots_nodup.
  - unfold senders. fold n P.
    destruct (z =? 0) eqn:E0, (z =? n - 1) eqn:E1; try lia;
    destruct (c =? 0) eqn:E2, (c =? P - 1) eqn:E3, (per g d); cbn [app];
    repeat constructor; cbn [In]; intuition (try lia);
    match goal with H : (_, _) = (_, _) |- _ => injection H; lia end.
  - intros [a x]. rewrite depositors_in. fold n P. unfold target. fold n.
    assert (NT : ntot g d = P * n) by reflexivity. rewrite NT.
    split.
    + intros [[Ha Hx] T].
      assert (Q : (a = c /\ x = z) \/ (z = 0 /\ x = n /\ ((c = 0 /\ per g d = true /\ a = P - 1) \/ (c <> 0 /\ a = c - 1)))
         \/ (z = n - 1 /\ x = -1 /\ ((c = P - 1 /\ per g d = true /\ a = 0) \/ (c <> P - 1 /\ a = c + 1)))).
      { unfold interior in T. destruct ((0 <=? a * n + x) && (a * n + x <? P * n)) eqn:EI.
        - injection T as T.
          assert (D : a = c \/ a = c + 1 \/ a = c - 1) by nia.
          destruct D as [D|[D|D]]; subst a; [left; split; nia|right; right|right; left];
            (split; [nia|split; [nia|right; nia]]).
        - destruct (per g d); [|discriminate]. injection T as T.
          assert (D : a * n + x = -1 \/ a * n + x = P * n) by nia.
          destruct D as [D|D].
          + assert (a = 0) by nia. subst a. assert (x = -1) by nia. subst x.
            assert (K : (0 * n + -1) mod (P * n) = P * n - 1).
            { symmetry. apply Z.mod_unique with (q := -1); [left; nia|ring]. }
            rewrite K in T. assert (c = P - 1) by nia. subst c.
            right; right. split; [nia|]. split; [lia|left; auto].
          + assert (a = P - 1) by nia. subst a. assert (x = n) by nia. subst x.
            assert (K : ((P - 1) * n + n) mod (P * n) = 0).
            { replace ((P - 1) * n + n) with (P * n) by ring. apply Z.mod_same. nia. }
            rewrite K in T. assert (c = 0) by nia. subst c.
            right; left. split; [nia|]. split; [lia|left; auto]. }
      unfold senders. fold n P.
      destruct Q as [[-> ->]|[(-> & -> & [(-> & -> & ->)|[Hc0 ->]])|(-> & -> & [(-> & -> & ->)|[Hc0 ->]])]].
      * now left.
      * right. apply in_or_app. left. cbn. now left.
      * right. apply in_or_app. left. cbn [Z.eqb]. replace (c =? 0) with false by lia. now left.
      * right. apply in_or_app. right. rewrite Z.eqb_refl, Z.eqb_refl. now left.
      * right. apply in_or_app. right. rewrite Z.eqb_refl. replace (c =? P - 1) with false by lia. now left.
    + intros H. unfold senders in H. fold n P in H. destruct H as [[= <- <-]|H].
      * split; [lia|]. unfold interior. now replace ((0 <=? c * n + z) && (c * n + z <? P * n)) with true by nia.
      * apply in_app_or in H as [H|H].
        -- destruct (z =? 0) eqn:E; [|destruct H]. assert (z = 0) by lia. subst z.
           destruct (c =? 0) eqn:E2.
           ++ assert (c = 0) by lia. subst c. destruct (per g d) eqn:EP; [|destruct H].
              destruct H as [[= <- <-]|[]]. split; [lia|]. unfold interior.
              replace ((0 <=? (P - 1) * n + n) && ((P - 1) * n + n <? P * n)) with false by nia.
              f_equal. replace ((P - 1) * n + n) with (P * n) by ring. rewrite Z.mod_same; nia.
           ++ destruct H as [[= <- <-]|[]]. split; [lia|]. unfold interior.
              replace ((0 <=? (c - 1) * n + n) && ((c - 1) * n + n <? P * n)) with true by nia.
              f_equal. ring.
        -- destruct (z =? n - 1) eqn:E; [|destruct H]. assert (z = n - 1) by lia. subst z.
           destruct (c =? P - 1) eqn:E2.
           ++ assert (c = P - 1) by lia. subst c. destruct (per g d) eqn:EP; [|destruct H].
              destruct H as [[= <- <-]|[]]. split; [lia|]. unfold interior.
              replace ((0 <=? 0 * n + -1) && (0 * n + -1 <? P * n)) with false by lia.
              f_equal. symmetry. apply Z.mod_unique with (q := -1); [left; nia|ring].
           ++ destruct H as [[= <- <-]|[]]. split; [lia|]. unfold interior.
              replace ((0 <=? (c + 1) * n + -1) && ((c + 1) * n + -1 <? P * n)) with true by nia.
              f_equal. ring.
Qed.

Lemma boxd_spec n x : boxd n x = true <-> -1 <= x <= n.
Proof. unfold boxd, NGR. lia. Qed.
Lemma in_box_spec g z : in_box g z = true <-> forall d, -1 <= get d z <= get d (nloc g).
Proof.
  unfold in_box. rewrite !andb_true_iff, !boxd_spec. split.
  - intros [[H1 H2] H3] [| |]; trivial.
  - intros H. pose proof (H D1). pose proof (H D2). pose proof (H D3). auto.
Qed.

Lemma reduce_dir_ok g d st c z :
  2 <= get d (nloc g) -> on_grid g c -> in_box g z = true -> 0 <= get d z < get d (nloc g) ->
  reduce_dir zero plus g d st c z =
  sum (fun p => st (set d (fst p) c) (set d (snd p) z))
      (depositors g d (get d c * get d (nloc g) + get d z)).
Proof.
  intros Hn Hc Hb Hz.
  rewrite (gsum_perm zero plus plus_comm plus_assoc _ _ _ (depositors_senders g d (get d c) (get d z) Hn (Hc d) Hz)).
  unfold reduce_dir, radG_buf. rewrite Hb. unfold senders. rewrite gsum_cons. cbn [fst snd].
  rewrite !set_get. f_equal. rewrite gsum_app by trivial.
  rewrite nbr_left, nbr_right by trivial. unfold NGR.
  assert (PR : forall a, plus a zero = a) by (intros; now rewrite plus_comm).
  destruct (get d z =? 0) eqn:E0, (get d z =? get d (nloc g) - 1) eqn:E1; try lia.
  - destruct (get d c =? 0); [destruct (per g d)|]; cbn [gsum fold_right fst snd]; rewrite ?PR; trivial.
  - destruct (get d c =? get d (nproc g) - 1); [destruct (per g d)|]; cbn [gsum fold_right fst snd];
      rewrite ?PR, ?plus_zero; trivial.
  - cbn. now rewrite PR.
Qed.

Lemma sync_radG_ok g st c z :
  (forall d, 2 <= get d (nloc g)) -> on_grid g c ->
  (forall d, 0 <= get d z < get d (nloc g)) ->
  sync_radG zero plus g st c z = deposited zero plus g st (gz g c z).
Proof.
  intros Hn Hc Hz. unfold sync_radG, deposited, sum3.
  rewrite reduce_dir_ok; trivial; [|apply in_box_spec; intros d; specialize (Hz d); lia].
  cbn [gz v1 v2 v3_]. apply gsum_ext. intros [a3 x3] H3. apply depositors_in in H3 as [[Ha3 Hx3] _].
  cbn [get nloc nproc] in Ha3, Hx3. cbn [fst snd].
  rewrite reduce_dir_ok; [|apply Hn| | |].
  2:{ now apply on_grid_set. }
  2:{ apply in_box_spec. intros d. pose proof (Hz d). destruct d; cbn [get set v1 v2 v3_] in *; lia. }
  2:{ rewrite get_set_other by discriminate. apply Hz. }
  rewrite !get_set_other by discriminate. cbn [get].
  apply gsum_ext. intros [a2 x2] H2. apply depositors_in in H2 as [[Ha2 Hx2] _].
  cbn [get nloc nproc] in Ha2, Hx2. cbn [fst snd].
  rewrite reduce_dir_ok; [|apply Hn| | |].
  2:{ apply on_grid_set; [|exact Ha2]. apply on_grid_set; [exact Hc|exact Ha3]. }
  2:{ apply in_box_spec. intros d. pose proof (Hz d). destruct d; cbn [get set v1 v2 v3_] in *; lia. }
  2:{ rewrite !get_set_other by discriminate. apply Hz. }
  rewrite !get_set_other by discriminate. cbn [get].
  apply gsum_ext. intros [a1 x1] _. cbn. destruct c, z. reflexivity.
Qed.

(** Total over all zones. *)
Lemma target_range g d a x t : 0 < get d (nproc g) -> 0 < get d (nloc g) ->
  target g d a x = Some t -> 0 <= t < ntot g d.
Proof.
  intros HP Hn. unfold target, interior. assert (0 < ntot g d) by (unfold ntot; nia).
  destruct (_ && _) eqn:E; [intros [= <-]; lia|].
  destruct (per g d); [|discriminate]. intros [= <-]. apply Z.mod_pos_bound. lia.
Qed.

Lemma sum_by_target {X} (t : X -> option Z) (f : X -> M) l n :
  (forall p G, In p l -> t p = Some G -> 0 <= G < n) ->
  sum (fun G => sum f (filter (fun p => match t p with Some u => u =? G | None => false end) l)) (zrange n)
  = sum f (filter (fun p => match t p with Some _ => true | None => false end) l).
Proof.
  induction l as [|p l IH]; intros H.
  - cbn. now apply gsum_zero.
  - cbn [filter].
    assert (IH' := IH (fun p' G' Hp => H p' G' (or_intror Hp))). clear IH.
    destruct (t p) as [G0|] eqn:E.
    + rewrite gsum_cons, <- IH'.
      rewrite <- (gsum_single zero plus plus_comm plus_zero Z.eq_dec (fun _ => f p) (zrange n) G0).
      2: apply zrange_nodup.
      2: (apply zrange_in; eapply H; [now left|trivial]).
      rewrite <- gsum_plus by trivial. apply gsum_ext. intros G _.
      destruct (Z.eqb_spec G0 G), (Z.eq_dec G G0); try congruence; try reflexivity;
        try (now rewrite plus_zero).
    + exact IH'.
Qed.

Lemma owned_as_zones g d (f : Z * Z -> M) : 0 < get d (nloc g) -> 0 <= get d (nproc g) ->
  sum f (owned g d) = sum (fun G => f (G / get d (nloc g), G mod get d (nloc g))) (zrange (ntot g d)).
Proof.
  intros Hn HP. unfold owned, ntot. set (n := get d (nloc g)) in *. set (P := get d (nproc g)) in *.
  symmetry. rewrite <- (gsum_map zero plus (fun G => (G / n, G mod n)) f).
  apply gsum_perm; trivial. apply NoDup_Permutation.
  - apply FinFun.Injective_map_NoDup; [|apply zrange_nodup].
    intros u v [= H1 H2]. rewrite (Z.div_mod u n), (Z.div_mod v n) by lia. congruence.
  - apply NoDup_flat_map; [apply zrange_nodup| |].
    + intros a _. apply FinFun.Injective_map_NoDup; [|apply zrange_nodup]. intros u v [= H]; lia.
    + intros a a' z _ _ H1 H2. apply in_map_iff in H1 as (k & <- & _).
      apply in_map_iff in H2 as (k' & H & _). congruence.
  - intros [a x]. rewrite in_map_iff, in_flat_map. split.
    + intros (G & [= <- <-] & HG). apply zrange_in in HG. exists (G / n). split.
      * apply zrange_in. split; [apply Z.div_pos; lia|apply Z.div_lt_upper_bound; lia].
      * apply in_map_iff. exists (G mod n). split; trivial. apply zrange_in. apply Z.mod_pos_bound. lia.
    + intros (a' & Ha & H). apply in_map_iff in H as (y & [= -> ->] & Hy). apply zrange_in in Ha, Hy.
      exists (a * n + x). split.
      * f_equal; [symmetry; apply Z.div_unique with (r := x)|symmetry; apply Z.mod_unique with (q := a)]; lia.
      * apply zrange_in. nia.
Qed.

Lemma sync_radG_total g st :
  (forall d, 2 <= get d (nloc g)) -> (forall d, 0 < get d (nproc g)) ->
  interior_total zero plus g (sync_radG zero plus g st) = deposit_total zero plus g st.
Proof.
  intros Hn HP. unfold interior_total, deposit_total, sum3, live.
  assert (T : forall d (f : Z * Z -> M),
     sum f (filter (fun ax => match target g d (fst ax) (snd ax) with Some _ => true | None => false end) (slots g d))
     = sum (fun G => sum f (depositors g d G)) (zrange (ntot g d))).
  { intros d f. symmetry. apply (sum_by_target (fun ax => target g d (fst ax) (snd ax))).
    intros [a x] G _ E. eapply target_range; eauto. specialize (Hn d); lia. }
  rewrite T. rewrite owned_as_zones by (specialize (Hn D3); specialize (HP D3); lia).
  apply gsum_ext. intros G3 H3.
  rewrite owned_as_zones by (specialize (Hn D2); specialize (HP D2); lia).
  transitivity (sum (fun G2 => sum (fun G1 =>
     deposited zero plus g st (V3 G1 G2 G3)) (zrange (ntot g D1))) (zrange (ntot g D2))).
  - apply gsum_ext. intros G2 H2.
    rewrite owned_as_zones by (specialize (Hn D1); specialize (HP D1); lia).
    apply gsum_ext. intros G1 H1. cbn [fst snd].
    apply zrange_in in H1, H2, H3. unfold ntot in *.
    assert (DM : forall d G, 0 <= G < get d (nproc g) * get d (nloc g) ->
       0 <= G / get d (nloc g) < get d (nproc g) /\ 0 <= G mod get d (nloc g) < get d (nloc g) /\
       G / get d (nloc g) * get d (nloc g) + G mod get d (nloc g) = G).
    { intros d G HG. specialize (Hn d). split; [|split].
      - split; [apply Z.div_pos; lia|apply Z.div_lt_upper_bound; lia].
      - apply Z.mod_pos_bound; lia.
      - pose proof (Z.div_mod G (get d (nloc g))). lia. }
    destruct (DM D1 _ H1) as (A1 & B1 & C1). destruct (DM D2 _ H2) as (A2 & B2 & C2).
    destruct (DM D3 _ H3) as (A3 & B3 & C3).
    rewrite sync_radG_ok; trivial.
    + f_equal. unfold gz. cbn [v1 v2 v3_]. cbn [get] in *. congruence.
    + intros [| |]; cbn [get v1 v2 v3_] in *; trivial.
    + intros [| |]; cbn [get v1 v2 v3_] in *; trivial.
  - unfold deposited, sum3. cbn [v1 v2 v3_].
    set (h := fun p1 p2 p3 : Z * Z => st (V3 (fst p1) (fst p2) (fst p3)) (V3 (snd p1) (snd p2) (snd p3))).
    transitivity (sum (fun G2 => sum (fun p3 => sum (fun p2 => sum (fun G1 =>
       sum (fun p1 => h p1 p2 p3) (depositors g D1 G1)) (zrange (ntot g D1)))
       (depositors g D2 G2)) (depositors g D3 G3)) (zrange (ntot g D2))).
    { apply gsum_ext. intros G2 _. rewrite gsum_swap by trivial. apply gsum_ext. intros p3 _.
      rewrite gsum_swap by trivial. apply gsum_ext. reflexivity. }
    rewrite gsum_swap by trivial. apply gsum_ext. intros p3 _.
    rewrite T. apply gsum_ext. intros G2 _. apply gsum_ext. intros p2 _. now rewrite T.
Qed.
End ReduceP.

(** ** Corollaries and counterexamples for the boundary code *)
Lemma source_in_range b n x : NG <= n -> - NG <= x < 0 \/ n <= x < n + NG ->
  0 <= source b n x < n.
Proof.
  unfold NG. intros Hn Hx. destruct b; cbn [source].
  - destruct (x <? 0) eqn:E; lia.
  - destruct (x <? 0) eqn:E; lia.
  - apply Z.mod_pos_bound. lia.
Qed.

Lemma mirror_twice n x : NG <= n -> - NG <= x < 0 \/ n <= x < n + NG ->
  let m := source Polar n x in
  (x < 0 -> - 1 - m = x) /\ (n <= x -> 2 * n - 1 - m = x) /\
  (* equidistant from the face, in half-zone units *)
  (x < 0 -> 2 * m + 1 = - (2 * x + 1)) /\ (n <= x -> 2 * n - (2 * m + 1) = (2 * x + 1) - 2 * n).
Proof.
  unfold NG. intros Hn Hx. cbn [source]. destruct (x <? 0) eqn:E; repeat split; lia.
Qed.

Lemma polar_twice {T} (neg : T -> T) resc d z0 z z1 z2 (v : nat -> T) ip :
  (forall t, neg (neg t) = t) ->
  tr_prim neg resc d Polar z0 z (tr_prim neg resc d Polar z1 z2 v) ip = v ip.
Proof.
  intros H. unfold tr_prim. do 7 (destruct ip as [|ip]; [rewrite ?H; reflexivity|]). reflexivity.
Qed.

(** One direction at a time, all other indices interior. *)
Lemma ext_interior {V} (tr : dir -> bc -> v3 -> v3 -> V -> V) g d F z :
  0 <= get d z < ntot g d -> ext tr g d F z = F z.
Proof. intros H. unfold ext, interior. now replace ((0 <=? get d z) && (get d z <? ntot g d)) with true by lia. Qed.

Lemma ext_agree {V} (tr : dir -> bc -> v3 -> v3 -> V -> V) g d F1 F2 z :
  (forall x, F1 (set d x z) = F2 (set d x z)) -> ext tr g d F1 z = ext tr g d F2 z.
Proof.
  intros H. unfold ext. assert (H0 := H (get d z)). rewrite set_get in H0. rewrite H0, !H. reflexivity.
Qed.

Lemma face_ghost {V} (tr : dir -> bc -> v3 -> v3 -> V -> V) g (st : rank -> v3 -> V) F d c z :
  bc_ok g -> (forall d, dir_ok g d) -> not_x3r_outflow g D3 -> represents g F st ->
  NG <= get d (nloc g) -> on_grid g c ->
  (forall e, e <> d -> 0 <= get e z < get e (nloc g)) ->
  (- NG <= get d z < 0 /\ get d c = 0 \/
   get d (nloc g) <= get d z < get d (nloc g) + NG /\ get d c = get d (nproc g) - 1) ->
  let b := if get d z <? 0 then bcL g d else bcR g d in
  let G := gz g c z in
  let G0 := set d (source b (ntot g d) (get d G)) G in
  bound_prim tr g st c z = match b with Periodic => F G0 | _ => tr d b G0 G (F G0) end.
Proof.
  intros BC HD X3 R Hn Hc Ho Hz b G G0.
  assert (Zr : forall e, - NG <= get e z < get e (nloc g) + NG).
  { intros e. destruct (dir_dec e d) as [->|He].
    - unfold NG in *. lia.
    - specialize (Ho e He). unfold NG. lia. }
  rewrite (bound_prim_ok tr g st F BC HD X3 R c z Hc Zr). fold G.
  assert (IntO : forall e, e <> d -> 0 <= get e G < ntot g e).
  { intros e He. unfold G. rewrite get_gz. specialize (Ho e He). specialize (Hc e). unfold ntot. nia. }
  assert (GD : get d G = get d c * get d (nloc g) + get d z) by apply get_gz.
  assert (E : ext tr g d F G = match b with Periodic => F G0 | _ => tr d b G0 G (F G0) end).
  { unfold ext. pose proof (Hc d) as Hcd.
    assert (NT : ntot g d = get d (nproc g) * get d (nloc g)) by reflexivity.
    assert (Q : interior (ntot g d) (get d G) = false).
    { unfold interior. rewrite NT, GD. destruct Hz as [[H1 H2]|[H1 H2]]; rewrite H2; nia. }
    rewrite Q. replace (ntot g d =? 1) with false by (unfold NG in *; nia).
    assert (Sg : (get d G <? 0) = (get d z <? 0)).
    { rewrite GD. destruct Hz as [[H1 H2]|[H1 H2]]; rewrite H2; unfold NG in *; nia. }
    rewrite Sg. reflexivity. }
  assert (SGo : forall e x, e <> d -> get e (set d x G) = get e G) by (intros; now apply get_set_other).
  unfold ext3. rewrite <- E. destruct d.
  - rewrite ext_interior by now apply IntO. rewrite ext_interior by now apply IntO. reflexivity.
  - rewrite ext_interior by now apply IntO. apply ext_agree. intros x.
    apply ext_interior. rewrite SGo by discriminate. now apply IntO.
  - apply ext_agree. intros x. rewrite ext_interior by (rewrite SGo by discriminate; now apply IntO).
    apply ext_interior. rewrite SGo by discriminate. now apply IntO.
Qed.

(** ** Output regions in three dimensions *)
Section Out.
Variables (P : v3) (reg : dir -> Z -> Z * Z) (ext : dir -> Z).
Hypothesis part : forall d x, 0 <= x < ext d ->
  exists! c, 0 <= c < get d P /\ (let (s, n) := reg d c in s <= x < s + n).

Lemma in_region_spec r x : in_region r x = true <-> (let (s, n) := r in s <= x < s + n).
Proof. destruct r as [s n]. unfold in_region. cbn [fst snd]. lia. Qed.

Lemma block_partition x : (forall d, 0 <= get d x < ext d) ->
  exists! c : rank, (forall d, 0 <= get d c < get d P) /\ in_block reg c x = true.
Proof.
  intros H.
  destruct (part D1 _ (H D1)) as (c1 & [A1 B1] & U1).
  destruct (part D2 _ (H D2)) as (c2 & [A2 B2] & U2).
  destruct (part D3 _ (H D3)) as (c3 & [A3 B3] & U3).
  exists (V3 c1 c2 c3). split.
  - split; [intros [| |]; trivial|]. unfold in_block. cbn [v1 v2 v3_].
    rewrite !andb_true_iff, !in_region_spec. auto.
  - intros [a b e] [V I]. unfold in_block in I. cbn [v1 v2 v3_] in I.
    rewrite !andb_true_iff, !in_region_spec in I. destruct I as [[I1 I2] I3].
    rewrite (U1 a), (U2 b), (U3 e); trivial; split; trivial; [apply (V D3)|apply (V D2)|apply (V D1)].
Qed.

Hypothesis inside : forall d c, 0 <= c < get d P -> let (s, n) := reg d c in 0 <= s /\ s + n <= ext d.

Lemma write_read {T} (mem : rank -> v3 -> T) file order :
  (forall c, In c order <-> forall d, 0 <= get d c < get d P) ->
  forall c z, (forall d, 0 <= get d c < get d P) ->
  (forall d, 0 <= get d z < snd (reg d (get d c))) ->
  read_block reg (fold_left (fun f c => write reg f c (mem c)) order file) c z = mem c z.
Proof.
  intros HO c z Hc Hz.
  set (x := V3 (v1 z + fst (reg D1 (v1 c))) (v2 z + fst (reg D2 (v2 c))) (v3_ z + fst (reg D3 (v3_ c)))).
  assert (RB : forall f : v3 -> T, read_block reg f c z = f x) by reflexivity.
  assert (IB : in_block reg c x = true).
  { unfold in_block, x, in_region. cbn [v1 v2 v3_].
    pose proof (Hz D1). pose proof (Hz D2). pose proof (Hz D3). cbn [get] in *. lia. }
  assert (XE : forall d, 0 <= get d x < ext d).
  { intros d. pose proof (inside d (get d c) (Hc d)) as I. specialize (Hz d).
    destruct (reg d (get d c)) as [s n] eqn:E. cbn [snd] in Hz.
    assert (get d x = get d z + s).
    { destruct d; cbn [get x v1 v2 v3_] in *; rewrite E; reflexivity. } lia. }
  destruct (block_partition x XE) as (c0 & _ & U).
  rewrite RB.
  assert (W1 : forall f, write reg f c (mem c) x = mem c z).
  { intros f. unfold write. rewrite IB. f_equal. unfold x. cbn [v1 v2 v3_]. destruct z; cbn; f_equal; lia. }
  assert (G : forall ord, (forall c, In c ord -> forall d, 0 <= get d c < get d P) ->
    forall f0, (In c ord \/ f0 x = mem c z) ->
     fold_left (fun f c => write reg f c (mem c)) ord f0 x = mem c z).
  { induction ord as [|c' l IH]; intros Hl f Hf; cbn [fold_left].
    - destruct Hf as [[]|]; trivial.
    - apply IH; [intros; apply Hl; now right|].
      destruct (v3_dec c' c) as [->|Hn]; [right; apply W1|].
      destruct Hf as [[->|Hf]|Hf]; [congruence|now left|right].
      unfold write. destruct (in_block reg c' x) eqn:E; [|trivial].
      exfalso. apply Hn. rewrite <- (U c'), <- (U c); [trivial|now split|]. split; trivial. apply Hl. now left. }
  apply G.
  - intros c' Hc'. now apply HO.
  - left. now apply HO.
Qed.
End Out.

Lemma zone_inside P N c : 0 < P -> 0 < N -> 0 <= c < P ->
  let (s, n) := zone_region (P * N) P c in 0 <= s /\ s + n <= P * N.
Proof.
  intros HP HN Hc. unfold zone_region. destruct (decomposition P N c) as (E1 & E2 & _); [lia|lia|lia|].
  rewrite E1, E2. nia.
Qed.
Lemma face_inside P N c : 0 < P -> 0 < N -> 0 <= c < P ->
  let (s, n) := face_region (P * N) P c in 0 <= s /\ s + n <= P * N + 1.
Proof.
  intros HP HN Hc. unfold face_region. destruct (decomposition P N c) as (E1 & E2 & E3); [lia|lia|lia|].
  rewrite E1, E2, E3. destruct (_ =? _) eqn:E; nia.
Qed.

Lemma zones_write_read {T} P N (mem : rank -> v3 -> T) file order :
  (forall d, 0 < get d P) -> (forall d, 0 < get d N) ->
  (forall c, In c order <-> forall d, 0 <= get d c < get d P) ->
  forall c z, (forall d, 0 <= get d c < get d P) -> (forall d, 0 <= get d z < get d N) ->
  read_block (regs zone_region P N)
    (fold_left (fun f c => write (regs zone_region P N) f c (mem c)) order file) c z = mem c z.
Proof.
  intros HP HN HO c z Hc Hz.
  apply (write_read P _ (fun d => get d P * get d N)); trivial.
  - intros d x Hx. unfold regs. now apply zone_partition.
  - intros d c' Hc'. unfold regs. now apply zone_inside.
  - intros d. unfold regs, zone_region. cbn [snd].
    destruct (decomposition (get d P) (get d N) (get d c)) as (E1 & _); [apply HP|specialize (HN d); lia|apply Hc|].
    rewrite E1. apply Hz.
Qed.

Lemma zones_blocks P N : (forall d, 0 < get d P) -> (forall d, 0 < get d N) ->
  forall x, (forall d, 0 <= get d x < get d P * get d N) ->
  exists! c : rank, (forall d, 0 <= get d c < get d P) /\ in_block (regs zone_region P N) c x = true.
Proof.
  intros HP HN x Hx. apply (block_partition P _ (fun d => get d P * get d N)); trivial.
  intros d y Hy. unfold regs. now apply zone_partition.
Qed.
Lemma faces_blocks P N : (forall d, 0 < get d P) -> (forall d, 0 < get d N) ->
  forall x, (forall d, 0 <= get d x < get d P * get d N + 1) ->
  exists! c : rank, (forall d, 0 <= get d c < get d P) /\ in_block (regs face_region P N) c x = true.
Proof.
  intros HP HN x Hx. apply (block_partition P _ (fun d => get d P * get d N + 1)); trivial.
  intros d y Hy. unfold regs. now apply face_partition.
Qed.

(** ** Counterexamples *)
Definition one_dir (d : dir) (n p : Z) : hcfg :=
  HCfg (set d n (V3 1 1 1)) (set d p (V3 1 1 1)) (fun _ => Outflow) (fun _ => Outflow).
Definition copy (d : dir) (b : bc) (z0 z : v3) (v : Z) : Z := v.

(** X3 outflow on the right: the ghost zone shows the first, not the last, zone. *)
Lemma x3r_outflow_refuted : exists g (F : v3 -> Z) st c z,
  bc_ok g /\ (forall d, dir_ok g d) /\ represents g F st /\ on_grid g c /\
  (forall d, - NG <= get d z < get d (nloc g) + NG) /\ get D3 z = get D3 (nloc g) /\
  bound_prim copy g st c z <> ext3 copy g F (gz g c z) /\
  bound_prim copy g st c z = F (V3 0 0 0) /\ ext3 copy g F (gz g c z) = F (V3 0 0 3).
Proof.
  exists (one_dir D3 4 1), v3_, (fun _ z => v3_ z), (V3 0 0 0), (V3 0 0 4).
  split; [|split; [|split; [|split; [|split; [|split; [|split; [|split]]]]]]].
  - repeat split; try discriminate.
  - intros [| |]; unfold dir_ok, NG; cbn; lia.
  - intros [a b e] z Hc Hz. specialize (Hc D3). cbn in *. lia.
  - intros [| |]; cbn; lia.
  - intros [| |]; unfold NG; cbn; lia.
  - reflexivity.
  - vm_compute. discriminate.
  - reflexivity.
  - reflexivity.
Qed.

(** Blocks narrower than the ghost region: a periodic direction with two zones. *)
Definition per2 : hcfg := HCfg (V3 2 1 1) (V3 1 1 1) (fun d => match d with D1 => Periodic | _ => Outflow end)
   (fun d => match d with D1 => Periodic | _ => Outflow end).
Lemma narrow_refuted : exists g (F : v3 -> Z) st c z,
  bc_ok g /\ (forall d, 0 < get d (nloc g) /\ 0 < get d (nproc g)) /\ represents g F st /\ on_grid g c /\
  per g D1 = true /\ get D1 z = -3 /\
  bound_prim copy g st c z <> F (set D1 (get D1 (gz g c z) mod ntot g D1) (gz g c z)).
Proof.
  exists per2, v1, (fun _ z => v1 z), (V3 0 0 0), (V3 (-3) 0 0).
  split; [|split; [|split; [|split; [|split; [|split]]]]].
  - split; [|repeat split; discriminate]. intros [| |]; cbn; split; congruence.
  - intros [| |]; cbn; lia.
  - intros [a b e] z Hc Hz. specialize (Hc D1). cbn in *. lia.
  - intros [| |]; cbn; lia.
  - reflexivity.
  - reflexivity.
  - vm_compute. discriminate.
Qed.

(** One zone per process: the second receive overwrites the first, a deposit is lost. *)
Definition thin : hcfg := HCfg (V3 1 2 2) (V3 3 1 1) (fun _ => Outflow) (fun _ => Outflow).
Definition thin_dep (c z : v3) : Z :=
  match c, z with V3 0 0 0, V3 1 0 0 => 1 | _, _ => 0 end.
Lemma thin_refuted : exists g (st : rank -> v3 -> Z) c z,
  (forall d, 0 < get d (nloc g)) /\ on_grid g c /\ (forall d, 0 <= get d z < get d (nloc g)) /\
  sync_radG 0 Z.add g st c z = 0 /\ deposited 0 Z.add g st (gz g c z) = 1.
Proof.
  exists thin, thin_dep, (V3 1 0 0), (V3 0 0 0). repeat split; try (intros [| |]; cbn; lia).
  all: try (destruct d; cbn; lia).
Qed.

Lemma zone_partition_full P N : 0 < P -> 0 < N ->
  (forall x, 0 <= x < P * N ->
     exists! c, 0 <= c < P /\ let (s, n) := zone_region (P * N) P c in s <= x < s + n) /\
  (forall c, 0 <= c < P ->
     global_stop (P * N) P c - global_start (P * N) P c = local_size (P * N) P /\
     global_stop (P * N) P c = global_start (P * N) P (c + 1)).
Proof.
  intros HP HN. split; [now apply zone_partition|]. intros c Hc.
  destruct (decomposition P N c) as (E1 & E2 & E3); [lia|lia|lia|]. rewrite E1, E2, E3.
  split; [ring|]. unfold global_start. replace ((c + 1) * (P * N)) with ((c + 1) * N * P) by ring.
  rewrite Z.quot_mul; lia.
Qed.

Lemma offsets vals : Forall (fun v => 0 <= v) vals ->
  accumulate vals 0 = 0 /\
  (forall r v, nth_error vals r = Some v -> accumulate vals (S r) = accumulate vals r + v) /\
  (forall x, 0 <= x < accumulate vals (length vals) ->
     exists! r, exists v, nth_error vals r = Some v /\ accumulate vals r <= x < accumulate vals r + v).
Proof.
  intros F. split; [reflexivity|]. split; [intros; now apply accumulate_step|now apply prefix_tiles].
Qed.

Lemma transform_prims {T} (neg : T -> T) resc d z0 z v :
  (unpack (tr_prim neg resc d Polar z0 z v) =
    let '(s, u, b) := unpack v in (s, reflect2 neg u, reflect2 neg b)) /\
  (unpack (tr_prim neg resc D1 Outflow z0 z v) =
    let '(s, u, b) := unpack v in (s, u, scale3 (resc z0 z) b)) /\
  (d <> D1 -> forall ip, tr_prim neg resc d Outflow z0 z v ip = v ip) /\
  (forall ip, (8 <= ip)%nat -> tr_prim neg resc d Polar z0 z v ip = v ip /\
                        tr_prim neg resc D1 Outflow z0 z v ip = v ip).
Proof.
  split; [reflexivity|]. split; [reflexivity|]. split.
  - destruct d; [congruence|reflexivity|reflexivity].
  - intros ip H. do 8 (destruct ip as [|ip]; [lia|]). split; reflexivity.
Qed.
