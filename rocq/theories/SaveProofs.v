From Coq Require Import List Arith ZArith Lia Permutation.
From Verif Require Import SaveModel SaveSpec.
Import ListNotations.

Section Proofs.
Variable F : Type.
Notation photon := (photon F).
Notation write_slab := (write_slab F).
Notation copy_all := (copy_all F).

Lemma copy_physical (a b : photon) : physical (copy_photon F a b) = physical a.
Proof. reflexivity. Qed.
Lemma copy_all_physical junk l : forall i, map physical (copy_all junk i l) = map physical l.
Proof. induction l; intros i; cbn; auto. f_equal; auto. Qed.
Lemma copy_all_length junk l : forall i, length (copy_all junk i l) = length l.
Proof. induction l; intros i; cbn; auto. Qed.
Lemma buffer_length junk th : length (buffer F junk th) = count F th.
Proof. apply copy_all_length. Qed.

Lemma fold_add l : forall a, fold_left Nat.add l a = a + list_sum l.
Proof.
  induction l as [|x l IH]; intros b; cbn [fold_left]; [cbn; lia|]. rewrite IH.
  change (list_sum (x :: l)) with (x + list_sum l). lia.
Qed.

Lemma accumulate_here a b : accumulate (a ++ b) (length a) = list_sum a.
Proof.
  unfold accumulate. rewrite firstn_app, firstn_all, Nat.sub_diag. cbn [firstn].
  rewrite app_nil_r, fold_add. reflexivity.
Qed.
Lemma accumulate_next a n b : accumulate (a ++ n :: b) (S (length a)) = list_sum a + n.
Proof.
  replace (S (length a)) with (length (a ++ [n])) by (rewrite app_length; cbn; lia).
  change (a ++ n :: b) with (a ++ [n] ++ b). rewrite app_assoc, accumulate_here, list_sum_app. cbn. lia.
Qed.

(** Writing the data in the middle of a file. *)
Lemma write_slab_app a b c data : length b = length data ->
  write_slab (a ++ b ++ c) (length a) data = a ++ map Some data ++ c.
Proof.
  intros H. induction a as [|x a IH].
  - cbn [app length]. revert data H. induction b as [|y b IH]; intros [|z data] H; try discriminate.
    + destruct c; reflexivity.
    + cbn. cbn in IH. rewrite IH; auto.
  - cbn. destruct data as [|z data].
    + cbn in H. destruct b; [|discriminate]. reflexivity.
    + rewrite IH. reflexivity.
Qed.

Lemma sequence_some l : sequence F (map Some l) = Some l.
Proof. induction l; cbn; auto. rewrite IHl. reflexivity. Qed.

Lemma write_ranks_eq junk cs ranks : forall r pre d,
  skipn r cs = map (count F) ranks -> length pre = accumulate cs r ->
  length d = list_sum (map (count F) ranks) ->
  exists bufs, write_ranks F junk cs r ranks (pre ++ d) = pre ++ map Some (concat bufs) /\
    bufs = map (fun x => buffer F (junk (fst x)) (snd x)) (combine (seq r (length ranks)) ranks).
Proof.
  induction ranks as [|th ranks IH]; intros r pre d E L D.
  - exists []. cbn. cbn in D. destruct d; [|discriminate]. auto.
  - cbn [write_ranks]. change (list_sum (map (count F) (th :: ranks))) with (count F th + list_sum (map (count F) ranks)) in D.
    assert (ES : exists cs1, cs = cs1 ++ count F th :: map (count F) ranks /\ length cs1 = r).
    { exists (firstn r cs). cbn in E. split.
      - rewrite <- E. symmetry. apply firstn_skipn.
      - apply firstn_length_le. destruct (le_lt_dec r (length cs)); auto.
        rewrite skipn_all2 in E by lia. discriminate. }
    destruct ES as (cs1 & -> & Lr).
    set (n := count F th) in *.
    rewrite <- (firstn_skipn n d). rewrite <- L.
    assert (LF : length (firstn n d) = n) by (apply firstn_length_le; lia).
    rewrite (write_slab_app pre (firstn n d) (skipn n d)) by (rewrite buffer_length, LF; reflexivity).
    rewrite app_assoc.
    destruct (IH (S r) (pre ++ map Some (buffer F (junk r) th)) (skipn n d)) as (bufs & W & EB).
    + rewrite <- Lr. replace (S (length cs1)) with (length (cs1 ++ [n])) by (rewrite app_length; cbn; lia).
      change (cs1 ++ n :: map (count F) ranks) with (cs1 ++ [n] ++ map (count F) ranks). rewrite app_assoc.
      rewrite skipn_app, skipn_all, Nat.sub_diag. reflexivity.
    + rewrite app_length, map_length, buffer_length, L, <- Lr. fold n.
      rewrite accumulate_here, accumulate_next. lia.
    + rewrite skipn_length. lia.
    + exists (buffer F (junk r) th :: bufs). cbn [length seq combine map fst snd]. rewrite <- EB. split; auto.
      rewrite W. cbn [concat]. rewrite map_app, app_assoc. reflexivity.
Qed.

Lemma concat_slice {A} (bufs : list (list A)) r b : nth_error bufs r = Some b ->
  exists a c, concat bufs = a ++ b ++ c /\ length a = list_sum (firstn r (map (@length A) bufs)).
Proof.
  revert r. induction bufs as [|x bufs IH]; intros [|r] H; try discriminate.
  - cbn in H. inversion H; subst. exists [], (concat bufs). auto.
  - cbn in H. apply IH in H. destruct H as (a & c & E & L). exists (x ++ a), c. cbn. rewrite E, app_length, L, app_assoc.
    auto.
Qed.

Lemma nth_error_combine_seq {A} (l : list A) : forall s r x, nth_error l r = Some x ->
  nth_error (combine (seq s (length l)) l) r = Some (s + r, x).
Proof.
  induction l as [|y l IH]; intros s [|r] x H; try discriminate.
  - cbn in H. inversion H. cbn. rewrite Nat.add_0_r. reflexivity.
  - cbn in H. cbn. rewrite (IH (S s) r x H). f_equal. f_equal. lia.
Qed.

Lemma read_back junk ranks r th : nth_error ranks r = Some th ->
  let f := restart_write F junk ranks in
  nth_error (offsets F f) r = Some (accumulate (map (count F) ranks) r) /\
  nth_error (counts F f) r = Some (count F th) /\
  read_slab F (superphotons F f) (accumulate (map (count F) ranks) r) (count F th) = Some (buffer F (junk r) th).
Proof.
  intros H. cbv zeta. unfold restart_write. cbn [offsets counts superphotons].
  assert (Lt : r < length ranks) by (apply nth_error_Some; congruence).
  split; [|split].
  - rewrite nth_error_map. assert (E : nth_error (seq 0 (length ranks)) r = Some r).
    { rewrite (nth_error_nth' _ 0) by (rewrite seq_length; auto). rewrite seq_nth; auto. }
    rewrite E. reflexivity.
  - rewrite nth_error_map, H. reflexivity.
  - destruct (write_ranks_eq junk (map (count F) ranks) ranks 0 [] (repeat None (fold_left Nat.add (map (count F) ranks) 0)))
      as (bufs & W & EB); auto.
    { rewrite repeat_length, fold_add. reflexivity. }
    cbn [app] in W. rewrite W.
    assert (HB : nth_error bufs r = Some (buffer F (junk r) th)).
    { subst bufs. rewrite nth_error_map, (nth_error_combine_seq ranks 0 r th H). reflexivity. }
    destruct (concat_slice bufs r _ HB) as (a & c & E & L).
    assert (LB : map (@length photon) bufs = map (count F) ranks).
    { subst bufs. rewrite map_map. rewrite (map_ext _ (fun x => count F (snd x))) by (intros; apply buffer_length).
      rewrite <- (map_map snd (count F)). f_equal. clear. generalize 0. induction ranks as [|y l IH]; intros s; cbn; auto.
      f_equal. apply IH. }
    assert (LA : accumulate (map (count F) ranks) r = length a).
    { unfold accumulate. rewrite fold_add, L, LB. reflexivity. }
    unfold read_slab. rewrite map_length, E, LA, !app_length, buffer_length.
    destruct (Nat.leb_spec (length a + count F th) (length a + (count F th + length c))); [|lia].
    rewrite !map_app. replace (length a) with (length (map Some a)) by apply map_length.
    rewrite skipn_app, skipn_all, Nat.sub_diag. cbn [app skipn].
    replace (count F th) with (length (map Some (buffer F (junk r) th))) by (rewrite map_length; apply buffer_length).
    rewrite firstn_app, firstn_all, Nat.sub_diag. cbn [firstn]. rewrite app_nil_r. apply sequence_some.
Qed.

Lemma push_head_length lists : forall i (ph : photon), length (push_head F lists i ph) = length lists.
Proof. induction lists; intros [|i] ph; cbn; auto. Qed.
Lemma push_head_perm lists : forall i (ph : photon), i < length lists ->
  Permutation (concat (push_head F lists i ph)) (ph :: concat lists).
Proof.
  induction lists as [|l ls IH]; intros i ph H; [cbn in H; lia|].
  destruct i as [|i]; cbn; auto. cbn in H.
  rewrite IH by lia. symmetry. apply Permutation_middle.
Qed.

Lemma deal_perm junk nt s l : 0 < nt -> forall ip lists, length lists = nt ->
  Permutation (map physical (concat (deal F junk nt s ip l lists))) (map physical l ++ map physical (concat lists)).
Proof.
  intros N. induction l as [|ph l IH]; intros ip lists L; cbn [deal]; auto.
  rewrite IH by (rewrite push_head_length; exact L).
  rewrite (Permutation_map physical (push_head_perm lists _ (copy_photon F ph (junk ip))
    ltac:(rewrite L; apply Nat.mod_upper_bound; lia))).
  cbn [map]. rewrite copy_physical. symmetry. apply Permutation_middle.
Qed.

Lemma deal_length junk nt s l : forall ip lists, length (deal F junk nt s ip l lists) = length lists.
Proof. induction l; intros; cbn; auto. rewrite IHl. apply push_head_length. Qed.

Lemma concat_repeat_nil {A} n : concat (repeat (@nil A) n) = [].
Proof. induction n; auto. Qed.

Lemma restored junkw junkr ranks r th nt s : nth_error ranks r = Some th -> 0 < nt ->
  exists lists, restart_read F (junkr r) nt s (restart_write F junkw ranks) r = Some lists /\
    length lists = nt /\
    Permutation (map physical (concat lists)) (map physical (concat th)).
Proof.
  intros H N. destruct (read_back junkw ranks r th H) as (A & B & C).
  unfold restart_read. rewrite A, B, C. eexists. split; [reflexivity|]. split.
  - rewrite deal_length. apply repeat_length.
  - rewrite deal_perm; auto; [|apply repeat_length].
    rewrite concat_repeat_nil. cbn [map app]. rewrite app_nil_r. unfold buffer. rewrite copy_all_physical. reflexivity.
Qed.

(** How many packets thread [i] gets. *)
Definition hits nt i m := m / nt + (if i <? m mod nt then 1 else 0).
Lemma hits_step nt i m : 0 < nt -> i < nt -> hits nt i (S m) = hits nt i m + (if m mod nt =? i then 1 else 0).
Proof.
  intros N I. unfold hits.
  assert (E := Nat.div_mod m nt ltac:(lia)). assert (B := Nat.mod_upper_bound m nt ltac:(lia)).
  set (q := m / nt) in *. set (b := m mod nt) in *. clearbody q b. subst m.
  destruct (Nat.eq_dec (S b) nt) as [Eb|Eb].
  - replace (S (nt * q + b)) with ((q + 1) * nt) by (rewrite <- Eb; ring).
    rewrite Nat.div_mul, Nat.mod_mul by lia.
    destruct (Nat.ltb_spec i 0); destruct (Nat.ltb_spec i b); destruct (Nat.eqb_spec b i); lia.
  - replace (S (nt * q + b)) with (S b + q * nt) by ring.
    rewrite Nat.div_add, Nat.mod_add by lia. rewrite (Nat.div_small (S b)), (Nat.mod_small (S b)) by lia.
    destruct (Nat.ltb_spec i (S b)); destruct (Nat.ltb_spec i b); destruct (Nat.eqb_spec b i); lia.
Qed.

Lemma push_head_nth lists : forall i j (ph : photon), i < length lists ->
  length (nth j (push_head F lists i ph) []) = length (nth j lists []) + (if i =? j then 1 else 0).
Proof.
  induction lists as [|l ls IH]; intros i j ph H; [cbn in H; lia|].
  destruct i as [|i], j as [|j]; cbn; try lia. cbn in H. apply IH. lia.
Qed.

Lemma deal_nth junk nt s l j : 0 < nt -> j < nt -> forall ip lists, length lists = nt ->
  length (nth j lists []) + hits nt j s = hits nt j (s + ip) ->
  length (nth j (deal F junk nt s ip l lists) []) + hits nt j s = hits nt j (s + (ip + length l)).
Proof.
  intros N J. induction l as [|ph l IH]; intros ip lists L H; cbn [deal].
  - cbn [length]. rewrite Nat.add_0_r. exact H.
  - rewrite IH.
    + f_equal. cbn [length]. lia.
    + rewrite push_head_length. exact L.
    + rewrite push_head_nth by (rewrite L; apply Nat.mod_upper_bound; lia).
      replace (s + S ip) with (S (s + ip)) by lia. rewrite hits_step by auto. lia.
Qed.

Lemma balanced junkw junkr ranks r th nt s lists i j : nth_error ranks r = Some th -> s < nt ->
  restart_read F junkr nt s (restart_write F junkw ranks) r = Some lists ->
  i < nt -> j < nt -> length (nth i lists []) <= length (nth j lists []) + 1.
Proof.
  intros H N E I J. destruct (read_back junkw ranks r th H) as (A & B & C).
  unfold restart_read in E. rewrite A, B, C in E. injection E as <-.
  set (l := buffer F (junkw r) th).
  assert (G : forall k, k < nt -> length (nth k (deal F junkr nt s 0 l (repeat [] nt)) []) + hits nt k s =
    hits nt k (s + (0 + length l))).
  { intros k Hk. apply deal_nth; auto; try lia; [apply repeat_length|].
    rewrite Nat.add_0_r. rewrite (nth_repeat (@nil photon)). reflexivity. }
  assert (Gi := G i I). assert (Gj := G j J). cbn [plus] in Gi, Gj.
  generalize dependent (length (nth i (deal F junkr nt s 0 l (repeat [] nt)) [])).
  generalize dependent (length (nth j (deal F junkr nt s 0 l (repeat [] nt)) [])).
  intros b Gj a Gi. unfold hits in Gi, Gj. rewrite (Nat.div_small s), (Nat.mod_small s) in Gi, Gj by lia.
  generalize dependent ((s + length l) / nt). generalize dependent ((s + length l) mod nt). intros R q Gj Gi.
  destruct (Nat.ltb_spec i s); destruct (Nat.ltb_spec j s); destruct (Nat.ltb_spec i R); destruct (Nat.ltb_spec j R); lia.
Qed.
End Proofs.

Definition some_photon (o : Z) : photon Z := mkph Z [[0%Z]] [[1%Z]] [[2%Z]] 3%Z 4%Z 0%Z 0%Z [5%Z] 6%Z 1%Z o.
Lemma flags_refuted : exists junk ranks lists,
  restart_read Z (junk 0) 1 0 (restart_write Z junk ranks) 0 = Some lists /\
  nth_error ranks 0 = Some [[some_photon 1]] /\
  ~ Permutation (map (has_oscillated Z) (concat lists)) (map (has_oscillated Z) [some_photon 1]).
Proof.
  exists (fun _ _ => some_photon 0), [[[some_photon 1]]]. eexists. split; [reflexivity|]. split; [reflexivity|].
  cbn. intros P. apply Permutation_length_1 in P. discriminate.
Qed.
