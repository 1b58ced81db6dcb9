From Coq Require Import ZArith List Bool Lia Permutation ZifyBool.
Import ListNotations.
From Verif Require Import SumLib ExchModel ExchSpec.
Open Scope Z_scope.
Ltac Zify.zify_post_hook ::= Z.div_mod_to_equations.

Lemma get_set_same d x v : get d (set d x v) = x.
Proof. destruct d; reflexivity. Qed.
Lemma get_set_other d e x v : e <> d -> get e (set d x v) = get e v.
Proof. destruct d, e; cbn; congruence. Qed.
Lemma dir_dec (a b : dir) : {a = b} + {a <> b}.
Proof. decide equality. Defined.
Lemma v3_ext u v : (forall d, get d u = get d v) -> u = v.
Proof. destruct u, v. intros H. pose proof (H D1). pose proof (H D2). pose proof (H D3). cbn in *. congruence. Qed.
Lemma v3_dec (a b : v3) : {a = b} + {a <> b}.
Proof. decide equality; apply Z.eq_dec. Defined.
Lemma pkt_dec (a b : pkt) : {a = b} + {a <> b}.
Proof. decide equality; [apply v3_dec|apply Nat.eq_dec]. Defined.
Lemma rp_dec (a b : rank * pkt) : {a = b} + {a <> b}.
Proof. decide equality; [apply pkt_dec|apply v3_dec]. Defined.

Lemma zrange_in n x : In x (zrange n) <-> 0 <= x < n.
Proof.
  unfold zrange. rewrite in_map_iff. split.
  - intros (k & <- & H). apply in_seq in H. lia.
  - intros H. exists (Z.to_nat x). split; [lia|]. apply in_seq. lia.
Qed.
Lemma zrange_nodup n : NoDup (zrange n).
Proof. unfold zrange. apply FinFun.Injective_map_NoDup; [|apply seq_NoDup]. intros a b H; lia. Qed.

Lemma ranks_in g c : In c (ranks g) <-> valid g c.
Proof.
  unfold ranks, valid. rewrite in_flat_map. split.
  - intros (a & Ha & H). apply in_flat_map in H as (b & Hb & H). apply in_map_iff in H as (k & <- & Hk).
    apply zrange_in in Ha, Hb, Hk. intros [| |]; cbn; trivial.
  - intros H. exists (v1 c). split; [apply zrange_in; apply (H D1)|].
    apply in_flat_map. exists (v2 c). split; [apply zrange_in; apply (H D2)|].
    apply in_map_iff. exists (v3_ c). split; [now destruct c|]. apply zrange_in; apply (H D3).
Qed.

Lemma NoDup_flat_map {X Y} (f : X -> list Y) l :
  NoDup l -> (forall x, In x l -> NoDup (f x)) ->
  (forall x y z, In x l -> In y l -> In z (f x) -> In z (f y) -> x = y) ->
  NoDup (flat_map f l).
Proof.
  induction l as [|x l IH]; intros ND H1 H2; cbn; [constructor|].
  apply NoDup_cons_iff in ND as [Hx ND].
  assert (G : NoDup (flat_map f l)).
  { apply IH; trivial; intros; [apply H1; cbn; auto|eapply H2; cbn; eauto]. }
  assert (K : forall z, In z (f x) -> ~ In z (flat_map f l)).
  { intros z Hz Hz2. apply in_flat_map in Hz2 as (y & Hy & Hz2).
    assert (x = y) by (eapply H2; cbn; eauto). congruence. }
  assert (N : NoDup (f x)) by (apply H1; cbn; auto).
  clear - G K N. induction (f x) as [|z zs IH]; cbn; trivial.
  apply NoDup_cons_iff in N as [Hz N]. constructor.
  - rewrite in_app_iff. intros [E|E]; [tauto|]. apply (K z); cbn; auto.
  - apply IH; trivial. intros; apply K; cbn; auto.
Qed.

Lemma ranks_nodup g : NoDup (ranks g).
Proof.
  unfold ranks. apply NoDup_flat_map; [apply zrange_nodup| |].
  - intros a _. apply NoDup_flat_map; [apply zrange_nodup| |].
    + intros b _. apply FinFun.Injective_map_NoDup; [|apply zrange_nodup]. intros u v H; congruence.
    + intros b b' z _ _ H1 H2. apply in_map_iff in H1 as (k & <- & _).
      apply in_map_iff in H2 as (k' & H & _). congruence.
  - intros a a' z _ _ H1 H2. apply in_flat_map in H1 as (b & _ & H1).
    apply in_flat_map in H2 as (b' & _ & H2). apply in_map_iff in H1 as (k & <- & _).
    apply in_map_iff in H2 as (k' & H & _). congruence.
Qed.

Lemma neighbor_inv g d s c b :
  s = 1 \/ s = -1 -> valid g c -> neighbor g d s c = Some b ->
  valid g b /\ neighbor g d (- s) b = Some c.
Proof.
  intros Hs Hc. unfold neighbor.
  set (n := get d (ncpu g)). pose proof (Hc d) as Hd. fold n in Hd.
  destruct (((get d c + s <? 0) || (n <=? get d c + s)) && negb (periodic g d)) eqn:E; [discriminate|].
  intros [= <-]. rewrite get_set_same.
  assert (Hm : 0 <= (get d c + s) mod n < n) by (apply Z.mod_pos_bound; lia).
  split.
  - intros e. destruct (dir_dec e d) as [->|He].
    + rewrite get_set_same. exact Hm.
    + rewrite get_set_other by trivial. apply Hc.
  - assert (Q : ((get d c + s) mod n + - s) mod n = get d c).
    { rewrite Zplus_mod_idemp_l. replace (get d c + s + - s) with (get d c) by lia.
      apply Z.mod_small; lia. }
    assert (R : set d (((get d c + s) mod n + - s) mod n) (set d ((get d c + s) mod n) c) = c).
    { rewrite Q. apply v3_ext. intros e. destruct (dir_dec e d) as [->|He].
      - now rewrite get_set_same.
      - now rewrite !get_set_other. }
    destruct (periodic g d); cbn [negb] in *; rewrite ?andb_false_r, ?andb_true_r in *.
    + now rewrite R.
    + assert (Hr : (get d c + s) mod n = get d c + s) by (apply Z.mod_small; lia).
      rewrite Hr in *.
      replace ((get d c + s + - s <? 0) || (n <=? get d c + s + - s)) with false by lia.
      now rewrite R.
Qed.

(** *** Sums *)
Lemma zs_app {X} (f : X -> Z) l1 l2 : zs f (l1 ++ l2) = zs f l1 + zs f l2.
Proof. apply gsum_app; zlaws. Qed.
Lemma zs_cons {X} (f : X -> Z) x l : zs f (x :: l) = f x + zs f l.
Proof. reflexivity. Qed.
Lemma zs_ext {X} (f g : X -> Z) l : (forall x, In x l -> f x = g x) -> zs f l = zs g l.
Proof. apply gsum_ext. Qed.
Lemma zs_rev {X} (f : X -> Z) l : zs f (rev l) = zs f l.
Proof. apply gsum_rev; zlaws. Qed.
Lemma zs_map {X Y} (g : X -> Y) (f : Y -> Z) l : zs f (map g l) = zs (fun x => f (g x)) l.
Proof. apply gsum_map. Qed.
Lemma zs_flat_map {X Y} (g : X -> list Y) (f : Y -> Z) l :
  zs f (flat_map g l) = zs (fun x => zs f (g x)) l.
Proof. apply gsum_flat_map; zlaws. Qed.
Lemma zs_plus {X} (f g : X -> Z) l : zs (fun x => f x + g x) l = zs f l + zs g l.
Proof. apply gsum_plus; zlaws. Qed.
Lemma zs_zero {X} (l : list X) : zs (fun _ => 0) l = 0.
Proof. apply gsum_zero; zlaws. Qed.

Section Run.
Variable g : cfg.
Variable phi : rank -> act -> pkt -> Z.
Hypothesis phi_drop : forall c p, phi c Drop p = 0.

(** Weight of the buffers of one process. *)
Definition B (c : rank) (b : bufs) : Z :=
  zs (fun d => zs (phi c (SendL d)) (sendL b d) + zs (phi c (SendR d)) (sendR b d)) [D1; D2; D3]
  + zs (phi c KeepHere) (recv b).

Lemma B_perform c a p b : B c (perform a p b) = B c b + phi c a p.
Proof.
  unfold B, perform. destruct a as [d|d| |].
  - destruct d; unfold zs; cbn [sendL sendR recv put dir_eqb gsum fold_right]; unfold gsum; cbn [fold_right]; lia.
  - destruct d; unfold zs; cbn [sendL sendR recv put dir_eqb gsum fold_right]; unfold gsum; cbn [fold_right]; lia.
  - cbn [sendL sendR recv]. rewrite (zs_cons (phi c KeepHere)). lia.
  - rewrite phi_drop. lia.
Qed.

Lemma B_fold c (f : pkt -> act * pkt) l : forall b,
  B c (fold_left (fun b p => let (a, p') := f p in perform a p' b) l b) =
  B c b + zs (fun p => phi c (fst (f p)) (snd (f p))) l.
Proof.
  induction l as [|p l IH]; intros b; [cbn; lia|]. cbn [fold_left]. rewrite IH, zs_cons.
  destruct (f p) as [a p']. cbn [fst snd]. rewrite B_perform. lia.
Qed.

Lemma sort_all_sum mpi :
  zs (fun c => B c (sort_all g mpi c)) (ranks g) =
  zs (fun cp => phi (fst cp) (sort_act g (fst cp) (snd cp)) (snd cp)) (everything g mpi).
Proof.
  unfold everything. rewrite zs_flat_map. apply zs_ext. intros c _. rewrite zs_map. cbn [fst snd].
  unfold sort_all.
  pose proof (B_fold c (fun p => (sort_act g c p, p)) (mpi c) empty) as H. cbn [fst snd] in H.
  rewrite H. unfold B. cbn. lia.
Qed.

(** Effect of one direction on a single in-flight item. *)
Definition step (d : dir) (c : rank) (a : act) (p : pkt) : Z :=
  match a with
  | SendL e => if dir_eqb e d then
                 match neighbor g d (-1) c with
                 | Some c' => phi c' (fst (recv_act g d c' p)) (snd (recv_act g d c' p))
                 | None => 0 end
               else phi c a p
  | SendR e => if dir_eqb e d then
                 match neighbor g d 1 c with
                 | Some c' => phi c' (fst (recv_act g d c' p)) (snd (recv_act g d c' p))
                 | None => 0 end
               else phi c a p
  | _ => phi c a p
  end.
End Run.

Lemma pass_sum g phi d st :
  (forall c p, phi c Drop p = 0) ->
  zs (fun c => B phi c (pass g d st c)) (ranks g) =
  zs (fun c => B (step g phi d) c (st c)) (ranks g).
Proof.
  intros HD.
  set (arr := fun c p => phi c (fst (recv_act g d c p)) (snd (recv_act g d c p))).
  transitivity (zs (fun c =>
      B phi c (Bufs (put (sendL (st c)) d []) (put (sendR (st c)) d []) (recv (st c))) +
      (match neighbor g d (-1) c with Some b => zs (arr c) (sendR (st b) d) | None => 0 end +
       match neighbor g d 1 c with Some b => zs (arr c) (sendL (st b) d) | None => 0 end)) (ranks g)).
  { apply zs_ext. intros c _. unfold pass.
    rewrite (B_fold phi HD c (recv_act g d c)). f_equal.
    unfold tmp_recv. rewrite zs_app, !zs_rev. fold (arr c).
    destruct (neighbor g d (-1) c), (neighbor g d 1 c); cbn [zs gsum fold_right];
      fold (zs (arr c)); unfold arr; rewrite ?Z.add_0_l, ?Z.add_0_r; try lia; try reflexivity.
  }
  rewrite !zs_plus.
  assert (R : forall s (X : bufs -> dir -> list pkt), s = 1 \/ s = -1 ->
    zs (fun c => match neighbor g d (- s) c with Some b => zs (arr c) (X (st b) d) | None => 0 end) (ranks g)
    = zs (fun b => match neighbor g d s b with Some c => zs (arr c) (X (st b) d) | None => 0 end) (ranks g)).
  { intros s X Hs. unfold zs at 1 3.
    apply (gsum_reindex 0 Z.add ltac:(zlaws) ltac:(zlaws) ltac:(zlaws) v3_dec (ranks g)
      (neighbor g d (- s)) (neighbor g d s) (fun b c => zs (arr c) (X (st b) d))).
    - apply ranks_nodup.
    - intros x y Hx E. apply ranks_in in Hx. apply neighbor_inv in E; [|lia|trivial].
      rewrite ranks_in. rewrite Z.opp_involutive in E. exact E.
    - intros x y Hx E. apply ranks_in in Hx. apply neighbor_inv in E; [|lia|trivial].
      rewrite ranks_in. exact E. }
  pose proof (R 1 sendR ltac:(lia)) as R1. cbn [Z.opp] in R1. rewrite R1.
  pose proof (R (-1) sendL ltac:(lia)) as R2. cbn [Z.opp] in R2. rewrite R2.
  rewrite <- !zs_plus. apply zs_ext. intros c _. unfold B.
  cbn [sendL sendR recv].
  assert (T : forall o : option rank, forall l, match o with Some c' => zs (arr c') l | None => 0 end =
      zs (fun p => match o with Some c' => arr c' p | None => 0 end) l).
  { intros [c'|] l; [reflexivity|]. now rewrite zs_zero. }
  rewrite !T. unfold arr.
  destruct d; unfold step, zs, put; cbn [gsum fold_right dir_eqb]; unfold gsum; cbn [fold_right]; lia.
Qed.

(** In-flight items as a list, and the whole exchange as a function of items. *)
Definition item := (rank * act * pkt)%type.
Definition hop (g : cfg) (d : dir) (it : item) : list item :=
  let '(c, a, p) := it in
  match a with
  | SendL e => if dir_eqb e d then
                 match neighbor g d (-1) c with
                 | Some c' => let (a', p') := recv_act g d c' p in [(c', a', p')]
                 | None => [] end
               else [it]
  | SendR e => if dir_eqb e d then
                 match neighbor g d 1 c with
                 | Some c' => let (a', p') := recv_act g d c' p in [(c', a', p')]
                 | None => [] end
               else [it]
  | _ => [it]
  end.
Definition kept (it : item) : list (rank * pkt) :=
  match it with (c, KeepHere, p) => [(c, p)] | _ => [] end.
Definition route (g : cfg) (cp : rank * pkt) : list (rank * pkt) :=
  flat_map kept (flat_map (hop g D3) (flat_map (hop g D2) (hop g D1
     (fst cp, sort_act g (fst cp) (snd cp), snd cp)))).

Lemma step_hop g d psi c a p :
  step g (fun c a p => psi (c, a, p)) d c a p = zs psi (hop g d (c, a, p)).
Proof.
  unfold step, hop. destruct a as [e|e| |]; try (cbn; lia).
  - destruct (dir_eqb e d); [|cbn; lia]. destruct (neighbor g d (-1) c) as [c'|]; [|reflexivity].
    destruct (recv_act g d c' p); cbn; lia.
  - destruct (dir_eqb e d); [|cbn; lia]. destruct (neighbor g d 1 c) as [c'|]; [|reflexivity].
    destruct (recv_act g d c' p); cbn; lia.
Qed.

Lemma B_ext phi psi c b : (forall a p, phi c a p = psi c a p) -> B phi c b = B psi c b.
Proof.
  intros H. unfold B. f_equal.
  - apply zs_ext. intros d _. f_equal; apply zs_ext; intros; apply H.
  - apply zs_ext; intros; apply H.
Qed.

Lemma exchange_route g mpi :
  Permutation (everything g (exchange g mpi)) (flat_map (route g) (everything g mpi)).
Proof.
  apply (perm_of_sums rp_dec). intros f.
  set (psi0 := fun it : item => zs f (kept it)).
  set (psi1 := fun it : item => zs psi0 (hop g D3 it)).
  set (psi2 := fun it : item => zs psi1 (hop g D2 it)).
  set (psi3 := fun it : item => zs psi2 (hop g D1 it)).
  set (lift := fun (psi : item -> Z) c a p => psi (c, a, p)).
  transitivity (zs (fun c => B (lift psi0) c (pass g D3 (pass g D2 (pass g D1 (sort_all g mpi))) c)) (ranks g)).
  { unfold everything. rewrite zs_flat_map. apply zs_ext. intros c _.
    rewrite zs_map. unfold B, lift, psi0, exchange. cbn [kept].
    assert (Z0 : forall l : list pkt, zs (fun p => zs f []) l = 0) by (intros; apply zs_zero).
    match goal with |- _ = zs ?F [D1; D2; D3] + _ =>
      replace (zs F [D1; D2; D3]) with 0 end.
    - rewrite Z.add_0_l. apply zs_ext. intros p _. cbn. lia.
    - cbn [zs gsum fold_right]. rewrite !Z0. reflexivity. }
  rewrite pass_sum by reflexivity.
  rewrite (zs_ext _ (fun c => B (lift psi1) c (pass g D2 (pass g D1 (sort_all g mpi)) c))).
  2:{ intros c _. apply B_ext. intros a p. apply step_hop. }
  rewrite pass_sum by reflexivity.
  rewrite (zs_ext _ (fun c => B (lift psi2) c (pass g D1 (sort_all g mpi) c))).
  2:{ intros c _. apply B_ext. intros a p. apply step_hop. }
  rewrite pass_sum by reflexivity.
  rewrite (zs_ext _ (fun c => B (lift psi3) c (sort_all g mpi c))).
  2:{ intros c _. apply B_ext. intros a p. apply step_hop. }
  rewrite sort_all_sum by reflexivity.
  rewrite zs_flat_map. apply zs_ext. intros [c p] _. unfold route, lift, psi3, psi2, psi1, psi0.
  cbn [fst snd]. rewrite !zs_flat_map. reflexivity.
Qed.

(** *** The route of one packet *)
Definition side (g : cfg) (c : rank) (d : dir) (x : Z) : comparison :=
  if x <? startx_proc g c d then Lt else if x >? stopx_proc g c d then Gt else Eq.
Definition sgn (k : comparison) : Z := match k with Lt => -1 | Eq => 0 | Gt => 1 end.
Definition send (d : dir) (k : comparison) : act :=
  match k with Lt => SendL d | Gt => SendR d | Eq => Drop end.

Lemma scan_cons g c X d ds last :
  scan g c X (d :: ds) last =
  match side g c d (get d X) with Eq => scan g c X ds last | k => send d k end.
Proof. cbn. unfold side. now destruct (_ <? _); [|destruct (_ >? _)]. Qed.

Lemma side_set g c d e y x : e <> d -> side g (set e y c) d x = side g c d x.
Proof. intros H. unfold side, stopx_proc, startx_proc. now rewrite get_set_other by congruence. Qed.

Definition wrapc (g : cfg) (d : dir) (x : Z) : Z :=
  if periodic g d then
    if x <? startx_rad g d then stopx_rad g d - (startx_rad g d - x)
    else if x >? stopx_rad g d then startx_rad g d + (x - stopx_rad g d) else x
  else x.

Lemma get_wrap1 g d e X p : good_cfg g -> get e (wrap1 g true d X p) =
  if dir_eqb e d then
    (if periodic g d then
      if get d X <? startx_rad g d then stopx_rad g d - (startx_rad g d - get d p)
      else if get d X >? stopx_rad g d then startx_rad g d + (get d p - stopx_rad g d) else get d p
    else get d p) else get e p.
Proof.
  intros G. unfold wrap1. rewrite orb_true_r, andb_true_r.
  pose proof (G d) as [G1 G2].
  assert (startx_rad g d <= stopx_rad g d) by (unfold startx_rad, stopx_rad; nia).
  destruct (get d X <? startx_rad g d) eqn:E1; destruct (get d X >? stopx_rad g d) eqn:E2;
    try lia; destruct (periodic g d); destruct d, e; cbn; trivial.
Qed.

Lemma get_brt g d X : good_cfg g -> get d (bound_rad_transport g true X X) = wrapc g d (get d X).
Proof.
  intros G. unfold bound_rad_transport. rewrite !get_wrap1 by trivial. unfold wrapc.
  destruct d; cbn [dir_eqb]; trivial.
Qed.

Definition W (g : cfg) (p : pkt) : pkt := Pkt (pid p) (bound_rad_transport g true (pos p) (pos p)).

Lemma hop_send g d k c c' p : k <> Eq -> neighbor g d (sgn k) c = Some c' ->
  hop g d (c, send d k, p) = [(c', scan g c' (pos p) (dirs_after d) KeepHere, W g p)].
Proof. intros Hk H. destruct k; try congruence; cbn in *; destruct d; cbn; now rewrite H. Qed.

Lemma hop_other g d e k c p : e <> d -> hop g d (c, send e k, p) = [(c, send e k, p)].
Proof. intros H. destruct k, d, e; try congruence; reflexivity. Qed.
Lemma hop_keep g d c p : hop g d (c, KeepHere, p) = [(c, KeepHere, p)].
Proof. reflexivity. Qed.

Definition tc (g : cfg) (c : rank) (d : dir) (k : comparison) : Z :=
  (get d c + sgn k) mod get d (ncpu g).

Lemma nb_ok g d c x : good_cfg g -> 0 <= get d c < get d (ncpu g) ->
  (periodic g d = false -> startx_rad g d <= x <= stopx_rad g d) ->
  side g c d x <> Eq ->
  neighbor g d (sgn (side g c d x)) c = Some (set d (tc g c d (side g c d x)) c).
Proof.
  intros G Hc Hd Hk. unfold neighbor, tc. pose proof (G d) as [G1 G2].
  destruct (periodic g d); [now rewrite andb_false_r|]. rewrite andb_true_r.
  specialize (Hd eq_refl).
  match goal with |- (if ?b then _ else _) = _ => replace b with false; trivial end.
  symmetry. unfold side, startx_rad, stopx_rad, stopx_proc, startx_proc in *.
  destruct (x <? _) eqn:E1; [|destruct (x >? _) eqn:E2]; cbn [sgn] in *.
  - assert (0 < get d c) by nia. lia.
  - assert (get d c + 1 < get d (ncpu g)) by nia. lia.
  - congruence.
Qed.

(** Coordinate facts for a packet that moved by at most one sub-domain. *)
Definition near (g : cfg) (c : rank) (d : dir) (x : Z) : Prop :=
  startx_proc g c d - get d (width g) <= x <= stopx_proc g c d + get d (width g).
Definition domc (g : cfg) (d : dir) (x : Z) : Prop := startx_rad g d <= x <= stopx_rad g d.

Lemma mod_plus1 a n : 0 <= a < n -> (a + 1) mod n = if a + 1 =? n then 0 else a + 1.
Proof.
  intros H. destruct (a + 1 =? n) eqn:E.
  - replace (a + 1) with n by lia. apply Z.mod_same. lia.
  - apply Z.mod_small. lia.
Qed.
Lemma mod_minus1 a n : 0 <= a < n -> (a + -1) mod n = if a =? 0 then n - 1 else a - 1.
Proof.
  intros H. destruct (a =? 0) eqn:E.
  - replace (a + -1) with (n - 1 + (-1) * n) by lia. rewrite Z.mod_add by lia.
    apply Z.mod_small. lia.
  - rewrite Z.mod_small; lia.
Qed.

Lemma coord_owned g c d x : good_cfg g -> 0 <= get d c < get d (ncpu g) -> near g c d x ->
  (periodic g d = false -> domc g d x) -> (get d (ncpu g) = 1 -> domc g d x) ->
  get d (start g) + tc g c d (side g c d x) * get d (width g) <= wrapc g d x <=
  get d (start g) + tc g c d (side g c d x) * get d (width g) + get d (width g).
Proof.
  intros G Hc Hn Hp H1. pose proof (G d) as [G1 G2].
  unfold near, domc, startx_rad, stopx_rad, stopx_proc, startx_proc in *.
  unfold side, tc, wrapc, stopx_rad, startx_rad, stopx_proc, startx_proc.
  set (s := get d (start g)) in *. set (w := get d (width g)) in *.
  set (n := get d (ncpu g)) in *. set (a := get d c) in *.
  destruct (x <? s + a * w) eqn:E1; [|destruct (x >? s + a * w + w) eqn:E2]; cbn [sgn].
  - rewrite mod_minus1 by lia. destruct (a =? 0) eqn:Ea.
    + assert (a = 0) by lia. subst a. destruct (periodic g d); [|specialize (Hp eq_refl); nia].
      replace (x <? s) with true by nia. nia.
    + destruct (periodic g d).
      * replace (x <? s) with false by nia. replace (x >? s + n * w) with false by nia. nia.
      * specialize (Hp eq_refl). nia.
  - rewrite mod_plus1 by lia. destruct (a + 1 =? n) eqn:Ea.
    + assert (n = a + 1) by lia. destruct (periodic g d); [|specialize (Hp eq_refl); nia].
      replace (x <? s) with false by nia. replace (x >? s + n * w) with true by nia. nia.
    + assert (a + 2 <= n) by lia. destruct (periodic g d).
      * replace (x <? s) with false by nia. replace (x >? s + n * w) with false by nia. nia.
      * specialize (Hp eq_refl). nia.
  - rewrite Z.add_0_r, Z.mod_small by lia. destruct (periodic g d); [|nia].
    replace (x <? s) with false by nia. replace (x >? s + n * w) with false by nia. nia.
Qed.

Lemma wrapc_dom g d x : domc g d x -> wrapc g d x = x.
Proof.
  unfold domc, wrapc. intros H. destruct (periodic g d); trivial.
  replace (x <? startx_rad g d) with false by lia. now replace (x >? stopx_rad g d) with false by lia.
Qed.

Lemma wrapc_in_dom g c d x : good_cfg g -> 0 <= get d c < get d (ncpu g) -> near g c d x ->
  (periodic g d = false -> domc g d x) -> (get d (ncpu g) = 1 -> domc g d x) ->
  domc g d (wrapc g d x).
Proof.
  intros G Hc Hn Hp H1. pose proof (coord_owned g c d x G Hc Hn Hp H1) as H.
  unfold domc, startx_rad, stopx_rad. pose proof (G d) as [G1 G2].
  assert (0 <= tc g c d (side g c d x) < get d (ncpu g)) by (apply Z.mod_pos_bound; lia).
  nia.
Qed.

(** Deciding on the wrapped coordinate is also fine with two processes. *)
Lemma coord_owned2 g c d x : good_cfg g -> 0 <= get d c < get d (ncpu g) -> near g c d x ->
  (periodic g d = false -> domc g d x) -> (get d (ncpu g) = 1 -> domc g d x) ->
  domc g d x \/ get d (ncpu g) <= 2 ->
  get d (start g) + tc g c d (side g c d (wrapc g d x)) * get d (width g) <= wrapc g d x <=
  get d (start g) + tc g c d (side g c d (wrapc g d x)) * get d (width g) + get d (width g).
Proof.
  intros G Hc Hn Hp H1 [HD|H2].
  { rewrite (wrapc_dom g d x HD). pose proof (coord_owned g c d x G Hc Hn Hp H1) as K.
    now rewrite (wrapc_dom g d x HD) in K. }
  pose proof (wrapc_in_dom g c d x G Hc Hn Hp H1) as HD.
  pose proof (coord_owned g c d (wrapc g d x) G Hc) as K. rewrite (wrapc_dom g d _ HD) in K.
  pose proof (G d) as [G1 G2].
  apply K; try tauto.
  unfold near, domc, startx_rad, stopx_rad, stopx_proc, startx_proc in *.
  assert (Hn2 : get d (ncpu g) = 1 \/ get d (ncpu g) = 2) by lia.
  assert (Ha : get d c = 0 \/ get d c = 1) by lia.
  destruct Hn2 as [Q|Q], Ha as [Q'|Q']; rewrite Q, ?Q' in *; lia.
Qed.

Lemma scan_in g c X d ds last : side g c d (get d X) = Eq ->
  scan g c X (d :: ds) last = scan g c X ds last.
Proof. intros H. now rewrite scan_cons, H. Qed.
Lemma scan_out g c X d ds last : side g c d (get d X) <> Eq ->
  scan g c X (d :: ds) last = send d (side g c d (get d X)).
Proof. intros H. rewrite scan_cons. now destruct (side g c d (get d X)). Qed.

Lemma side_outside g c d X : side g c d (get d X) <> Eq <-> outside g c d X.
Proof.
  unfold side, outside. destruct (_ <? _) eqn:E1; [|destruct (_ >? _) eqn:E2]; split; intros H;
    try discriminate; try lia. congruence.
Qed.

Lemma cmp_dec (k : comparison) : k = Eq \/ k <> Eq.
Proof. destruct k; auto; right; discriminate. Qed.

Lemma route_ok g c p : good_cfg g -> valid g c -> handed_over g c (pos p) ->
  exists c', route g (c, p) = [(c', W g p)] /\ valid g c' /\ (~ corner_wrap g c (pos p) -> owns g c' (pos (W g p))).
Proof.
  intros G V [Hout Hnear Hdom Hsing].
  set (X := pos p) in *.
  assert (Hn : forall d, near g c d (get d X)) by (intros d; apply Hnear).
  assert (OK : forall d c2, get d c2 = get d c -> side g c d (get d X) <> Eq ->
     neighbor g d (sgn (side g c d (get d X))) c2 = Some (set d (tc g c d (side g c d (get d X))) c2)).
  { intros d c2 E Hk. assert (S2 : side g c2 d (get d X) = side g c d (get d X)).
    { unfold side, stopx_proc, startx_proc. now rewrite E. }
    pose proof (nb_ok g d c2 (get d X) G) as N. rewrite S2 in N. unfold tc in *.
    rewrite E in N. apply N; trivial. apply Hdom. }
  assert (OW : forall d, get d (pos (W g p)) = wrapc g d (get d X)) by (intros; apply get_brt; trivial).
  assert (WW : W g (W g p) = W g p).
  { unfold W at 1. assert (E : bound_rad_transport g true (pos (W g p)) (pos (W g p)) = pos (W g p)).
    { apply v3_ext. intros d. rewrite get_brt, OW by trivial. apply wrapc_dom.
      apply (wrapc_in_dom g c); auto. apply Hdom. apply Hsing. }
    rewrite E. reflexivity. }
  assert (VT : forall d k, 0 <= tc g c d k < get d (ncpu g)).
  { intros. apply Z.mod_pos_bound. apply G. }
  assert (OWN : forall d, get d (start g) + tc g c d (side g c d (get d X)) * get d (width g)
      <= wrapc g d (get d X) <=
      get d (start g) + tc g c d (side g c d (get d X)) * get d (width g) + get d (width g)).
  { intros d. apply coord_owned; auto. apply Hdom. apply Hsing. }
  assert (OWN2 : domc g D3 (get D3 X) \/ get D3 (ncpu g) <= 2 ->
     get D3 (start g) + tc g c D3 (side g c D3 (wrapc g D3 (get D3 X))) * get D3 (width g)
      <= wrapc g D3 (get D3 X) <=
      get D3 (start g) + tc g c D3 (side g c D3 (wrapc g D3 (get D3 X))) * get D3 (width g) + get D3 (width g)).
  { intros HH. apply coord_owned2; auto. apply Hdom. apply Hsing. }
  assert (EQ : forall d, side g c d (get d X) = Eq ->
     get d (start g) + get d c * get d (width g) <= wrapc g d (get d X) <=
     get d (start g) + get d c * get d (width g) + get d (width g)).
  { intros d E. specialize (OWN d). rewrite E in OWN. unfold tc in OWN. cbn [sgn] in OWN.
    rewrite Z.add_0_r, Z.mod_small in OWN by apply V. exact OWN. }
  assert (OWNS : forall c', (forall d, get d c' = tc g c d (side g c d (get d X))) ->
     owns g c' (pos (W g p))).
  { intros c' H d. unfold stopx_proc, startx_proc. rewrite OW, H. apply OWN. }
  assert (TEQ : forall d, side g c d (get d X) = Eq -> get d c = tc g c d (side g c d (get d X))).
  { intros d ->. unfold tc. cbn [sgn]. rewrite Z.add_0_r, Z.mod_small; trivial. }
  unfold route. cbn [fst snd]. unfold sort_act. fold X.
  set (k1 := side g c D1 (get D1 X)) in *. set (k2 := side g c D2 (get D2 X)) in *.
  set (k3 := side g c D3 (get D3 X)) in *.
  destruct (cmp_dec k1) as [E1|E1].
  - rewrite scan_in by trivial. cbn [dirs_after].
    destruct (cmp_dec k2) as [E2|E2].
    + rewrite scan_in by trivial. destruct (cmp_dec k3) as [E3|E3].
      * (* nothing outside: not handed over *)
        exfalso. unfold hands_over in Hout.
        assert (NO : forall d, side g c d (get d X) = Eq ->
           (get d X <? startx_proc g c d) || (get d X >? stopx_proc g c d) = false).
        { intros d. unfold side. destruct (get d X <? startx_proc g c d); [intros; discriminate|].
          destruct (get d X >? stopx_proc g c d); [intros; discriminate|reflexivity]. }
        rewrite (NO D1 E1), (NO D2 E2), (NO D3 E3) in Hout. discriminate.
      * rewrite scan_out by trivial. fold k3.
        rewrite hop_other by discriminate. cbn [flat_map app]. rewrite app_nil_r.
        rewrite hop_other by discriminate. cbn [flat_map app]. rewrite app_nil_r.
        rewrite (hop_send _ _ _ _ _ _ E3 (OK D3 c eq_refl E3)). cbn [flat_map app dirs_after scan kept].
        eexists; split; [reflexivity|]. split.
        { intros [| |]; cbn; auto; [apply (V D1)|apply (V D2)|apply (VT D3)]. }
        intros _. apply OWNS. intros [| |]; cbn; auto; [apply (TEQ D1 E1)|apply (TEQ D2 E2)].
    + rewrite scan_out by trivial. fold k2.
      rewrite hop_other by discriminate. cbn [flat_map app]. rewrite app_nil_r.
      rewrite (hop_send _ _ _ _ _ _ E2 (OK D2 c eq_refl E2)). cbn [flat_map app dirs_after kept].
      rewrite app_nil_r. fold X.
      set (c2 := set D2 (tc g c D2 (side g c D2 (get D2 X))) c) in *.
      assert (S3 : side g c2 D3 (get D3 X) = k3) by (unfold c2; now rewrite side_set by congruence).
      destruct (cmp_dec k3) as [E3|E3].
      * rewrite scan_in by now rewrite S3. cbn [scan]. rewrite hop_keep. cbn [flat_map app kept].
        eexists; split; [reflexivity|]. split.
        { intros [| |]; cbn; auto; [apply (V D1)|apply (VT D2)|apply (V D3)]. }
        intros _. apply OWNS. intros [| |]; cbn; auto; [apply (TEQ D1 E1)|apply (TEQ D3 E3)].
      * rewrite scan_out by now rewrite S3. rewrite S3.
        rewrite (hop_send _ _ _ _ _ _ E3 (OK D3 c2 eq_refl E3)). cbn [flat_map app dirs_after scan kept].
        rewrite WW. eexists; split; [reflexivity|]. split.
        { intros [| |]; cbn; auto; [apply (V D1)|apply (VT D2)|apply (VT D3)]. }
        intros _. apply OWNS. intros [| |]; cbn; auto; [apply (TEQ D1 E1)].
  - rewrite scan_out by trivial. fold k1.
    rewrite (hop_send _ _ _ _ _ _ E1 (OK D1 c eq_refl E1)). cbn [flat_map app dirs_after kept].
    rewrite app_nil_r. fold X.
    set (c1 := set D1 (tc g c D1 (side g c D1 (get D1 X))) c) in *.
    assert (S2 : side g c1 D2 (get D2 X) = k2) by (unfold c1; now rewrite side_set by congruence).
    assert (S3 : side g c1 D3 (get D3 X) = k3) by (unfold c1; now rewrite side_set by congruence).
    destruct (cmp_dec k2) as [E2|E2].
    + rewrite scan_in by now rewrite S2. destruct (cmp_dec k3) as [E3|E3].
      * rewrite scan_in by now rewrite S3. cbn [scan]. rewrite hop_keep. cbn [flat_map app kept].
        rewrite hop_keep. cbn [flat_map app kept].
        eexists; split; [reflexivity|]. split.
        { intros [| |]; cbn; auto; [apply (VT D1)|apply (V D2)|apply (V D3)]. }
        intros _. apply OWNS. intros [| |]; cbn; auto; [apply (TEQ D2 E2)|apply (TEQ D3 E3)].
      * rewrite scan_out by now rewrite S3. rewrite S3.
        rewrite hop_other by discriminate. cbn [flat_map app]. rewrite app_nil_r.
        rewrite (hop_send _ _ _ _ _ _ E3 (OK D3 c1 eq_refl E3)). cbn [flat_map app dirs_after scan kept].
        rewrite WW. eexists; split; [reflexivity|]. split.
        { intros [| |]; cbn; auto; [apply (VT D1)|apply (V D2)|apply (VT D3)]. }
        intros _. apply OWNS. intros [| |]; cbn; auto; [apply (TEQ D2 E2)].
    + rewrite scan_out by now rewrite S2. rewrite S2.
      rewrite (hop_send _ _ _ _ _ _ E2 (OK D2 c1 eq_refl E2)). cbn [flat_map app dirs_after kept].
      rewrite app_nil_r, WW.
      set (c2 := set D2 (tc g c D2 (side g c D2 (get D2 X))) c1) in *.
      set (x3 := wrapc g D3 (get D3 X)) in *.
      assert (P3 : get D3 (pos (W g p)) = x3) by apply OW.
      assert (DX : domc g D3 x3) by (apply (wrapc_in_dom g c); auto; [apply Hdom|apply Hsing]).
      assert (S3' : side g c2 D3 x3 = side g c D3 x3) by reflexivity.
      destruct (cmp_dec (side g c D3 x3)) as [E3|E3].
      * rewrite scan_in by now rewrite P3. cbn [scan]. rewrite hop_keep. cbn [flat_map app kept].
        eexists; split; [reflexivity|]. split.
        { intros [| |]; cbn; auto; [apply (VT D1)|apply (VT D2)|apply (V D3)]. }
        intros NC. assert (H3 : domc g D3 (get D3 X) \/ get D3 (ncpu g) <= 2).
        { destruct (Z_le_gt_dec (get D3 (ncpu g)) 2); [now right|left].
          assert (D : {domc g D3 (get D3 X)} + {~ domc g D3 (get D3 X)}).
          { unfold domc. destruct (Z_le_gt_dec (startx_rad g D3) (get D3 X)),
              (Z_le_gt_dec (get D3 X) (stopx_rad g D3)); [left|right|right|right]; lia. }
          destruct D as [D|D]; trivial. exfalso. apply NC. repeat split; trivial; [lia| |];
            now apply side_outside. }
        specialize (OWN2 H3). rewrite E3 in OWN2. unfold tc in OWN2. cbn [sgn] in OWN2.
        rewrite Z.add_0_r, Z.mod_small in OWN2 by apply V.
        intros [| |]; unfold stopx_proc, startx_proc; rewrite OW; [apply (OWN D1)|apply (OWN D2)|exact OWN2].
      * rewrite scan_out by now rewrite P3. rewrite P3, S3'.
        pose proof (nb_ok g D3 c2 x3 G (V D3) (fun _ => DX) E3) as N3. rewrite S3' in N3.
        rewrite (hop_send _ _ _ _ _ _ E3 N3). cbn [flat_map app dirs_after scan kept].
        rewrite WW. eexists; split; [reflexivity|]. split.
        { intros [| |]; cbn; auto; [apply (VT D1)|apply (VT D2)|apply (VT D3)]. }
        intros NC. assert (H3 : domc g D3 (get D3 X) \/ get D3 (ncpu g) <= 2).
        { destruct (Z_le_gt_dec (get D3 (ncpu g)) 2); [now right|left].
          assert (D : {domc g D3 (get D3 X)} + {~ domc g D3 (get D3 X)}).
          { unfold domc. destruct (Z_le_gt_dec (startx_rad g D3) (get D3 X)),
              (Z_le_gt_dec (get D3 X) (stopx_rad g D3)); [left|right|right|right]; lia. }
          destruct D as [D|D]; trivial. exfalso. apply NC. repeat split; trivial; [lia| |];
            now apply side_outside. }
        specialize (OWN2 H3).
        intros [| |]; unfold stopx_proc, startx_proc; rewrite OW; [apply (OWN D1)|apply (OWN D2)|exact OWN2].
Qed.

(** *** Assembling the exchange theorems *)
Lemma everything_in g f c p : In (c, p) (everything g f) <-> valid g c /\ In p (f c).
Proof.
  unfold everything. rewrite in_flat_map. split.
  - intros (c' & Hc & H). apply in_map_iff in H as (q & [= -> ->] & Hq). now rewrite <- ranks_in.
  - intros [Hc Hp]. exists c. split; [now apply ranks_in|]. now apply in_map.
Qed.

Lemma forall2_routes g (R : rank * pkt -> rank * pkt -> Prop) l :
  (forall cp, In cp l -> exists r, route g cp = [r] /\ R cp r) ->
  exists l', flat_map (route g) l = l' /\ Forall2 R l l'.
Proof.
  induction l as [|cp l IH]; intros H; [exists []; split; constructor|].
  destruct (H cp (or_introl eq_refl)) as (r & E & HR).
  destruct IH as (l' & E' & F); [intros; apply H; now right|].
  exists (r :: l'). split; [|now constructor]. cbn [flat_map]. now rewrite E, E'.
Qed.

Lemma same_point_wrap g X : good_cfg g -> same_point g X (bound_rad_transport g true X X).
Proof.
  intros G d. rewrite get_brt by trivial. unfold wrapc, stopx_rad, startx_rad.
  destruct (periodic g d); trivial.
  destruct (get d X <? get d (start g)); [exists 1; lia|].
  destruct (get d X >? _); [exists (-1); lia|exists 0; lia].
Qed.

Lemma exchange_correct g mpi : good_cfg g ->
  (forall c p, valid g c -> In p (mpi c) -> handed_over g c (pos p)) ->
  exists arrived,
    Permutation (everything g (exchange g mpi)) arrived /\
    Forall2 (fun s r => pid (snd r) = pid (snd s) /\ valid g (fst r) /\
                        same_point g (pos (snd s)) (pos (snd r)) /\
                        (~ corner_wrap g (fst s) (pos (snd s)) -> owns g (fst r) (pos (snd r))))
            (everything g mpi) arrived.
Proof.
  intros G H.
  destruct (forall2_routes g (fun s r => pid (snd r) = pid (snd s) /\ valid g (fst r) /\
      same_point g (pos (snd s)) (pos (snd r)) /\
      (~ corner_wrap g (fst s) (pos (snd s)) -> owns g (fst r) (pos (snd r)))) (everything g mpi))
    as (l' & E & F).
  - intros [c p] Hin. apply everything_in in Hin as [V Hp].
    destruct (route_ok g c p G V (H c p V Hp)) as (c' & Er & Vc' & Ho).
    exists (c', W g p). split; [exact Er|]. split; [reflexivity|].
    split; [exact Vc'|]. split; [now apply same_point_wrap|exact Ho].
  - exists l'. split; trivial. rewrite <- E. apply exchange_route.
Qed.

Lemma hands_over_not_drop g c p : hands_over g c (pos p) = true -> sort_act g c p <> Drop.
Proof.
  intros H. unfold sort_act. rewrite !scan_cons. unfold hands_over in H.
  assert (S : forall d, side g c d (get d (pos p)) = Eq ->
     ((get d (pos p) <? startx_proc g c d) || (get d (pos p) >? stopx_proc g c d)) && (1 <? get d (ncpu g)) = false).
  { intros d. unfold side. destruct (get d (pos p) <? startx_proc g c d); [intros; discriminate|].
    destruct (get d (pos p) >? stopx_proc g c d); [intros; discriminate|reflexivity]. }
  destruct (side g c D1 _) eqn:E1; try discriminate.
  destruct (side g c D2 _) eqn:E2; try discriminate.
  destruct (side g c D3 _) eqn:E3; try discriminate.
  rewrite (S D1 E1), (S D2 E2), (S D3 E3) in H. discriminate.
Qed.

Lemma counters_balance g mpi : good_cfg g ->
  (forall c p, valid g c -> In p (mpi c) -> handed_over g c (pos p)) ->
  (forall c, valid g c -> step_tot_change g mpi c =
     Z.of_nat (length (exchange g mpi c)) - Z.of_nat (length (mpi c))) /\
  zs (step_tot_change g mpi) (ranks g) = 0.
Proof.
  intros G H.
  assert (A : forall c, valid g c -> step_tot_change g mpi c =
     Z.of_nat (length (exchange g mpi c)) - Z.of_nat (length (mpi c))).
  { intros c V. unfold step_tot_change.
    assert (F : forall l s, (forall p, In p l -> sort_act g c p <> Drop) ->
      fold_left (fun s p => match sort_act g c p with Drop => s - 1 + 1 | _ => s - 1 end) l s
      = s - Z.of_nat (length l)).
    { induction l as [|p l IH]; intros s Hl; [cbn; lia|]. cbn [fold_left length].
      rewrite IH by (intros; apply Hl; now right).
      assert (Hp : sort_act g c p <> Drop) by (apply Hl; now left).
      destruct (sort_act g c p); try lia. congruence. }
    rewrite F; [lia|]. intros p Hp. apply hands_over_not_drop, H; trivial. }
  split; trivial.
  rewrite (zs_ext _ (fun c => Z.of_nat (length (exchange g mpi c)) + - Z.of_nat (length (mpi c))))
    by (intros c Hc; apply ranks_in in Hc; rewrite A by trivial; lia).
  rewrite zs_plus.
  destruct (exchange_correct g mpi G H) as (l' & P & F).
  assert (L : length (everything g (exchange g mpi)) = length (everything g mpi)).
  { rewrite (Permutation_length P). symmetry. clear - F. induction F; cbn; congruence. }
  assert (LE : forall f, Z.of_nat (length (everything g f)) = zs (fun c => Z.of_nat (length (f c))) (ranks g)).
  { intros f. unfold everything. induction (ranks g) as [|c l IH]; [reflexivity|].
    cbn [flat_map]. rewrite app_length, map_length, zs_cons. lia. }
  rewrite <- LE, L, LE, <- zs_plus.
  rewrite (zs_ext _ (fun _ => 0)) by (intros; lia). apply zs_zero.
Qed.

(** *** Distribution over threads (C06) *)
Lemma give_spec k : forall recv dst,
  give k recv dst = (skipn k recv, rev (firstn k recv) ++ dst).
Proof.
  induction k as [|k IH]; intros recv dst; [reflexivity|].
  destruct recv as [|p r]; [reflexivity|]. cbn [give skipn firstn rev]. rewrite IH.
  now rewrite <- app_assoc.
Qed.

Lemma replace_nth_length {X} i (x : X) l : length (replace_nth i x l) = length l.
Proof. revert i; induction l as [|y l IH]; intros [|i]; cbn; auto. Qed.
Lemma replace_nth_same {X} i (x y : X) l : nth_error l i = Some y -> nth_error (replace_nth i x l) i = Some x.
Proof. revert i; induction l as [|z l IH]; intros [|i]; cbn; try discriminate; auto. Qed.
Lemma replace_nth_other {X} i j (x : X) l : i <> j -> nth_error (replace_nth i x l) j = nth_error l j.
Proof. revert i j; induction l as [|z l IH]; intros [|i] [|j] H; cbn; auto; congruence. Qed.

Fixpoint visits (N count m i : nat) : nat :=
  match count with
  | O => O
  | S c => ((if (m mod N =? i)%nat then 1 else 0) + visits N c (m + 1) i)%nat
  end.

Lemma visits_none N count m i a : (a < N)%nat -> i = (a mod N)%nat ->
  (0 < m - a)%nat -> (m - a + count <= N)%nat -> (a <= m)%nat -> visits N count m i = 0%nat.
Proof.
  intros HN Hi. revert m. induction count as [|c IH]; intros m H1 H2 H3; [reflexivity|].
  cbn [visits]. rewrite IH by lia. rewrite Nat.mod_small in Hi by lia. subst i.
  destruct (m mod N =? a)%nat eqn:E; [|reflexivity]. apply Nat.eqb_eq in E.
  exfalso. destruct (Nat.lt_ge_cases m N).
  - rewrite Nat.mod_small in E by lia. lia.
  - replace m with ((m - N) + 1 * N)%nat in E by lia. rewrite Nat.mod_add in E by lia.
    rewrite Nat.mod_small in E by lia. lia.
Qed.

Lemma visits_shift N count m i : N <> 0%nat -> visits N count (m + N) i = visits N count m i.
Proof.
  intros HN. revert m; induction count as [|c IH]; intros m; [reflexivity|]. cbn [visits].
  replace (m + N + 1)%nat with (m + 1 + N)%nat by lia. rewrite IH.
  replace (m + N)%nat with (m + 1 * N)%nat by lia. now rewrite Nat.mod_add.
Qed.
Lemma visits_mod N count m i : N <> 0%nat -> visits N count m i = visits N count (m mod N) i.
Proof.
  intros HN. rewrite (Nat.div_mod m N HN) at 1. generalize (m / N)%nat as q.
  induction q as [|q IH]; [f_equal; lia|].
  rewrite <- IH. replace (N * S q + m mod N)%nat with (N * q + m mod N + N)%nat by lia.
  now apply visits_shift.
Qed.

Lemma visits_le N count m i : N <> 0%nat -> (count <= N)%nat -> (visits N count m i <= 1)%nat.
Proof.
  intros HN. revert m. induction count as [|c IH]; intros m Hc; [cbn; lia|]. cbn [visits].
  destruct (m mod N =? i)%nat eqn:E; [|apply IH; lia].
  apply Nat.eqb_eq in E. rewrite visits_mod by trivial.
  rewrite <- Nat.add_mod_idemp_l by trivial. rewrite <- visits_mod by trivial.
  assert (m mod N < N)%nat by (now apply Nat.mod_upper_bound).
  rewrite (visits_none N c (m mod N + 1) i (m mod N)); try lia.
  now rewrite Nat.mod_mod.
Qed.

Definition gets (news lists lists' : list (list pkt)) : Prop :=
  length news = length lists /\ length lists' = length lists /\
  forall i nw l, nth_error news i = Some nw -> nth_error lists i = Some l ->
    nth_error lists' i = Some (nw ++ l).

Lemma repeat_nth {X} (x : X) n i y : nth_error (repeat x n) i = Some y -> y = x.
Proof. intros H. apply nth_error_In in H. now apply repeat_spec in H. Qed.

Lemma concat_replace_nth {X} i (x y : list X) l : nth_error l i = Some y ->
  Permutation (concat (replace_nth i (y ++ x) l)) (x ++ concat l).
Proof.
  revert i; induction l as [|z l IH]; intros [|i]; cbn; try discriminate.
  - intros [= ->]. rewrite <- app_assoc. rewrite app_assoc.
    rewrite (Permutation_app_comm y x). now rewrite <- app_assoc.
  - intros H. rewrite (IH i H). rewrite !app_assoc. now rewrite (Permutation_app_comm z x).
Qed.

Lemma skipn_plus {X} a b (l : list X) : skipn a (skipn b l) = skipn (b + a) l.
Proof. revert l; induction b as [|b IH]; intros l; [reflexivity|]. destruct l; cbn; [now rewrite skipn_nil|apply IH]. Qed.

Lemma distribute_loop_spec per count : forall n recv lists,
  lists <> [] ->
  exists lists' news,
    distribute_loop count n per recv lists = Some (skipn (count * per) recv, lists') /\
    gets news lists lists' /\
    Permutation (concat news ++ skipn (count * per) recv) recv /\
    (forall i nw, nth_error news i = Some nw ->
        (length nw <= per * visits (length lists) count n i)%nat).
Proof.
  induction count as [|c IH]; intros n recv lists HN.
  - exists lists, (repeat [] (length lists)). cbn [distribute_loop Nat.mul skipn]. repeat split; trivial.
    + apply repeat_length.
    + intros i nw l H1 H2. apply repeat_nth in H1. now subst nw.
    + assert (E : concat (repeat (@nil pkt) (length lists)) = []) by (induction (length lists); cbn; auto).
      now rewrite E.
    + intros i nw H. apply repeat_nth in H. subst. cbn. lia.
  - cbn [distribute_loop].
    assert (HL : length lists <> 0%nat) by (destruct lists; cbn; congruence).
    set (idx := (n mod length lists)%nat).
    assert (Hidx : (idx < length lists)%nat) by (now apply Nat.mod_upper_bound).
    destruct (nth_error lists idx) as [dst|] eqn:Ed.
    2:{ apply nth_error_None in Ed. lia. }
    rewrite give_spec.
    set (lists1 := replace_nth idx (rev (firstn per recv) ++ dst) lists).
    assert (L1 : length lists1 = length lists) by apply replace_nth_length.
    destruct (IH (n + 1)%nat (skipn per recv) lists1) as (lists' & news & E & (G1 & G2 & G3) & P & B1).
    { destruct lists1; cbn in L1; congruence. }
    assert (exists nw0, nth_error news idx = Some nw0) as [nw0 Hnw0].
    { destruct (nth_error news idx) eqn:Q; [eauto|]. apply nth_error_None in Q. lia. }
    exists lists', (replace_nth idx (nw0 ++ rev (firstn per recv)) news).
    assert (SK : skipn (c * per) (skipn per recv) = skipn (S c * per) recv).
    { rewrite skipn_plus. f_equal. }
    rewrite SK in *. repeat split.
    + exact E.
    + rewrite replace_nth_length. congruence.
    + congruence.
    + intros i nw l H1 H2. destruct (Nat.eq_dec idx i) as [->|Hi].
      * rewrite (replace_nth_same _ _ _ _ Hnw0) in H1. injection H1 as <-.
        rewrite Ed in H2. injection H2 as <-. rewrite <- app_assoc. apply G3; trivial.
        unfold lists1. eapply replace_nth_same; eauto.
      * rewrite replace_nth_other in H1 by trivial. apply G3; trivial.
        unfold lists1. now rewrite replace_nth_other.
    + rewrite (concat_replace_nth _ _ _ _ Hnw0), <- app_assoc, P.
      rewrite <- (firstn_skipn per recv) at 3. apply Permutation_app_tail, Permutation_sym, Permutation_rev.
    + intros i nw H1. cbn [visits]. fold idx. rewrite L1 in B1.
      destruct (Nat.eq_dec idx i) as [->|Hi].
      * rewrite (replace_nth_same _ _ _ _ Hnw0) in H1. injection H1 as <-.
        rewrite Nat.eqb_refl, app_length, rev_length. specialize (B1 _ _ Hnw0).
        pose proof (firstn_le_length per recv). lia.
      * rewrite replace_nth_other in H1 by trivial. specialize (B1 _ _ H1).
        destruct (idx =? i)%nat; lia.
Qed.

Lemma distribute_correct thread_start recv lists : lists <> [] ->
  exists lists' news,
    distribute thread_start recv lists = Some ([], lists') /\
    length news = length lists /\ length lists' = length lists /\
    (forall i nw l, nth_error news i = Some nw -> nth_error lists i = Some l ->
        nth_error lists' i = Some (nw ++ l)) /\
    Permutation (concat news) recv /\
    (forall nw, In nw news -> length nw * length lists < length recv + length lists)%nat.
Proof.
  intros HN. unfold distribute.
  destruct (distribute_loop_spec (per_thread (length recv) (length lists)) (length lists)
     thread_start recv lists HN) as (lists' & news & E & (G1 & G2 & G3) & P & B1).
  assert (HL : length lists <> 0%nat) by (destruct lists; cbn; congruence).
  assert (PT : (length recv <= length lists * per_thread (length recv) (length lists) < length recv + length lists)%nat).
  { unfold per_thread. pose proof (Nat.div_mod (length recv) (length lists) HL) as DM.
    pose proof (Nat.mod_upper_bound (length recv) (length lists) HL) as MB.
    destruct (_ <? _)%nat eqn:Q; lia. }
  rewrite skipn_all2 in * by lia. rewrite app_nil_r in P.
  exists lists', news. repeat split; trivial.
  intros nw Hin. apply In_nth_error in Hin as [i Hi]. specialize (B1 _ _ Hi).
  pose proof (visits_le (length lists) (length lists) thread_start i HL (le_n _)). nia.
Qed.

Lemma ownership_partial g mpi : good_cfg g ->
  (forall c p, valid g c -> In p (mpi c) -> handed_over g c (pos p)) ->
  (forall c p, valid g c -> In p (mpi c) -> ~ corner_wrap g c (pos p)) ->
  forall c p, valid g c -> In p (exchange g mpi c) -> owns g c (pos p).
Proof.
  intros G H NC c p V Hin.
  destruct (exchange_correct g mpi G H) as (l' & P & F).
  assert (I : In (c, p) l').
  { eapply Permutation_in; [exact P|]. now apply everything_in. }
  assert (NCe : forall s, In s (everything g mpi) -> ~ corner_wrap g (fst s) (pos (snd s))).
  { intros [c0 p0] Hs. apply everything_in in Hs as [V0 Hp]. now apply NC. }
  clear - F I NCe. induction F as [|s r l l' (A & B1 & C & D) F IH]; [destruct I|].
  destruct I as [->|I].
  - cbn [fst snd] in D. apply D, NCe. now left.
  - apply IH; trivial. intros s' Hs. apply NCe. now right.
Qed.

Definition bad_cfg : cfg := Cfg (V3 2 2 3) (V3 0 0 0) (V3 10 10 10) false false true.
Definition bad_mpi (c : rank) : list pkt :=
  if v3_dec c (V3 0 0 0) then [Pkt 1 (V3 11 11 (-1))] else [].

Lemma ownership_refuted : exists g mpi,
  good_cfg g /\
  (forall c p, valid g c -> In p (mpi c) -> handed_over g c (pos p)) /\
  exists c p, valid g c /\ In p (exchange g mpi c) /\ ~ owns g c (pos p).
Proof.
  exists bad_cfg, bad_mpi. split; [intros [| |]; cbn; lia|]. split.
  - intros c p _ H. unfold bad_mpi in H. destruct (v3_dec c (V3 0 0 0)) as [->|]; [|destruct H].
    destruct H as [<-|[]]. split; try reflexivity;
      intros [| |]; unfold in_domain, startx_rad, stopx_rad, stopx_proc, startx_proc; cbn; try lia; try discriminate.
  - exists (V3 1 1 1), (Pkt 1 (V3 11 11 29)). split; [intros [| |]; cbn; lia|]. split.
    + assert (E : exchange bad_cfg bad_mpi (V3 1 1 1) = [Pkt 1 (V3 11 11 29)]) by (vm_compute; reflexivity).
      rewrite E. now left.
    + intros O. specialize (O D3). unfold stopx_proc, startx_proc in O. cbn in O. lia.
Qed.
