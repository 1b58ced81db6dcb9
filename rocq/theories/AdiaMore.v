(** Adiabats: the whole search, its ends, and polytropes. *)
From Coq Require Import Reals Bool ZArith List Lia Lra.
From Verif Require Import RLib XLib IntLib TabModel TabSpec TabProofs RootModel RootSpec RootProofs InvModel InvSpec InvProofs AdiaModel AdiaSpec AdiaFilt AdiaProofs.
Import ListNotations.
Open Scope R_scope.

Lemma minmax_of l : l <> [] -> In (find_min l) l /\ In (find_max l) l /\ Forall (fun t => find_min l <= t <= find_max l) l.
Proof. intros N. destruct (minmax_list l N) as (lo & hi & E & A & B & F). unfold find_min, find_max. rewrite E. auto. Qed.

Section Tables.
Variables (rho tmp yes : axis) (dr dt dy : R).
Hypothesis E1 : even rho dr.
Hypothesis E2 : even tmp dt.
Hypothesis E3 : even yes dy.
Hypothesis T1 : TOL < dr.
Hypothesis T2 : 2 * TOL < dt.
Hypothesis T3 : TOL < dy.
Variables (ent hm1 : list R).
Hypothesis SE : length ent = (length rho * length tmp * length yes)%nat.
Hypothesis SH : length hm1 = (length rho * length tmp * length yes)%nat.
Variables (m L : R).
Hypothesis M : 0 < m.
Hypothesis MT : TOL <= m * dt.
Hypothesis RI : rising (ax_n rho) (ax_n tmp) (ax_n yes) ent dt m L.
Lemma spread : find_min ent <= find_max ent - TOL.
Proof.
  assert (SZ := size3 rho tmp yes ent SE). pose proof E1 as (L1 & _). pose proof E2 as (L2 & _). pose proof E3 as (L3 & _).
  assert (G : forall j, (0 <= j < 2)%Z -> exists v, rd ent (ax_n rho * (0 * ax_n tmp + j) + 0)%Z = Some v).
  { intros j J. apply rd_some. rewrite SZ. apply elem_in; unfold ax_n; lia. }
  destruct (G 0%Z ltac:(lia)) as (a & A). destruct (G 1%Z ltac:(lia)) as (b & B).
  pose proof (RI 0%Z 0%Z 0%Z a b ltac:(unfold ax_n; lia) ltac:(lia) ltac:(unfold ax_n; lia) ltac:(unfold ax_n; lia) A B) as H.
  assert (IA : In a ent) by (unfold rd in A; destruct (_ <? 0)%Z; [discriminate|]; now apply nth_error_In in A).
  assert (IB : In b ent) by (unfold rd in B; destruct (_ <? 0)%Z; [discriminate|]; now apply nth_error_In in B).
  assert (N : ent <> []) by (intros ->; destruct IA). destruct (minmax_of ent N) as (_ & _ & F).
  pose proof (proj1 (Forall_forall _ _) F a IA). pose proof (proj1 (Forall_forall _ _) F b IB). cbv beta in *. lra.
Qed.
Lemma ss s : catch_s ent (catch_s ent s) = catch_s ent s.
Proof. apply catch_s_twice, spread. Qed.
Lemma yy ye : catch_in yes (catch_in yes ye) = catch_in yes ye.
Proof. now apply (catch_ye_twice yes dy). Qed.
Lemma interval_same fuel s ye : adiabat_lrho_min_max rho tmp yes ent fuel (catch_s ent s) (catch_in yes ye) = adiabat_lrho_min_max rho tmp yes ent fuel s ye.
Proof. unfold adiabat_lrho_min_max. rewrite ss, yy. reflexivity. Qed.

(** the indices of the nodes *)
Lemma find_1d fuel s ye lo hi : adiabat_lrho_min_max rho tmp yes ent fuel s ye = Some (lo, hi) ->
  exists i0 i1, (0 <= i0 < ax_n rho)%Z /\ (-1 <= i1 <= ax_n rho - 2)%Z /\
    (forall i x, rd rho i = Some x -> (i0 <= i <= i1)%Z <-> lo <= x < hi) /\ ((i1 < 0)%Z <-> hi = ax_min rho) /\
    EOS_SC_find_adiabat_1d rho tmp yes ent hm1 fuel s ye =
      if (i1 <? 0)%Z then Outside else
      match nodes rho tmp yes ent hm1 fuel (Z.to_nat (i1 + 1 - i0)) i0 (catch_in yes ye) (catch_s ent s) PInf NInf [] with
      | Traced a => Traced (mk_adiabat (catch_s ent s) (catch_in yes ye) (nth (Z.to_nat i0) rho 0) (nth (Z.to_nat i1) rho 0) i0 i1 (ad_hm1_min a) (ad_hm1_max a) (ad_lT a))
      | o => o
      end.
Proof.
  intros I. destruct (interval_in rho tmp yes dr E1 T1 ent fuel s ye lo hi I) as (BL & BH).
  destruct (index_of rho dr E1 lo BL) as (P0 & H0). destruct (index_of rho dr E1 hi BH) as (P1 & H1).
  exists (find_index lo rho), (find_index hi rho - 1)%Z. split; [exact P0|]. split; [lia|]. split; [|split].
  - intros i x R. specialize (H0 i x R). specialize (H1 i x R). split.
    + intros (A & B). apply H0 in A. split; [exact A|]. apply Rnot_le_lt. intros N. apply H1 in N. lia.
    + intros (A & B). apply H0 in A. split; [exact A|]. destruct (Z.le_gt_cases (find_index hi rho) i) as [Q|Q]; [|lia]. apply H1 in Q. lra.
  - assert (R0 : rd rho 0 = Some (ax_min rho)).
    { rewrite (node_at rho dr E1 0) by lia. f_equal. ring. }
    specialize (H1 0%Z _ R0). split.
    + intros N. assert (Q : (find_index hi rho <= 0)%Z) by lia. apply H1 in Q. lra.
    + intros ->. assert (Q : (find_index (ax_min rho) rho <= 0)%Z) by (apply H1; lra). lia.
  - unfold EOS_SC_find_adiabat_1d. rewrite interval_same, I.
    assert (Q1 : (find_index lo rho <? 0)%Z = false) by (apply Z.ltb_ge; lia). rewrite Q1.
    assert (Q2 : (ax_n rho - 2 <? find_index hi rho - 1)%Z = false) by (apply Z.ltb_ge; lia). rewrite Q2.
    destruct (rd_some rho (find_index lo rho)) as (x0 & X0); [exact P0|]. rewrite X0. rewrite (rd_nth rho _ _ X0).
    destruct (Z.ltb_spec (find_index hi rho - 1) 0) as [N|N].
    + unfold rd at 1. destruct (Z.ltb_spec (find_index hi rho - 1) 0); [reflexivity|lia].
    + destruct (rd_some rho (find_index hi rho - 1)) as (x1 & X1); [fold (ax_n rho); lia|]. rewrite X1, (rd_nth rho _ _ X1). reflexivity.
Qed.
Lemma outside_iff fuel s ye lo hi : adiabat_lrho_min_max rho tmp yes ent fuel s ye = Some (lo, hi) ->
  (EOS_SC_find_adiabat_1d rho tmp yes ent hm1 fuel s ye = Outside <-> hi = ax_min rho).
Proof.
  intros I. destruct (find_1d fuel s ye lo hi I) as (i0 & i1 & P0 & P1 & _ & N & ->). rewrite <- N. destruct (Z.ltb_spec i1 0) as [Q|Q]; [tauto|].
  assert (NO := nodes_inside rho tmp yes dr dt dy E1 E2 E3 T1 T2 T3 ent hm1 SH (catch_in yes ye) (catch_s ent s) fuel (Z.to_nat (i1 + 1 - i0)) i0 PInf NInf [] ltac:(lia)).
  split; [|lia]. intros H. exfalso. destruct (Z.le_gt_cases i0 (i1 + 1)) as [Z|Z].
  - apply NO; [lia|]. destruct (nodes _ _ _ _ _ _ _ _ _ _ _ _ _); congruence.
  - replace (Z.to_nat (i1 + 1 - i0)) with 0%nat in H by lia. cbn [nodes] in H. discriminate.
Qed.

(** a traced adiabat *)
Lemma traced_ok fuel s ye a : EOS_SC_find_adiabat_1d rho tmp yes ent hm1 fuel s ye = Traced a ->
  exists lo hi, adiabat_lrho_min_max rho tmp yes ent fuel s ye = Some (lo, hi) /\ ad_s a = catch_s ent s /\ ad_ye a = catch_in yes ye /\
    rd rho (ad_imin a) = Some (ad_lrho_min a) /\ rd rho (ad_imax a) = Some (ad_lrho_max a) /\
    (forall i x, rd rho i = Some x -> (ad_imin a <= i <= ad_imax a)%Z <-> lo <= x < hi) /\
    length (ad_lT a) = Z.to_nat (ad_imax a + 1 - ad_imin a) /\
    (forall q lT, nth_error (ad_lT a) q = Some lT -> exists x v h, rd rho (ad_imin a + Z.of_nat q) = Some x /\
       EOS_SC_interp rho tmp yes x lT (ad_ye a) ent = Some v /\ (near (2 * L * TABLE_TOL) v (ad_s a) \/ near (2 * TABLE_TOL * (Rabs (ad_s a) + 1)) v (ad_s a)) /\
       EOS_SC_interp rho tmp yes x lT (ad_ye a) hm1 = Some h /\ xleb (ad_hm1_min a) (Fin h) = true /\ xleb (Fin h) (ad_hm1_max a) = true) /\
    bounds_ok rho tmp yes hm1 (ad_ye a) (ad_imin a) (ad_lT a) (ad_hm1_min a) (ad_hm1_max a).
Proof.
  intros H. destruct (adiabat_lrho_min_max rho tmp yes ent fuel s ye) as [(lo, hi)|] eqn:I.
  2:{ unfold EOS_SC_find_adiabat_1d in H. rewrite interval_same, I in H. discriminate. }
  exists lo, hi. split; [reflexivity|]. destruct (find_1d fuel s ye lo hi I) as (i0 & i1 & P0 & P1 & IX & N & E). rewrite H in E. clear H.
  destruct (Z.ltb_spec i1 0) as [Q|Q]; [discriminate|].
  destruct (nodes _ _ _ _ _ _ _ _ _ _ _ _ _) as [b| | |] eqn:NB; try discriminate. injection E as ->. cbn [ad_s ad_ye ad_imin ad_imax ad_lrho_min ad_lrho_max ad_lT ad_hm1_min ad_hm1_max].
  split; [reflexivity|]. split; [reflexivity|].
  destruct (rd_some rho i0 P0) as (x0 & X0). destruct (rd_some rho i1) as (x1 & X1); [fold (ax_n rho); lia|].
  split; [rewrite X0, (rd_nth rho _ _ X0); reflexivity|]. split; [rewrite X1, (rd_nth rho _ _ X1); reflexivity|]. split; [exact IX|].
  assert (D : (i0 + Z.of_nat (Z.to_nat (i1 + 1 - i0)) <= ax_n rho - 1)%Z) by lia.
  destruct (nodes_ok rho tmp yes dr E1 ent hm1 (catch_in yes ye) (catch_s ent s) (yy ye) (ss s) fuel _ _ _ _ _ _ i0 NB) as (A1 & A2 & A3); auto; try lia; try discriminate.
  - cbn [length]. lia.
  - intros q lT C. destruct q; discriminate.
  - left. auto.
  - cbn [length] in A1. rewrite Nat.add_0_l in A1. split; [exact A1|]. split; [|exact A3].
    intros q lT QL. destruct (A2 q lT QL) as (x & g & h & X & F & V & B1 & B2). exists x.
    assert (XB : ax_min rho <= x < ax_max rho).
    { assert (QN : (q < Z.to_nat (i1 + 1 - i0))%nat) by (rewrite <- A1; apply nth_error_Some; congruence).
      rewrite (node_at rho dr E1) in X by lia. injection X as <-. pose proof (ax_max_spec rho dr E1) as MX. destruct E1 as (_ & _ & DP & _).
      assert (0 <= IZR (i0 + Z.of_nat q)) by (apply (IZR_le 0); lia). assert (IZR (i0 + Z.of_nat q) < IZR (ax_n rho - 1)) by (apply IZR_lt; lia).
      assert (0 <= IZR (i0 + Z.of_nat q) * dr) by (apply Rmult_le_pos; lra). assert (IZR (i0 + Z.of_nat q) * dr < IZR (ax_n rho - 1) * dr) by (apply Rmult_lt_compat_r; lra). lra. }
    pose proof (T2' dt T2) as T2w.
    rewrite (lT_f_value rho tmp yes dr dt dy E1 E2 E3 T1 T2w T3 ent SE x (catch_in yes ye) lT XB).
    eexists. exists h. split; [exact X|]. split; [reflexivity|]. split; [|auto].
    pose proof (catch_ye_in yes dy E3 T3 ye) as YB.
    pose proof (table_grows rho tmp yes dr dt dy E1 E2 E3 T1 T2w T3 ent SE m L RI x (catch_in yes ye) XB YB) as G.
    assert (TR : ax_min tmp < ax_max tmp - 2 * TOL) by (pose proof (ax_lt tmp dt E2); lra).
    unfold find_lT in F. unfold near. apply (found_value _ m L M G _ _ _ _ _ _ _ _ (proj1 TT_pos) TT_pos TR F).
Qed.

(** ** Fuel *)
Lemma root_ends f y xmin xmax xtol ytol g : 0 < xtol -> xmin < xmax -> exists n o, o <> Diverge /\ forall k, find_root f y xmin xmax xtol ytol (n + k) g = o.
Proof. intros A B. now apply find_ends. Qed.
Lemma tmp_room : ax_min tmp < ax_max tmp - 2 * TOL.
Proof. pose proof (ax_lt tmp dt E2). lra. Qed.
Hypothesis T12 : 2 * TOL < dr.
Lemma rho_room : ax_min rho < ax_max rho - 2 * TOL.
Proof. pose proof (ax_lt rho dr E1). lra. Qed.
Lemma nodes_end ye s : forall n i lo hi lTs, exists N o, o <> Tracing /\ forall k, nodes rho tmp yes ent hm1 (N + k) n i ye s lo hi lTs = o.
Proof.
  induction n as [|n IH]; intros i lo hi lTs; cbn [nodes].
  - exists 0%nat. eexists. split; [|intros k; reflexivity]. discriminate.
  - destruct (rd rho i) as [x|]; [|exists 0%nat, Outside; split; [discriminate|auto]].
    destruct (root_ends (lT_f rho tmp yes (catch_lrho rho x) (catch_in yes ye) ent) (catch_s ent s) (ax_min tmp) (ax_max tmp - 2 * TOL) TABLE_TOL TABLE_TOL (catch_in tmp (ax_h tmp / ax_h rho * x)) (proj1 TT_pos) tmp_room) as (N & o & NO & H).
    unfold find_adiabat_0d, find_lT. destruct o as [lT| |]; [| |congruence].
    + destruct (EOS_SC_interp rho tmp yes x lT ye hm1) as [h|] eqn:V.
      * destruct (IH (i + 1)%Z (if xltb (Fin h) lo then Fin h else lo) (if xltb hi (Fin h) then Fin h else hi) (lT :: lTs)) as (N' & o & NO' & H').
        exists (N + N')%nat, o. split; [exact NO'|]. intros k. replace (N + N' + k)%nat with (N + (N' + k))%nat by lia. rewrite H, V.
        replace (N + (N' + k))%nat with (N' + (N + k))%nat by lia. apply H'.
      * exists N, Outside. split; [discriminate|]. intros k. rewrite H, V. reflexivity.
    + exists N, Lost. split; [discriminate|]. intros k. rewrite H. reflexivity.
Qed.
Lemma interval_ends s ye : exists N lo hi, forall k, adiabat_lrho_min_max rho tmp yes ent (N + k) s ye = Some (lo, hi).
Proof.
  unfold adiabat_lrho_min_max. cbv zeta. set (g := 5 / 10 * _).
  destruct (root_ends (ent_f_adiabat rho tmp yes ent (ax_min tmp) (catch_in yes ye)) (catch_s ent s) (ax_min rho) (ax_max rho - 2 * TOL) TABLE_TOL TABLE_TOL g (proj1 TT_pos) rho_room) as (N & o & NO & H).
  destruct (root_ends (ent_f_adiabat rho tmp yes ent (ax_max tmp) (catch_in yes ye)) (catch_s ent s) (ax_min rho) (ax_max rho - 2 * TOL) TABLE_TOL TABLE_TOL g (proj1 TT_pos) rho_room) as (N' & o' & NO' & H').
  assert (A : exists l, low_of rho o = Some l) by (destruct o; [eexists; reflexivity|eexists; reflexivity|congruence]). destruct A as (l & A).
  assert (A' : exists l, high_of rho o' = Some l) by (destruct o'; [eexists; reflexivity|eexists; reflexivity|congruence]). destruct A' as (l' & A').
  exists (N + N')%nat, (catch_lrho rho l), (catch_lrho rho l'). intros k. unfold ent_root.
  replace (N + N' + k)%nat with (N + (N' + k))%nat by lia. rewrite H. replace (N + (N' + k))%nat with (N' + (N + k))%nat by lia. rewrite H', A, A'. reflexivity.
Qed.
Lemma adiabat_ends s ye : exists N o, o <> Tracing /\ forall k, EOS_SC_find_adiabat_1d rho tmp yes ent hm1 (N + k) s ye = o.
Proof.
  destruct (interval_ends s ye) as (N & lo & hi & H).
  set (i0 := if (find_index lo rho <? 0)%Z then 0%Z else find_index lo rho). set (i1 := if (ax_n rho - 2 <? find_index hi rho - 1)%Z then (ax_n rho - 2)%Z else (find_index hi rho - 1)%Z).
  destruct (nodes_end (catch_in yes ye) (catch_s ent s) (Z.to_nat (i1 + 1 - i0)) i0 PInf NInf []) as (N' & o & NO & H').
  assert (F : forall k, EOS_SC_find_adiabat_1d rho tmp yes ent hm1 (N + N' + k) s ye =
    match rd rho i0, rd rho i1 with
    | Some l, Some h => match o with Traced a => Traced (mk_adiabat (catch_s ent s) (catch_in yes ye) l h i0 i1 (ad_hm1_min a) (ad_hm1_max a) (ad_lT a)) | o => o end
    | _, _ => Outside end).
  { intros k. unfold EOS_SC_find_adiabat_1d. rewrite interval_same. rewrite <- (Nat.add_assoc N). rewrite H. fold i0 i1.
    destruct (rd rho i0); [|reflexivity]. destruct (rd rho i1); [|reflexivity]. replace (N + (N' + k))%nat with (N' + (N + k))%nat by lia. rewrite H'. now destruct o. }
  exists (N + N')%nat. eexists. split; [|exact F]. destruct (rd rho i0); [|discriminate]. destruct (rd rho i1); [|discriminate]. destruct o; try discriminate. congruence.
Qed.

(** ** Success *)
Variables (blo bhi : R).
Hypothesis LO : 0 < blo.
Hypothesis BD : Forall (fun v => blo <= v <= bhi) ent.
Hypothesis SL : L <= 50 * blo.
Hypothesis TOP : 3 * TABLE_TOL <= ax_max tmp - 2 * TOL \/ ax_max tmp - 2 * TOL <= - TABLE_TOL.
Lemma nodes_found ye s : catch_in yes ye = ye -> catch_s ent s = s -> forall n i lo hi lTs, (0 <= i)%Z -> (i + Z.of_nat n <= ax_n rho - 1)%Z ->
  (forall j x, (i <= j < i + Z.of_nat n)%Z -> rd rho j = Some x -> exists a b, EOS_SC_interp rho tmp yes x (ax_min tmp) ye ent = Some a /\ EOS_SC_interp rho tmp yes x (ax_max tmp) ye ent = Some b /\ a <= s < b) ->
  exists N a, forall k, nodes rho tmp yes ent hm1 (N + k) n i ye s lo hi lTs = Traced a.
Proof.
  intros YE SS. induction n as [|n IH]; intros i lo hi lTs P0 PN BR; cbn [nodes].
  - exists 0%nat. eexists. intros k. reflexivity.
  - assert (IB : (0 <= i < ax_n rho)%Z) by lia. pose proof (node_at rho dr E1 i IB) as X. rewrite X. set (x := ax_min rho + IZR i * dr) in *.
    assert (XB : ax_min rho <= x < ax_max rho).
    { unfold x. pose proof (ax_max_spec rho dr E1) as MX. destruct E1 as (_ & _ & DP & _). assert (0 <= IZR i) by (apply (IZR_le 0); lia). assert (IZR i < IZR (ax_n rho - 1)) by (apply IZR_lt; lia).
      assert (0 <= IZR i * dr) by (apply Rmult_le_pos; lra). assert (IZR i * dr < IZR (ax_n rho - 1) * dr) by (apply Rmult_lt_compat_r; lra). lra. }
    assert (XC : catch_lrho rho x = x) by (unfold catch_lrho; destruct (Rltb_spec x (ax_min rho)); [lra|]; destruct (Rltb_spec (ax_max rho) x); [lra|reflexivity]).
    pose proof (T2' dt T2) as T2w.
    destruct (BR i x ltac:(lia) X) as (a & b & A & B & AB).
    rewrite (lT_f_value rho tmp yes dr dt dy E1 E2 E3 T1 T2w T3 ent SE x ye _ XB) in A. rewrite (lT_f_value rho tmp yes dr dt dy E1 E2 E3 T1 T2w T3 ent SE x ye _ XB) in B. injection A as A. injection B as B.
    assert (YB : ax_min yes <= ye < ax_max yes) by (rewrite <- YE; now apply (catch_ye_in yes dy)).
    destruct (find_lT_ok rho tmp yes dr dt dy E1 E2 E3 T1 T2w T3 ent SE m L M RI blo bhi LO BD SL T2 TOP x ye s XB YB ltac:(lra) ltac:(lra) (catch_in tmp (ax_h tmp / ax_h rho * x))) as (N & lT & F & _).
    unfold find_adiabat_0d. rewrite XC, YE, SS.
    destruct (interp_defined rho tmp yes dr dt dy E1 E2 E3 T1 T2w T3 hm1 x lT ye SH ltac:(lra)) as (h & HH).
    destruct (IH (i + 1)%Z (if xltb (Fin h) lo then Fin h else lo) (if xltb hi (Fin h) then Fin h else hi) (lT :: lTs)) as (N' & t & H'); try lia.
    { intros j y J. apply BR. lia. }
    exists (N + N')%nat, t. intros k. replace (N + N' + k)%nat with (N + (N' + k))%nat by lia. rewrite F, HH. replace (N + (N' + k))%nat with (N' + (N + k))%nat by lia. apply H'.
Qed.
(** if the entropy lies between the coldest and the hottest at every node of the interval *)
Lemma adiabat_found N lo hi s ye : (forall k, adiabat_lrho_min_max rho tmp yes ent (N + k) s ye = Some (lo, hi)) -> ax_min rho < hi ->
  (forall i x, rd rho i = Some x -> lo <= x < hi -> exists a b, EOS_SC_interp rho tmp yes x (ax_min tmp) (catch_in yes ye) ent = Some a /\
     EOS_SC_interp rho tmp yes x (ax_max tmp) (catch_in yes ye) ent = Some b /\ a <= catch_s ent s < b) ->
  exists n a, forall k, EOS_SC_find_adiabat_1d rho tmp yes ent hm1 (n + k) s ye = Traced a.
Proof.
  intros I HM BR.
  assert (K : exists i0 i1, (0 <= i0 < ax_n rho)%Z /\ (0 <= i1 <= ax_n rho - 2)%Z /\ (forall i x, rd rho i = Some x -> (i0 <= i <= i1)%Z <-> lo <= x < hi) /\
    forall k, EOS_SC_find_adiabat_1d rho tmp yes ent hm1 (N + k) s ye =
      match nodes rho tmp yes ent hm1 (N + k) (Z.to_nat (i1 + 1 - i0)) i0 (catch_in yes ye) (catch_s ent s) PInf NInf [] with
      | Traced a => Traced (mk_adiabat (catch_s ent s) (catch_in yes ye) (nth (Z.to_nat i0) rho 0) (nth (Z.to_nat i1) rho 0) i0 i1 (ad_hm1_min a) (ad_hm1_max a) (ad_lT a))
      | o => o
      end).
  { destruct (interval_in rho tmp yes dr E1 T1 ent _ s ye lo hi (I 0%nat)) as (BL & BH).
    destruct (index_of rho dr E1 lo BL) as (P0 & H0). destruct (index_of rho dr E1 hi BH) as (P1 & H1).
    assert (PH : (0 < find_index hi rho)%Z).
    { assert (R0 : rd rho 0 = Some (ax_min rho)) by (rewrite (node_at rho dr E1 0) by lia; f_equal; ring). specialize (H1 0%Z _ R0).
      destruct (Z.le_gt_cases (find_index hi rho) 0) as [Q|Q]; [|exact Q]. apply H1 in Q. lra. }
    exists (find_index lo rho), (find_index hi rho - 1)%Z. split; [exact P0|]. split; [lia|]. split.
    - intros i x R. specialize (H0 i x R). specialize (H1 i x R). split.
      + intros (A & B). apply H0 in A. split; [exact A|]. apply Rnot_le_lt. intros Z. apply H1 in Z. lia.
      + intros (A & B). apply H0 in A. split; [exact A|]. destruct (Z.le_gt_cases (find_index hi rho) i) as [Q|Q]; [|lia]. apply H1 in Q. lra.
    - intros k. unfold EOS_SC_find_adiabat_1d. rewrite interval_same, I.
      assert (Q1 : (find_index lo rho <? 0)%Z = false) by (apply Z.ltb_ge; lia). rewrite Q1.
      assert (Q2 : (ax_n rho - 2 <? find_index hi rho - 1)%Z = false) by (apply Z.ltb_ge; lia). rewrite Q2.
      destruct (rd_some rho (find_index lo rho)) as (x0 & X0); [exact P0|]. rewrite X0. rewrite (rd_nth rho _ _ X0).
      destruct (rd_some rho (find_index hi rho - 1)) as (x1 & X1); [fold (ax_n rho); lia|]. rewrite X1, (rd_nth rho _ _ X1). reflexivity. }
  destruct K as (i0 & i1 & P0 & P1 & IX & E).
  assert (F : exists N' a, forall k, nodes rho tmp yes ent hm1 (N' + k) (Z.to_nat (i1 + 1 - i0)) i0 (catch_in yes ye) (catch_s ent s) PInf NInf [] = Traced a).
  { destruct (Z.le_gt_cases i0 (i1 + 1)) as [Q|Q].
    - apply nodes_found; [apply yy|apply ss|lia|lia|]. intros j x J X. apply (BR j x X). apply (IX j x X). lia.
    - replace (Z.to_nat (i1 + 1 - i0)) with 0%nat by lia. exists 0%nat. eexists. intros k. reflexivity. }
  destruct F as (N' & a & F). exists (N + N')%nat. eexists. intros k. rewrite <- Nat.add_assoc, E. replace (N + (N' + k))%nat with (N' + (N + k))%nat by lia. rewrite F. reflexivity.
Qed.
End Tables.
