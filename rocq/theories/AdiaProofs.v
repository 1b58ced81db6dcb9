(** Proofs about adiabats and polytropes. *)
From Coq Require Import Reals Bool ZArith List Lia Lra.
From Verif Require Import RLib XLib IntLib TabModel TabSpec TabProofs RootModel RootSpec RootProofs InvModel InvSpec InvProofs AdiaModel AdiaSpec AdiaFilt.
Import ListNotations.
Open Scope R_scope.

(** ** More on the filter *)
Lemma filter_spec n1 n2 n3 tab : Z.of_nat (length tab) = (n1 * n2 * n3)%Z ->
  exists out, smooth n1 n2 n3 tab = Some out /\ length out = length tab /\
  forall i j k, (0 <= i < n1)%Z -> (0 <= j < n2)%Z -> (0 <= k < n3)%Z ->
    let v := entry n1 n2 tab i j k in let w := entry n1 n2 out i j k in
    (inner n1 n2 n3 i j k -> exists m, middle m (around n1 n2 tab i j k) /\ smoothed v m w) /\ (~ inner n1 n2 n3 i j k -> w = v).
Proof.
  intros SZ. destruct (filter_ok n1 n2 n3 tab SZ) as (out & O & L & H). exists out. split; [exact O|]. split; [exact L|].
  intros i j k A B C. destruct (H i j k (conj A (conj B C))) as (P & Q). cbv zeta. split.
  - intros I. destruct (P I) as (w & m & R & M & S). exists m. split; [exact M|]. unfold entry at 2. apply rd_nth in R. unfold ELEM in R. now rewrite R.
  - intros N. specialize (Q N). apply rd_nth in Q. exact Q.
Qed.
Lemma cover n1 n2 n3 e : (0 < n1)%Z -> (0 < n2)%Z -> (0 <= e < n1 * n2 * n3)%Z -> exists i j k, (0 <= i < n1)%Z /\ (0 <= j < n2)%Z /\ (0 <= k < n3)%Z /\ e = (n1 * (k * n2 + j) + i)%Z.
Proof.
  intros P1 P2 E. exists (e mod n1)%Z, ((e / n1) mod n2)%Z, (e / n1 / n2)%Z.
  split; [apply Z.mod_pos_bound; lia|]. split; [apply Z.mod_pos_bound; lia|]. split.
  - rewrite Z.div_div by lia. split; [apply Z.div_pos; nia|]. apply Z.div_lt_upper_bound; nia.
  - rewrite (Z.mul_comm (e / n1 / n2) n2), <- Z.div_mod by lia. apply Z.div_mod. lia.
Qed.
Lemma around_in n1 n2 n3 tab i j k m : Z.of_nat (length tab) = (n1 * n2 * n3)%Z -> inner n1 n2 n3 i j k -> In m (around n1 n2 tab i j k) -> In m tab.
Proof.
  intros SZ I H. unfold around in H. apply in_flat_map in H. destruct H as (c & C & H). apply in_flat_map in H. destruct H as (b & B & H). apply in_map_iff in H. destruct H as (a & <- & A).
  assert (ST : forall s, In s steps -> (-3 <= s <= 3)%Z) by (unfold steps; cbn; intros s H; intuition lia).
  apply ST in A. apply ST in B. apply ST in C. unfold inner in I.
  assert (W : within n1 n2 n3 (i + a) (j + b) (k + c)) by (unfold within; lia).
  apply (entry_rd n1 n2 n3 tab SZ) in W. unfold rd in W. destruct (_ <? 0)%Z; [discriminate|]. now apply nth_error_In in W.
Qed.
Lemma filter_bounds n1 n2 n3 tab lo hi : (0 < n1)%Z -> (0 < n2)%Z -> Z.of_nat (length tab) = (n1 * n2 * n3)%Z -> Forall (fun v => lo <= v <= hi) tab ->
  exists out, smooth n1 n2 n3 tab = Some out /\ Forall (fun v => lo <= v <= hi) out.
Proof.
  intros P1 P2 SZ F. destruct (filter_spec n1 n2 n3 tab SZ) as (out & O & L & H). exists out. split; [exact O|].
  apply Forall_forall. intros w W. apply (In_nth _ _ 0) in W. destruct W as (e & E & <-).
  destruct (cover n1 n2 n3 (Z.of_nat e) P1 P2 ltac:(lia)) as (i & j & k & I & J & K & EE).
  destruct (H i j k I J K) as (A & B). cbv zeta in A, B. unfold entry at 2 in A. unfold entry at 1 in B. rewrite <- EE, Nat2Z.id in A, B.
  assert (V : lo <= entry n1 n2 tab i j k <= hi).
  { apply (proj1 (Forall_forall _ _) F). unfold entry. rewrite <- EE, Nat2Z.id. apply nth_In. lia. }
  assert (D : inner n1 n2 n3 i j k \/ ~ inner n1 n2 n3 i j k) by (unfold inner; lia). destruct D as [D|D].
  - destruct (A D) as (m & (M & _) & S). destruct S as [(_ & ->)|(_ & ->)]; [|exact V].
    apply (proj1 (Forall_forall _ _) F). now apply (around_in n1 n2 n3 tab i j k).
  - now rewrite (B D).
Qed.
Lemma filter_spike n1 n2 n3 tab c i j k : Z.of_nat (length tab) = (n1 * n2 * n3)%Z -> inner n1 n2 n3 i j k ->
  (2 * other c (around n1 n2 tab i j k) < 343)%nat -> 10 * Rabs c < Rabs (c - entry n1 n2 tab i j k) ->
  exists out, smooth n1 n2 n3 tab = Some out /\ entry n1 n2 out i j k = c.
Proof.
  intros SZ I CN SP. destruct (filter_spec n1 n2 n3 tab SZ) as (out & O & L & H). exists out. split; [exact O|]. pose proof I as (A & B & C).
  destruct (H i j k ltac:(lia) ltac:(lia) ltac:(lia)) as (P & _). destruct (P I) as (m & M & S). rewrite (middle_unique m _ c M CN) in S.
  destruct S as [(_ & ->)|(Q & _)]; [reflexivity|lra].
Qed.

(** ** Adiabats *)
Section Tables.
Variables (rho tmp yes : axis) (dr dt dy : R).
Hypothesis E1 : even rho dr.
Hypothesis E2 : even tmp dt.
Hypothesis E3 : even yes dy.
Hypothesis T1 : TOL < dr.
Hypothesis T2 : 2 * TOL < dt.
Hypothesis T3 : TOL < dy.
Variables (ent hm1 : list R).
Hypothesis SE : length ent = (length rho * length tmp * length yes)%nat.
Hypothesis SH : length hm1 = (length rho * length tmp * length yes)%nat.
Lemma T2' : TOL < dt. Proof. pose proof TOL_pos. lra. Qed.
Lemma catch_lrho_in x : ax_min rho <= catch_lrho rho x <= ax_max rho.
Proof. unfold catch_lrho. pose proof (ax_lt rho dr E1). pose proof TOL_pos. destruct (Rltb_spec x (ax_min rho)); [lra|]. destruct (Rltb_spec (ax_max rho) x); lra. Qed.
Lemma catch_ye_in ye : ax_min yes <= catch_in yes ye < ax_max yes.
Proof. unfold catch_in. pose proof (ax_lt yes dy E3). pose proof TOL_pos. destruct (Rltb_spec ye (ax_min yes)); [lra|]. destruct (Rleb_spec (ax_max yes) ye); lra. Qed.
Lemma catch_ye_twice ye : catch_in yes (catch_in yes ye) = catch_in yes ye.
Proof. pose proof (catch_ye_in ye). unfold catch_in at 1. destruct (Rltb_spec (catch_in yes ye) (ax_min yes)); [lra|]. destruct (Rleb_spec (ax_max yes) (catch_in yes ye)); [lra|reflexivity]. Qed.
Lemma interval_in fuel s ye lo hi : adiabat_lrho_min_max rho tmp yes ent fuel s ye = Some (lo, hi) -> ax_min rho <= lo <= ax_max rho /\ ax_min rho <= hi <= ax_max rho.
Proof.
  unfold adiabat_lrho_min_max. cbv zeta. destruct (low_of _ _) as [l|]; [|discriminate]. destruct (high_of _ _) as [h|]; [|discriminate].
  intros H. injection H as <- <-. split; apply catch_lrho_in.
Qed.
Lemma node_at i : (0 <= i < ax_n rho)%Z -> rd rho i = Some (ax_min rho + IZR i * dr).
Proof. intros I. destruct E1 as (_ & _ & _ & U). rewrite (U i I), Z.sub_0_r. reflexivity. Qed.
Lemma index_of x : ax_min rho <= x <= ax_max rho -> let z := find_index x rho in
  (0 <= z < ax_n rho)%Z /\ forall i r, rd rho i = Some r -> (z <= i)%Z <-> x <= r.
Proof.
  clear SE SH. intros B. cbv zeta. destruct (find_spec x rho) as [(E & F)|(a & Z & Ra & La & H)].
  - exfalso. pose proof (ax_max_spec rho dr E1) as M. destruct E1 as (L & _ & _). assert (N : (0 <= ax_n rho - 1 < ax_n rho)%Z) by (unfold ax_n; lia). apply node_at in N.
    rewrite <- M in N. unfold rd in N. destruct (_ <? 0)%Z; [discriminate|]. apply nth_error_In in N. apply (proj1 (Forall_forall _ _) F) in N. lra.
  - split; [exact Z|]. intros i r R. pose proof (rd_in _ _ _ R) as IB. destruct E1 as (_ & _ & D & _). split.
    + intros LE. rewrite node_at in R by exact IB. rewrite node_at in Ra by exact Z. injection R as <-. injection Ra as <-.
      apply IZR_le in LE. assert (IZR (find_index x rho) * dr <= IZR i * dr) by (apply Rmult_le_compat_r; lra). lra.
    + intros LE. destruct (Z.lt_ge_cases i (find_index x rho)) as [LT|]; [|auto]. exfalso. specialize (H i r ltac:(lia) R). lra.
Qed.
Lemma catch_s_twice s : find_min ent <= find_max ent - TOL -> catch_s ent (catch_s ent s) = catch_s ent s.
Proof. intros B. pose proof TOL_pos. unfold catch_s. destruct (Rltb_spec s (find_min ent)).
  - destruct (Rltb_spec (find_min ent) (find_min ent)); [lra|]. destruct (Rleb_spec (find_max ent) (find_min ent)); [lra|reflexivity].
  - destruct (Rleb_spec (find_max ent) s).
    + destruct (Rltb_spec (find_max ent - TOL) (find_min ent)); [lra|]. destruct (Rleb_spec (find_max ent) (find_max ent - TOL)); [lra|reflexivity].
    + destruct (Rltb_spec s (find_min ent)); [lra|]. destruct (Rleb_spec (find_max ent) s); [lra|reflexivity].
Qed.

(** the loop over the nodes *)
Definition node_ok (fuel : nat) (ye s : R) (i : Z) (lT : R) (lo hi : X) : Prop :=
  exists x guess h, rd rho i = Some x /\ find_lT rho tmp yes fuel x guess ye ent s = Success lT /\
    EOS_SC_interp rho tmp yes x lT ye hm1 = Some h /\ xleb lo (Fin h) = true /\ xleb (Fin h) hi = true.
Definition bounds_ok (ye : R) (i0 : Z) (lTs : list R) (lo hi : X) : Prop :=
  (lTs = [] /\ lo = PInf /\ hi = NInf) \/
  (exists i x lT, nth_error lTs i = Some lT /\ rd rho (i0 + Z.of_nat i) = Some x /\ exists h, EOS_SC_interp rho tmp yes x lT ye hm1 = Some h /\ lo = Fin h) /\
  (exists i x lT, nth_error lTs i = Some lT /\ rd rho (i0 + Z.of_nat i) = Some x /\ exists h, EOS_SC_interp rho tmp yes x lT ye hm1 = Some h /\ hi = Fin h).
Lemma lo_step h lo : exists l, (if xltb (Fin h) lo then Fin h else lo) = l /\ (lo <> NaN -> l <> NaN /\ xleb l (Fin h) = true /\ (l = Fin h \/ l = lo)) /\ forall g, xleb lo (Fin g) = true -> xleb l (Fin g) = true.
Proof.
  eexists. split; [reflexivity|]. destruct lo as [a| | |]; cbn [xltb].
  - destruct (Rltb_spec h a); cbn [xleb]; (split; [intros _; split; [discriminate|]; split; [|auto]|intros g]).
    + destruct (Rleb_spec h h); [reflexivity|lra].
    + destruct (Rleb_spec a g); [|discriminate]. destruct (Rleb_spec h g); [reflexivity|lra].
    + destruct (Rleb_spec a h); [reflexivity|lra].
    + auto.
  - cbn [xleb]. split; [intros _; split; [discriminate|]; split; [|auto]|discriminate]. destruct (Rleb_spec h h); [reflexivity|lra].
  - cbn [xleb]. split; [intros _; split; [discriminate|]; split; auto|auto].
  - split; [congruence|discriminate].
Qed.
Lemma hi_step h hi : exists l, (if xltb hi (Fin h) then Fin h else hi) = l /\ (hi <> NaN -> l <> NaN /\ xleb (Fin h) l = true /\ (l = Fin h \/ l = hi)) /\ forall g, xleb (Fin g) hi = true -> xleb (Fin g) l = true.
Proof.
  eexists. split; [reflexivity|]. destruct hi as [a| | |]; cbn [xltb].
  - destruct (Rltb_spec a h); cbn [xleb]; (split; [intros _; split; [discriminate|]; split; [|auto]|intros g]).
    + destruct (Rleb_spec h h); [reflexivity|lra].
    + destruct (Rleb_spec g a); [|discriminate]. destruct (Rleb_spec g h); [reflexivity|lra].
    + destruct (Rleb_spec h a); [reflexivity|lra].
    + auto.
  - cbn [xleb]. split; [intros _; split; [discriminate|]; split; auto|auto].
  - cbn [xleb]. split; [intros _; split; [discriminate|]; split; [|auto]|discriminate]. destruct (Rleb_spec h h); [reflexivity|lra].
  - split; [congruence|discriminate].
Qed.
Variables (ye s : R).
Hypothesis YE : catch_in yes ye = ye.
Hypothesis SS : catch_s ent s = s.
Lemma nodes_ok fuel : forall n i lo hi lTs a i0, nodes rho tmp yes ent hm1 fuel n i ye s lo hi lTs = Traced a -> (i0 + Z.of_nat (length lTs))%Z = i ->
  (0 <= i0)%Z -> (i + Z.of_nat n <= ax_n rho - 1)%Z -> lo <> NaN -> hi <> NaN ->
  (forall q lT, nth_error (rev lTs) q = Some lT -> node_ok fuel ye s (i0 + Z.of_nat q) lT lo hi) -> bounds_ok ye i0 (rev lTs) lo hi ->
  length (ad_lT a) = (length lTs + n)%nat /\ (forall q lT, nth_error (ad_lT a) q = Some lT -> node_ok fuel ye s (i0 + Z.of_nat q) lT (ad_hm1_min a) (ad_hm1_max a)) /\
  bounds_ok ye i0 (ad_lT a) (ad_hm1_min a) (ad_hm1_max a).
Proof.
  clear SE SH. induction n as [|n IH]; intros i lo hi lTs a i0 H EI P0 PN NL NH N B; cbn [nodes] in H.
  - injection H as <-. cbn [ad_lT ad_hm1_min ad_hm1_max]. rewrite rev_length. split; [lia|]. auto.
  - destruct (rd rho i) as [x|] eqn:R; [|discriminate].
    destruct (find_adiabat_0d rho tmp yes ent fuel x (ax_h tmp / ax_h rho * x) ye s) as [lT| |] eqn:F; try discriminate.
    destruct (EOS_SC_interp rho tmp yes x lT ye hm1) as [h|] eqn:V; [|discriminate].
    destruct (lo_step h lo) as (lo' & EL & L1 & L2). destruct (hi_step h hi) as (hi' & EH & H1 & H2). rewrite EL, EH in H.
    destruct (L1 NL) as (NL' & L3 & L4). destruct (H1 NH) as (NH' & H3 & H4).
    assert (XC : catch_lrho rho x = x).
    { assert (IB : (0 <= i < ax_n rho)%Z) by lia. pose proof (node_at i IB) as E. rewrite R in E. injection E as E. destruct E1 as (_ & _ & D & _). pose proof (ax_max_spec rho dr E1) as M.
      unfold catch_lrho. assert (0 <= IZR i) by (apply (IZR_le 0); lia). assert (0 <= IZR i * dr) by (apply Rmult_le_pos; lra).
      assert (IZR i <= IZR (ax_n rho - 1)) by (apply IZR_le; lia). assert (IZR i * dr <= IZR (ax_n rho - 1) * dr) by (apply Rmult_le_compat_r; lra).
      destruct (Rltb_spec x (ax_min rho)); [lra|]. destruct (Rltb_spec (ax_max rho) x); [lra|reflexivity]. }
    unfold find_adiabat_0d in F. rewrite XC, YE, SS in F.
    destruct (IH (i + 1)%Z lo' hi' (lT :: lTs) a i0 H) as (A1 & A2 & A3); auto; try (cbn [length]; lia).
    + intros q t Q. cbn [rev] in Q. destruct (Nat.lt_ge_cases q (length (rev lTs))) as [LT|GE].
      * rewrite nth_error_app1 in Q by exact LT. destruct (N q t Q) as (x' & g' & h' & C1 & C2 & C3 & C4 & C5). exists x', g', h'. auto 10.
      * rewrite nth_error_app2 in Q by exact GE. destruct (q - length (rev lTs))%nat as [|z] eqn:QZ; [|cbn in Q; destruct z; discriminate].
        cbn in Q. injection Q as <-. exists x, (catch_in tmp (ax_h tmp / ax_h rho * x)), h. rewrite rev_length in *. replace (i0 + Z.of_nat q)%Z with i by lia. auto 10.
    + right. assert (W : nth_error (rev (lT :: lTs)) (length lTs) = Some lT) by (cbn [rev]; rewrite nth_error_app2 by (rewrite rev_length; lia); rewrite rev_length, Nat.sub_diag; reflexivity).
      assert (W' : forall q t, nth_error (rev lTs) q = Some t -> nth_error (rev (lT :: lTs)) q = Some t).
      { intros q t Q. cbn [rev]. rewrite nth_error_app1; [exact Q|]. apply nth_error_Some. congruence. }
      assert (NEW : forall l, l = Fin h -> exists q x0 t, nth_error (rev (lT :: lTs)) q = Some t /\ rd rho (i0 + Z.of_nat q) = Some x0 /\ exists h', EOS_SC_interp rho tmp yes x0 t ye hm1 = Some h' /\ l = Fin h').
      { intros l ->. exists (length lTs), x, lT. split; [exact W|]. rewrite EI. split; [exact R|]. exists h. auto. }
      split.
      * destruct L4 as [L4|L4]; [now apply NEW|]. destruct B as [(B1 & B2 & B3)|((q & x' & t & Q1 & Q2 & Q3) & _)].
        -- rewrite L4, B2 in L3. discriminate.
        -- exists q, x', t. rewrite L4. split; [auto|]. split; [exact Q2|exact Q3].
      * destruct H4 as [H4|H4]; [now apply NEW|]. destruct B as [(B1 & B2 & B3)|(_ & (q & x' & t & Q1 & Q2 & Q3))].
        -- rewrite H4, B3 in H3. discriminate.
        -- exists q, x', t. rewrite H4. split; [auto|]. split; [exact Q2|exact Q3].
    + cbn [length] in A1. split; [lia|]. auto.
Qed.
Lemma nodes_inside fuel : forall n i lo hi lTs, (0 <= i)%Z -> (i + Z.of_nat n <= ax_n rho - 1)%Z -> nodes rho tmp yes ent hm1 fuel n i ye s lo hi lTs <> Outside.
Proof.
  clear SE YE SS. induction n as [|n IH]; intros i lo hi lTs P0 PN; cbn [nodes]; [discriminate|].
  assert (IB : (0 <= i < ax_n rho)%Z) by lia. rewrite (node_at i IB). set (x := ax_min rho + IZR i * dr).
  destruct (find_adiabat_0d _ _ _ _ _ _ _ _ _) as [lT| |]; try discriminate.
  assert (NX : x <> ax_max rho).
  { unfold x. pose proof (ax_max_spec rho dr E1) as M. destruct E1 as (_ & _ & D & _). assert (IZR i < IZR (ax_n rho - 1)) by (apply IZR_lt; lia).
    assert (IZR i * dr < IZR (ax_n rho - 1) * dr) by (apply Rmult_lt_compat_r; lra). lra. }
  destruct (interp_defined rho tmp yes dr dt dy E1 E2 E3 T1 T2' T3 hm1 x lT ye SH NX) as (h & ->). apply IH; lia.
Qed.
End Tables.
