(** Proofs about the cooling times. *)
From Coq Require Import Reals Bool List Lra.
From Verif Require Import RLib XLib TimeModel TimeProofs CoolModel.
Import ListNotations.
Open Scope R_scope.

Lemma zone_time c u J : 0 < T_unit c ->
  exists d, get_dt_cool_rad_zone c u (Fin J) = Fin d /\ 0 < d /\ d * T_unit c * (Rabs J + SMALL) = Rabs (u * U_unit c) + SMALL.
Proof.
  intros T. pose proof SMALL_pos as S. pose proof (Rabs_pos J) as AJ. pose proof (Rabs_pos (u * U_unit c)) as AU.
  unfold get_dt_cool_rad_zone. cbn [xabs xadd]. rewrite xdiv_fin by lra. rewrite xdiv_fin by lra.
  eexists. split; [reflexivity|]. split; [|field; lra].
  apply Rmult_lt_0_compat; [apply Rmult_lt_0_compat; [lra|apply Rinv_0_lt_compat; lra]|now apply Rinv_0_lt_compat].
Qed.
Lemma zone_inf c u J : 0 < T_unit c -> J = PInf \/ J = NInf -> get_dt_cool_rad_zone c u J = Fin 0.
Proof.
  intros T [-> | ->]; unfold get_dt_cool_rad_zone; cbn [xabs xadd]; cbn [xdiv]; destruct (Reqb_spec (T_unit c) 0); try lra; f_equal; unfold Rdiv; ring.
Qed.
Lemma zone_nan c u : get_dt_cool_rad_zone c u NaN = NaN.
Proof. reflexivity. Qed.
(** a zone that has an emissivity has a time that is not negative *)
Lemma zone_fin c u J : 0 < T_unit c -> J <> NaN -> exists d, get_dt_cool_rad_zone c u J = Fin d /\ 0 <= d.
Proof.
  intros T N. destruct J as [J| | |]; try congruence.
  - destruct (zone_time c u J T) as (d & E & D & _). exists d. split; [exact E|lra].
  - exists 0. split; [apply zone_inf; auto|lra].
  - exists 0. split; [apply zone_inf; auto|lra].
Qed.

(** what a zone counts for *)
Definition counted (c : cfg) (z : zone) (d : R) : Prop := emits c z = true /\ get_dt_cool_rad_zone c (uu z) (emiss z) = Fin d.
(** m is the least of what the zones of l count for, or infinite if there are none *)
Definition least (c : cfg) (l : list zone) (m : X) : Prop :=
  match m with
  | Fin d => (exists z, In z l /\ counted c z d) /\ forall z e, In z l -> counted c z e -> d <= e
  | PInf => forall z e, In z l -> ~ counted c z e
  | _ => False
  end.
Lemma skip_zone c z zs m : emits c z = false -> min_zones c (z :: zs) m = min_zones c zs m.
Proof.
  unfold emits. cbn [min_zones]. destruct (Rltb (x1 z) (startx_rad c) || Rltb (stopx_rad c) (x1 z)); [reflexivity|].
  destruct (table c && (Rltb (rho z) (rho_thresh c) || Rltb (uu z) SMALL)); [reflexivity|].
  destruct (table c && mks c && Rltb (atm z) ATM_THRESH); [reflexivity|discriminate].
Qed.
Lemma take_zone c z zs m : emits c z = true -> min_zones c (z :: zs) m =
  min_zones c zs (if xltb (get_dt_cool_rad_zone c (uu z) (emiss z)) m then get_dt_cool_rad_zone c (uu z) (emiss z) else m).
Proof.
  unfold emits. cbn [min_zones]. destruct (Rltb (x1 z) (startx_rad c) || Rltb (stopx_rad c) (x1 z)); [discriminate|].
  destruct (table c && (Rltb (rho z) (rho_thresh c) || Rltb (uu z) SMALL)); [discriminate|].
  destruct (table c && mks c && Rltb (atm z) ATM_THRESH); [discriminate|reflexivity].
Qed.
Lemma zone_kind c z : 0 < T_unit c -> (exists d, get_dt_cool_rad_zone c (uu z) (emiss z) = Fin d) \/ get_dt_cool_rad_zone c (uu z) (emiss z) = NaN.
Proof.
  intros T. destruct (emiss z) as [J| | |] eqn:E.
  - left. destruct (zone_time c (uu z) J T) as (d & D & _). eauto.
  - left. exists 0. apply zone_inf; auto.
  - left. exists 0. apply zone_inf; auto.
  - right. apply zone_nan.
Qed.
Lemma least_grow c : 0 < T_unit c -> forall zs done m, least c done m -> least c (done ++ zs) (min_zones c zs m).
Proof.
  intros T. induction zs as [|z zs IH]; intros done m L; [now rewrite app_nil_r|].
  replace (done ++ z :: zs)%list with ((done ++ [z]) ++ zs)%list by (rewrite <- app_assoc; reflexivity).
  destruct (emits c z) eqn:EM.
  - rewrite take_zone by auto. apply IH. destruct (zone_kind c z T) as [(d & D)|D].
    + rewrite D. assert (CZ : counted c z d) by (split; auto). assert (UZ : forall e, counted c z e -> e = d) by (intros e (_ & E); congruence).
      destruct m as [m| | |]; cbn [xltb]; cbn [least] in L; try contradiction.
      * destruct L as ((w & W1 & W2) & B). destruct (Rltb_spec d m) as [H|H]; cbn [least].
        -- split; [exists z; split; [apply in_or_app; right; now left|exact CZ]|]. intros y e Y C. apply in_app_or in Y as [Y|[<-|[]]]; [specialize (B y e Y C); lra|rewrite (UZ e C); lra].
        -- split; [exists w; split; [apply in_or_app; now left|exact W2]|]. intros y e Y C. apply in_app_or in Y as [Y|[<-|[]]]; [now apply (B y)|rewrite (UZ e C); lra].
      * cbn [least]. split; [exists z; split; [apply in_or_app; right; now left|exact CZ]|].
        intros y e Y C. apply in_app_or in Y as [Y|[<-|[]]]; [destruct (L y e Y C)|rewrite (UZ e C); lra].
    + rewrite D. cbn [xltb]. assert (NZ : forall e, ~ counted c z e) by (intros e (_ & E); congruence).
      destruct m as [m| | |]; cbn [least] in L |- *; try contradiction.
      * destruct L as ((w & W1 & W2) & B). split; [exists w; split; [apply in_or_app; now left|exact W2]|].
        intros y e Y C. apply in_app_or in Y as [Y|[<-|[]]]; [now apply (B y)|destruct (NZ e C)].
      * intros y e Y C. apply in_app_or in Y as [Y|[<-|[]]]; [exact (L y e Y C)|exact (NZ e C)].
  - rewrite skip_zone by auto. apply IH. assert (NZ : forall e, ~ counted c z e) by (intros e (E & _); congruence).
    destruct m as [m| | |]; cbn [least] in L |- *; try contradiction.
    + destruct L as ((w & W1 & W2) & B). split; [exists w; split; [apply in_or_app; now left|exact W2]|].
      intros y e Y C. apply in_app_or in Y as [Y|[<-|[]]]; [now apply (B y)|destruct (NZ e C)].
    + intros y e Y C. apply in_app_or in Y as [Y|[<-|[]]]; [exact (L y e Y C)|exact (NZ e C)].
Qed.
Lemma least_both c a b m n : least c a m -> least c b n -> least c (a ++ b) (xmin m n).
Proof.
  intros A B. unfold xmin. destruct m as [m| | |], n as [n| | |]; cbn [least] in A, B; try contradiction; cbn [xltb].
  - destruct A as ((w & W1 & W2) & A), B as ((v & V1 & V2) & B). destruct (Rltb_spec m n) as [H|H]; cbn [least].
    + split; [exists w; split; [apply in_or_app; now left|exact W2]|]. intros y e Y C. apply in_app_or in Y as [Y|Y]; [now apply (A y)|specialize (B y e Y C); lra].
    + split; [exists v; split; [apply in_or_app; now right|exact V2]|]. intros y e Y C. apply in_app_or in Y as [Y|Y]; [specialize (A y e Y C); lra|now apply (B y)].
  - destruct A as ((w & W1 & W2) & A). cbn [least]. split; [exists w; split; [apply in_or_app; now left|exact W2]|].
    intros y e Y C. apply in_app_or in Y as [Y|Y]; [now apply (A y)|destruct (B y e Y C)].
  - destruct B as ((w & W1 & W2) & B). cbn [least]. split; [exists w; split; [apply in_or_app; now right|exact W2]|].
    intros y e Y C. apply in_app_or in Y as [Y|Y]; [destruct (A y e Y C)|now apply (B y)].
  - cbn [least]. intros y e Y C. apply in_app_or in Y as [Y|Y]; [exact (A y e Y C)|exact (B y e Y C)].
Qed.
Lemma min_least c procs : 0 < T_unit c -> least c (concat procs) (get_min_dt_cool c procs).
Proof.
  intros T. induction procs as [|zs procs IH]; cbn [concat get_min_dt_cool fold_right]; [intros z e []|].
  apply least_both; [|exact IH]. apply (least_grow c T zs [] PInf). intros z e [].
Qed.
Lemma min_ok c procs : 0 < T_unit c ->
  (get_min_dt_cool c procs = PInf /\ forall z, In z (concat procs) -> emits c z = true -> emiss z = NaN) \/
  (exists z d, In z (concat procs) /\ emits c z = true /\ get_dt_cool_rad_zone c (uu z) (emiss z) = Fin d /\ get_min_dt_cool c procs = Fin d /\ 0 <= d /\
     forall w, In w (concat procs) -> emits c w = true -> emiss w <> NaN -> exists e, get_dt_cool_rad_zone c (uu w) (emiss w) = Fin e /\ d <= e).
Proof.
  intros T. pose proof (min_least c procs T) as L. destruct (get_min_dt_cool c procs) as [d| | |]; cbn [least] in L; try contradiction.
  - right. destruct L as ((z & Z & (E & D)) & B). exists z, d. repeat (split; [assumption|]). split; [reflexivity|]. split.
    + destruct (emiss z) as [J| | |] eqn:EJ; [| | |discriminate].
      * destruct (zone_time c (uu z) J T) as (d' & D' & P & _). rewrite D' in D. injection D as <-. lra.
      * rewrite zone_inf in D by auto. injection D as <-. lra.
      * rewrite zone_inf in D by auto. injection D as <-. lra.
    + intros w W EW N. destruct (zone_fin c (uu w) (emiss w) T N) as (e & Q & _). exists e. split; [exact Q|]. apply (B w e W). split; auto.
  - left. split; [reflexivity|]. intros z Z E. destruct (emiss z) as [J| | |] eqn:EJ; [| | |reflexivity]; exfalso;
      destruct (zone_fin c (uu z) (emiss z) T ltac:(rewrite EJ; discriminate)) as (e & Q & _); apply (L z e Z); split; auto.
Qed.

(** ** The step *)
Lemma ndt_le cour cour_cool light d : 0 < cour_cool -> ndt cour cour_cool light (Fin d) <= cour * light /\ ndt cour cour_cool light (Fin d) <= cour_cool * d.
Proof. intros P. unfold ndt. cbn [xmul]. unfold xmin. cbn [xltb]. destruct (Rltb_spec (cour * light) (cour_cool * d)); lra. Qed.
Lemma ndt_ge m cour cour_cool light d : m <= cour * light -> m <= cour_cool * d -> m <= ndt cour cour_cool light (Fin d).
Proof. intros A B. unfold ndt. cbn [xmul]. unfold xmin. cbn [xltb]. destruct (Rltb (cour * light) (cour_cool * d)); lra. Qed.
Lemma ndt_inf cour cour_cool light : 0 < cour_cool -> ndt cour cour_cool light PInf = cour * light.
Proof. intros P. unfold ndt. cbn [xmul]. unfold inf_by. rewrite Rltb_true by auto. reflexivity. Qed.
Lemma step_below tf t dt n ns : SMALL <= SAFE * dt -> SMALL <= n -> Forall (fun x => SMALL <= x) ns -> snd (step_time true tf t dt n ns) <= n /\ snd (step_time true tf t dt n ns) <= SAFE * dt.
Proof.
  intros D N F. unfold step_time. set (q := mpi_min (grown dt n) (map (grown dt) ns)).
  assert (Q : SMALL <= q).
  { apply mpi_min_glb; [apply grown_ge; auto|]. apply Forall_map. eapply Forall_impl; [|exact F]. intros a A. apply grown_ge; auto. }
  assert (U : q <= grown dt n) by apply mpi_min_le. pose proof (grown_le dt n) as (G1 & G2). clearbody q. rewrite (Rltb_false q) by lra. cbn [snd]. rcases; lra.
Qed.
Lemma step_ok c cour cour_cool light tf t dt procs : 0 < T_unit c -> 0 < cour_cool -> SMALL <= 13 / 10 * dt -> SMALL <= cour * light ->
  (forall z J, In z (concat procs) -> emits c z = true -> emiss z = Fin J -> SMALL * T_unit c * (Rabs J + SMALL) <= cour_cool * (Rabs (uu z * U_unit c) + SMALL)) ->
  (forall z, In z (concat procs) -> emits c z = true -> emiss z <> PInf /\ emiss z <> NInf) ->
  let d := next_dt c cour cour_cool light tf t dt procs in
  d <= 13 / 10 * dt /\ d <= cour * light /\
  forall z J, In z (concat procs) -> emits c z = true -> emiss z = Fin J -> d * T_unit c * Rabs J <= cour_cool * (Rabs (uu z * U_unit c) + SMALL).
Proof.
  intros T CC D L H NI. cbv zeta. unfold next_dt. pose proof SMALL_pos as SP.
  set (n := ndt cour cour_cool light (get_min_dt_cool c procs)).
  assert (B : SMALL <= n /\ n <= cour * light /\ (forall d, get_min_dt_cool c procs = Fin d -> n <= cour_cool * d)).
  { unfold n. destruct (min_ok c procs T) as [(E & _)|(z & d & Z & EZ & TZ & E & DP & _)]; rewrite E.
    - rewrite ndt_inf by auto. split; [lra|]. split; [lra|]. intros d C. discriminate.
    - destruct (ndt_le cour cour_cool light d CC) as (A1 & A2). split; [|split; [exact A1|intros d' C; injection C as <-; exact A2]].
      apply ndt_ge; [exact L|]. destruct (NI z Z EZ) as (N1 & N2). destruct (emiss z) as [J| | |] eqn:EJ; try congruence; [|discriminate].
      destruct (zone_time c (uu z) J T) as (d' & Q & _ & R). rewrite Q in TZ. injection TZ as <-.
      assert (NN : emiss z <> NaN) by (rewrite EJ; discriminate). pose proof (H z J Z EZ EJ) as K. pose proof (Rabs_pos J) as AJ.
      apply (Rmult_le_reg_r (T_unit c * (Rabs J + SMALL))); [apply Rmult_lt_0_compat; lra|]. rewrite <- R in K. lra. }
  destruct B as (B1 & B2 & B3).
  destruct (step_below tf t dt n (map (fun _ => n) (tl procs)) D B1) as (S1 & S2).
  { apply Forall_map. apply Forall_forall. intros x _. exact B1. }
  unfold SAFE in S2. split; [exact S2|]. split; [lra|]. intros z J Z EZ EJ.
  set (d := snd _) in *. pose proof (Rabs_pos J) as AJ. pose proof (Rabs_pos (uu z * U_unit c)) as AU.
  destruct (min_ok c procs T) as [(E & NN)|(w & m & W & EW & TW & E & MP & MB)]; [rewrite (NN z Z EZ) in EJ; discriminate|].
  destruct (MB z Z EZ ltac:(rewrite EJ; discriminate)) as (e & Q & ME). rewrite EJ in Q. destruct (zone_time c (uu z) J T) as (e' & Q' & EP & R).
  rewrite Q' in Q. injection Q as <-. pose proof (B3 m E) as B4.
  destruct (Rle_lt_dec d 0) as [DN|DP].
  - assert (0 <= cour_cool * (Rabs (uu z * U_unit c) + SMALL)) by (apply Rmult_le_pos; lra).
    assert (0 <= - d * (T_unit c * Rabs J)) by (apply Rmult_le_pos; [lra|apply Rmult_le_pos; lra]). lra.
  - rewrite <- R. assert (D1 : d <= cour_cool * e') by (assert (cour_cool * m <= cour_cool * e') by (apply Rmult_le_compat_l; lra); lra).
    assert (d * (T_unit c * Rabs J) <= cour_cool * e' * (T_unit c * (Rabs J + SMALL))).
    { apply Rmult_le_compat; [lra|apply Rmult_le_pos; lra|exact D1|apply Rmult_le_compat_l; lra]. }
    lra.
Qed.
(** the way out taken when the step is too small *)
Lemma step_refuted : exists c z J cour light tf t dt, 0 < T_unit c /\ 0 < U_unit c /\ 0 < uu z /\ emits c z = true /\ emiss z = Fin J /\ 0 < cour < 1 /\ 0 < light /\ 0 < dt /\
  Rabs (uu z * U_unit c) + SMALL < next_dt c cour 1 light tf t dt [[z]] * T_unit c * Rabs J.
Proof.
  exists (Cfg 0 1 false false 0 1 1), (Zone (1 / 2) 1 1 1 (Fin (10 ^ 30))), (10 ^ 30), (1 / 2), 1, 10, 0, 1.
  cbn [T_unit U_unit uu emiss]. repeat (split; [lra|]).
  assert (EM : emits (Cfg 0 1 false false 0 1 1) (Zone (1 / 2) 1 1 1 (Fin (10 ^ 30))) = true).
  { unfold emits. cbn [x1 startx_rad stopx_rad table mks]. rewrite !Rltb_false by lra. reflexivity. }
  split; [exact EM|]. split; [reflexivity|]. split; [lra|]. split; [lra|]. split; [lra|].
  unfold next_dt, get_min_dt_cool. cbn [fold_right tl map]. rewrite take_zone by exact EM. cbn [min_zones uu emiss].
  destruct (zone_time (Cfg 0 1 false false 0 1 1) 1 (10 ^ 30) ltac:(cbn; lra)) as (d & Q & DP & R). cbn [T_unit U_unit] in R. rewrite Q. cbn [xltb]. unfold xmin. cbn [xltb].
  pose proof SMALL_pos as SP. assert (SMALL < 1 / 1000) by (unfold SMALL; lra).
  assert (T30 : 0 < 10 ^ 30) by lra. rewrite (Rabs_right (10 ^ 30)) in * by lra. rewrite !Rmult_1_r in R. rewrite (Rabs_right 1) in R by lra.
  assert (DS : d < SMALL).
  { apply (Rmult_lt_reg_r (10 ^ 30 + SMALL)); [lra|]. replace (d * (10 ^ 30 + SMALL)) with (1 + SMALL) by lra.
    assert (SMALL * 10 ^ 30 = 10 ^ 10) by (unfold SMALL; field). assert (0 < SMALL * SMALL) by (apply Rmult_lt_0_compat; lra). lra. }
  unfold ndt. cbn [xmul]. unfold xmin. cbn [xltb]. rewrite (Rltb_false (1 / 2 * 1)) by lra. unfold step_time, grown. cbn [map mpi_min]. rewrite (Rltb_false (SAFE * 1)) by (unfold SAFE; lra).
  rewrite (Rltb_true (1 * d)) by lra. cbn [snd]. unfold SAFE. rewrite (Rltb_false 10) by lra. rewrite Rmult_1_r, (Rabs_right 1) by lra. lra.
Qed.

(** ** The cooling time written out *)
Lemma xmin_assoc_inf a : a <> NaN -> xmin a PInf = a.
Proof. destruct a; cbn; congruence || reflexivity. Qed.
Lemma min_zones_out c : 0 < T_unit c -> table c && mks c = false -> forall zs m, m <> NaN -> (forall z, In z zs -> emiss z <> NaN) ->
  min_zones c zs m = xmin (fold_right xmin PInf (map (set_cooling_time c) zs)) m.
Proof.
  intros T TM. assert (AX : forall a b d : X, a <> NaN -> b <> NaN -> d <> NaN -> xmin a (xmin b d) = xmin (xmin a b) d).
  { intros a b d A B D. destruct a, b, d; try congruence; unfold xmin; cbn [xltb]; try reflexivity; repeat (rcases; cbn [xltb]); try reflexivity; try lra; f_equal; lra. }
  assert (CX : forall a b : X, a <> NaN -> b <> NaN -> xmin a b = xmin b a).
  { intros a b A B. destruct a, b; try congruence; unfold xmin; cbn [xltb]; try reflexivity; rcases; try reflexivity; try lra; f_equal; lra. }
  assert (NX : forall a b : X, a <> NaN -> b <> NaN -> xmin a b <> NaN) by (intros a b A B; unfold xmin; destruct (xltb a b); auto).
  induction zs as [|z zs IH]; intros m M N; cbn [map fold_right min_zones]; [destruct m; cbn; congruence || reflexivity|].
  assert (NS : forall w, In w (z :: zs) -> set_cooling_time c w <> NaN).
  { intros w W. unfold set_cooling_time. destruct (Rltb (x1 w) (startx_rad c) || Rltb (stopx_rad c) (x1 w)); [discriminate|].
    destruct (table c && (Rltb (rho w) (rho_thresh c) || Rltb (uu w) SMALL)); [discriminate|].
    destruct (zone_fin c (uu w) (emiss w) T (N w W)) as (d & -> & _). discriminate. }
  assert (FX : fold_right xmin PInf (map (set_cooling_time c) zs) <> NaN).
  { assert (NS' : forall w, In w zs -> set_cooling_time c w <> NaN) by (intros w W; apply NS; now right). clear -NS' NX.
    induction zs as [|w zs IH]; cbn; [discriminate|]. apply NX; [apply NS'; now left|apply IH; intros v V; apply NS'; now right]. }
  assert (NZ : forall w, In w zs -> emiss w <> NaN) by (intros w W; apply N; now right).
  pose proof (NS z (or_introl eq_refl)) as NSz.
  rewrite (CX (set_cooling_time c z)) by auto. rewrite <- AX by auto. rewrite (CX (set_cooling_time c z) m) by auto. rewrite TM. cbn [andb].
  unfold set_cooling_time at 2. unfold set_cooling_time at 1 in NSz.
  destruct (Rltb (x1 z) (startx_rad c) || Rltb (stopx_rad c) (x1 z)); [rewrite xmin_assoc_inf by auto; now apply IH|].
  destruct (table c && (Rltb (rho z) (rho_thresh c) || Rltb (uu z) SMALL)); [rewrite xmin_assoc_inf by auto; now apply IH|].
  rewrite IH; [|destruct (xltb _ m); auto|auto]. f_equal. rewrite CX by auto. reflexivity.
Qed.
Lemma output_ok c procs : 0 < T_unit c -> table c && mks c = false -> (forall z, In z (concat procs) -> emiss z <> NaN) ->
  get_min_dt_cool c procs = fold_right xmin PInf (map (set_cooling_time c) (concat procs)).
Proof.
  intros T TM N. induction procs as [|zs procs IH]; [reflexivity|]. cbn [get_min_dt_cool fold_right concat]. fold (get_min_dt_cool c procs).
  rewrite IH by (intros z Z; apply N; cbn; apply in_or_app; now right).
  assert (N1 : forall z, In z zs -> emiss z <> NaN) by (intros z Z; apply N; cbn; apply in_or_app; now left).
  rewrite min_zones_out; auto; [|discriminate]. rewrite map_app, fold_right_app.
  assert (AX : forall a b d : X, xmin (xmin a b) d = xmin a (xmin b d) \/ a = NaN \/ b = NaN \/ d = NaN).
  { intros a b d. destruct a, b, d; auto; left; unfold xmin; cbn [xltb]; try reflexivity; repeat (rcases; cbn [xltb]); try reflexivity; try lra; f_equal; lra. }
  assert (NS : forall l, (forall w, In w l -> emiss w <> NaN) -> Forall (fun x => x <> NaN) (map (set_cooling_time c) l)).
  { intros l H. apply Forall_map, Forall_forall. intros w W. unfold set_cooling_time. destruct (Rltb (x1 w) (startx_rad c) || Rltb (stopx_rad c) (x1 w)); [discriminate|].
    destruct (table c && (Rltb (rho w) (rho_thresh c) || Rltb (uu w) SMALL)); [discriminate|].
    destruct (zone_fin c (uu w) (emiss w) T (H w W)) as (d & -> & _). discriminate. }
  assert (FN : forall l, Forall (fun x => x <> NaN) l -> fold_right xmin PInf l <> NaN).
  { induction 1 as [|x l H F IHl]; cbn [fold_right]; [discriminate|]. unfold xmin at 1. destruct (xltb x (fold_right xmin PInf l)); assumption. }
  pose proof (NS zs N1) as F1. assert (F2 : fold_right xmin PInf (map (set_cooling_time c) (concat procs)) <> NaN).
  { apply FN, NS. intros w W. apply N. cbn. apply in_or_app. now right. }
  revert F1 F2. generalize (map (set_cooling_time c) zs) as l. generalize (fold_right xmin PInf (map (set_cooling_time c) (concat procs))) as s. clear -AX FN.
  intros s l F S. rewrite xmin_assoc_inf by now apply FN. induction F as [|x l H F IH]; cbn [fold_right]; [destruct s; cbn; congruence || reflexivity|].
  rewrite <- IH. destruct (AX x (fold_right xmin PInf l) s) as [E|[E|[E|E]]]; auto; [congruence|destruct (FN l F E)|congruence].
Qed.
Lemma output_refuted : exists c z d, 0 < T_unit c /\ set_cooling_time c z = Fin d /\ get_min_dt_cool c [[z]] = PInf.
Proof.
  set (c := Cfg 0 1 true true 0 1 1). set (z := Zone (1 / 2) 1 1 0 (Fin 1)). exists c, z.
  destruct (zone_time c 1 1 ltac:(cbn; lra)) as (d & Q & _). exists d. split; [cbn; lra|].
  assert (SMALL < 1) by (unfold SMALL; lra).
  split.
  - unfold set_cooling_time, c, z. cbn [x1 startx_rad stopx_rad table rho rho_thresh uu emiss]. rewrite !Rltb_false by lra. exact Q.
  - unfold get_min_dt_cool, c, z. cbn [fold_right min_zones x1 startx_rad stopx_rad table rho rho_thresh uu emiss mks atm]. rewrite !Rltb_false by lra. cbn [orb andb].
    rewrite Rltb_true by (unfold ATM_THRESH; lra). reflexivity.
Qed.

(** ** Oscillations *)
Lemma fold_max_spec : forall zs m, m <= fold_left MY_MAX zs m /\ Forall (fun n => n <= fold_left MY_MAX zs m) zs /\ (fold_left MY_MAX zs m = m \/ In (fold_left MY_MAX zs m) zs).
Proof.
  induction zs as [|z zs IH]; intros m; cbn [fold_left]; [repeat split; auto; lra|].
  destruct (IH (MY_MAX m z)) as (A & B & C). rewrite MY_MAX_max in *. pose proof (Rmax_l m z). pose proof (Rmax_r m z).
  split; [lra|]. split; [constructor; [lra|exact B]|]. destruct C as [C|C]; [|right; now right].
  rewrite C. unfold Rmax. destruct (Rle_dec m z); [right; now left|now left].
Qed.
Lemma mpi_min_in l : forall x, In (mpi_min x l) (x :: l).
Proof.
  induction l as [|y l IH]; intros x; cbn [mpi_min]; [now left|]. destruct (IH (MY_MIN x y)) as [E|E]; [|right; now right].
  rewrite <- E. unfold MY_MIN. destruct (Rltb x y); [now left|right; now left].
Qed.
Lemma active_ok NUFERM T dt zs others : 0 < NUFERM -> 0 < T -> 0 < dt ->
  oscillations_active NUFERM T dt zs others = true <->
  1 <= SMALL * T * dt \/ exists p n, In p (zs :: others) /\ In n p /\ 1 <= (NUFERM * n + SMALL) * T * dt.
Proof.
  intros F TT D. pose proof SMALL_pos as SP. unfold oscillations_active, get_dt_oscillations.
  assert (LOC : forall p, dt_osc_local NUFERM T p <= dt <-> 1 <= (NUFERM * nph_max p + SMALL) * T * dt).
  { intros p. unfold dt_osc_local, nph_max. destruct (fold_max_spec p 0) as (A & _). set (m := fold_left MY_MAX p 0) in *.
    assert (N0 : 0 <= NUFERM * m) by (apply Rmult_le_pos; lra).
    assert (Q : 0 < (NUFERM * m + SMALL) * T) by (apply Rmult_lt_0_compat; lra).
    assert (I : 1 / (NUFERM * m + SMALL) / T * ((NUFERM * m + SMALL) * T) = 1) by (field; lra).
    split; intros H.
    - apply (Rmult_le_compat_r ((NUFERM * m + SMALL) * T)) in H; [|lra]. lra.
    - apply (Rmult_le_reg_r ((NUFERM * m + SMALL) * T)); [auto|]. lra. }
  assert (MAX : forall p, 1 <= (NUFERM * nph_max p + SMALL) * T * dt <-> 1 <= SMALL * T * dt \/ exists n, In n p /\ 1 <= (NUFERM * n + SMALL) * T * dt).
  { intros p. unfold nph_max. destruct (fold_max_spec p 0) as (A & B & C). set (m := fold_left MY_MAX p 0) in *. split.
    - intros H. destruct C as [C|C]; [left; rewrite C in H; lra|right; eauto].
    - assert (MONO : forall n, n <= m -> (NUFERM * n + SMALL) * T * dt <= (NUFERM * m + SMALL) * T * dt).
      { intros n N. apply Rmult_le_compat_r; [lra|]. apply Rmult_le_compat_r; [lra|]. apply Rplus_le_compat_r. apply Rmult_le_compat_l; lra. }
      intros [H|(n & N & H)]; [specialize (MONO 0 A); lra|]. rewrite Forall_forall in B. specialize (MONO n (B n N)). lra. }
  assert (E : Rleb (mpi_min (dt_osc_local NUFERM T zs) (map (dt_osc_local NUFERM T) others)) dt = true <-> exists p, In p (zs :: others) /\ dt_osc_local NUFERM T p <= dt).
  { pose proof (mpi_min_in (map (dt_osc_local NUFERM T) others) (dt_osc_local NUFERM T zs)) as I.
    destruct (mpi_min_le (map (dt_osc_local NUFERM T) others) (dt_osc_local NUFERM T zs)) as (M1 & M2). rewrite Forall_map, Forall_forall in M2.
    set (q := mpi_min _ _) in *. destruct (Rleb_spec q dt) as [H|H]; split; try discriminate; auto.
    - intros _. change (dt_osc_local NUFERM T zs :: map (dt_osc_local NUFERM T) others) with (map (dt_osc_local NUFERM T) (zs :: others)) in I.
      apply in_map_iff in I as (p & P & Q). exists p. split; [exact Q|lra].
    - intros (p & [<-|P] & Q); [lra|specialize (M2 p P); cbv beta in M2; lra]. }
  rewrite E. split.
  - intros (p & P & H). apply LOC, MAX in H as [H|(n & N & H)]; [now left|right; eauto].
  - intros [H|(p & n & P & N & H)]; [exists zs; split; [now left|]; apply LOC, MAX; now left|exists p; split; [exact P|]; apply LOC, MAX; right; eauto].
Qed.
Lemma cool_example : let c := Cfg 0 1 false false 0 1 1 in let z := Zone (1 / 2) 1 1 1 (Fin 1) in let w := Zone 2 1 1 1 (Fin 5) in
  emits c z = true /\ emits c w = false /\ SMALL * T_unit c * (Rabs 1 + SMALL) <= 1 / 2 * (Rabs (uu z * U_unit c) + SMALL) /\
  (exists d, next_dt c (1 / 2) (1 / 2) 10 100 0 1 [[z]; [w]] = d /\ d * T_unit c * Rabs 1 <= 1 / 2 * (Rabs (uu z * U_unit c) + SMALL)).
Proof.
  intros c z w. assert (EZ : emits c z = true) by (unfold emits, c, z; cbn [x1 startx_rad stopx_rad table mks]; rewrite !Rltb_false by lra; reflexivity).
  assert (EW : emits c w = false) by (unfold emits, c, w; cbn [x1 startx_rad stopx_rad table mks]; rewrite (Rltb_true 1 2) by lra; rewrite orb_true_r; reflexivity).
  assert (L : SMALL * T_unit c * (Rabs 1 + SMALL) <= 1 / 2 * (Rabs (uu z * U_unit c) + SMALL)).
  { unfold c, z. cbn [T_unit U_unit uu]. rewrite !Rmult_1_r. rewrite (Rabs_right 1) by lra. pose proof SMALL_pos. assert (SMALL < 1 / 10) by (unfold SMALL; lra).
    assert (SMALL * SMALL <= SMALL * 1) by (apply Rmult_le_compat_l; lra). lra. }
  split; [exact EZ|]. split; [exact EW|]. split; [exact L|]. eexists. split; [reflexivity|].
  assert (SM : SMALL <= 1) by (unfold SMALL; lra).
  refine (proj2 (proj2 (step_ok c (1 / 2) (1 / 2) 10 100 0 1 [[z]; [w]] _ _ _ _ _ _)) z 1 _ EZ eq_refl); try (cbn; lra).
  - intros y J [<-|[<-|[]]] E EJ; [|congruence]. cbn in EJ. injection EJ as <-. exact L.
  - intros y [<-|[<-|[]]] E; [|congruence]. split; discriminate.
  - now left.
Qed.
