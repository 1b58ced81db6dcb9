(** Property theorems: adiabats, polytropes and the preparation of the tables (C118). *)
From Coq Require Import Reals Bool ZArith List Lia Lra.
From Verif Require Import RLib XLib IntLib TabModel TabSpec TabProofs RootModel InvModel InvSpec AdiaModel AdiaSpec AdiaFilt AdiaProofs AdiaMore AdiaPoly AdiaWit.
Import ListNotations.
Open Scope R_scope.

(** C118.  Tracing an adiabat always ends, with the same answer for all larger fuel. *)
Theorem C118_terminates : forall rho tmp yes dr dt dy, even rho dr -> even tmp dt -> even yes dy -> 2 * TOL < dt -> TOL < dy -> forall ent hm1,
  length ent = (length rho * length tmp * length yes)%nat -> length hm1 = (length rho * length tmp * length yes)%nat -> forall m L, TOL <= m * dt ->
  rising (ax_n rho) (ax_n tmp) (ax_n yes) ent dt m L -> 2 * TOL < dr -> forall s ye,
  exists N o, o <> Tracing /\ forall k, EOS_SC_find_adiabat_1d rho tmp yes ent hm1 (N + k) s ye = o.
Proof. exact adiabat_ends. Qed.
Print Assumptions C118_terminates.
(** A traced adiabat holds exactly the nodes of the axis in the interval found for it;
    at each of them the entropy of the stored temperature is that asked for, within the
    tolerance; and the two bounds are the extremes of the enthalpy over the nodes. *)
Theorem C118_adiabat_partial : forall rho tmp yes dr dt dy, even rho dr -> even tmp dt -> even yes dy -> TOL < dr -> 2 * TOL < dt -> TOL < dy -> forall ent hm1,
  length ent = (length rho * length tmp * length yes)%nat -> length hm1 = (length rho * length tmp * length yes)%nat -> forall m L, 0 < m -> TOL <= m * dt ->
  rising (ax_n rho) (ax_n tmp) (ax_n yes) ent dt m L -> forall fuel s ye a, EOS_SC_find_adiabat_1d rho tmp yes ent hm1 fuel s ye = Traced a ->
  exists lo hi, adiabat_lrho_min_max rho tmp yes ent fuel s ye = Some (lo, hi) /\ ad_s a = catch_s ent s /\ ad_ye a = InvModel.catch_in yes ye /\
    rd rho (ad_imin a) = Some (ad_lrho_min a) /\ rd rho (ad_imax a) = Some (ad_lrho_max a) /\
    (forall i x, rd rho i = Some x -> (ad_imin a <= i <= ad_imax a)%Z <-> lo <= x < hi) /\
    length (ad_lT a) = Z.to_nat (ad_imax a + 1 - ad_imin a) /\
    (forall q lT, nth_error (ad_lT a) q = Some lT -> exists x v h, rd rho (ad_imin a + Z.of_nat q) = Some x /\
       EOS_SC_interp rho tmp yes x lT (ad_ye a) ent = Some v /\ (near (2 * L * TABLE_TOL) v (ad_s a) \/ near (2 * TABLE_TOL * (Rabs (ad_s a) + 1)) v (ad_s a)) /\
       EOS_SC_interp rho tmp yes x lT (ad_ye a) hm1 = Some h /\ xleb (ad_hm1_min a) (Fin h) = true /\ xleb (Fin h) (ad_hm1_max a) = true) /\
    ((ad_lT a = [] /\ ad_hm1_min a = PInf /\ ad_hm1_max a = NInf) \/
     (exists q x lT, nth_error (ad_lT a) q = Some lT /\ rd rho (ad_imin a + Z.of_nat q) = Some x /\ exists h, EOS_SC_interp rho tmp yes x lT (ad_ye a) hm1 = Some h /\ ad_hm1_min a = Fin h) /\
     (exists q x lT, nth_error (ad_lT a) q = Some lT /\ rd rho (ad_imin a + Z.of_nat q) = Some x /\ exists h, EOS_SC_interp rho tmp yes x lT (ad_ye a) hm1 = Some h /\ ad_hm1_max a = Fin h)).
Proof. exact traced_ok. Qed.
Print Assumptions C118_adiabat_partial.
(** The interval lies in the table. *)
Theorem C118_interval : forall rho tmp yes dr, even rho dr -> TOL < dr -> forall ent fuel s ye lo hi,
  adiabat_lrho_min_max rho tmp yes ent fuel s ye = Some (lo, hi) -> ax_min rho <= lo <= ax_max rho /\ ax_min rho <= hi <= ax_max rho.
Proof. exact interval_in. Qed.
Print Assumptions C118_interval.
(** If at every node of the interval the entropy is that of some temperature of the
    table, the adiabat is found. *)
Theorem C118_found : forall rho tmp yes dr dt dy, even rho dr -> even tmp dt -> even yes dy -> TOL < dr -> 2 * TOL < dt -> TOL < dy -> forall ent hm1,
  length ent = (length rho * length tmp * length yes)%nat -> length hm1 = (length rho * length tmp * length yes)%nat -> forall m L, 0 < m -> TOL <= m * dt ->
  rising (ax_n rho) (ax_n tmp) (ax_n yes) ent dt m L -> forall blo bhi, 0 < blo -> Forall (fun v => blo <= v <= bhi) ent -> L <= 50 * blo ->
  3 * TABLE_TOL <= ax_max tmp - 2 * TOL \/ ax_max tmp - 2 * TOL <= - TABLE_TOL -> forall N lo hi s ye,
  (forall k, adiabat_lrho_min_max rho tmp yes ent (N + k) s ye = Some (lo, hi)) -> ax_min rho < hi ->
  (forall i x, rd rho i = Some x -> lo <= x < hi -> exists a b, EOS_SC_interp rho tmp yes x (ax_min tmp) (InvModel.catch_in yes ye) ent = Some a /\
     EOS_SC_interp rho tmp yes x (ax_max tmp) (InvModel.catch_in yes ye) ent = Some b /\ a <= catch_s ent s < b) ->
  exists n a, forall k, EOS_SC_find_adiabat_1d rho tmp yes ent hm1 (n + k) s ye = Traced a.
Proof. exact adiabat_found. Qed.
Print Assumptions C118_found.
(** The axis of densities is read before its beginning exactly if the upper end of the
    interval is the least density. *)
Theorem C118_outside : forall rho tmp yes dr dt dy, even rho dr -> even tmp dt -> even yes dy -> TOL < dr -> 2 * TOL < dt -> TOL < dy -> forall ent hm1,
  length ent = (length rho * length tmp * length yes)%nat -> length hm1 = (length rho * length tmp * length yes)%nat -> forall m L, TOL <= m * dt ->
  rising (ax_n rho) (ax_n tmp) (ax_n yes) ent dt m L -> forall fuel s ye lo hi, adiabat_lrho_min_max rho tmp yes ent fuel s ye = Some (lo, hi) ->
  (EOS_SC_find_adiabat_1d rho tmp yes ent hm1 fuel s ye = Outside <-> hi = ax_min rho).
Proof. exact outside_iff. Qed.
Print Assumptions C118_outside.
(** It happens: for an entropy at or above the highest, of a table growing with
    temperature and falling with density. *)
Theorem C118_outside_refuted : exists rho tmp yes ent hm1 s ye n, even rho 1 /\ even tmp 1 /\ even yes 1 /\
  tabulates (fun x t _ => 3 + 1 * t - x) rho tmp yes ent /\ length hm1 = length ent /\
  forall k, EOS_SC_find_adiabat_1d rho tmp yes ent hm1 (n + k) s ye = Outside.
Proof.
  destruct (highest (repeat 1 12) eq_refl 0 5 ltac:(lra)) as (n & H). exists r3, t2, t2, (tab3 3 1), (repeat 1 12), 5, 0, n.
  split; [exact even3|]. split; [exact even2|]. split; [exact even2|]. split; [apply tab3_ok|]. split; [reflexivity|exact H].
Qed.
Print Assumptions C118_outside_refuted.
Theorem C118_highest : forall hm1, length hm1 = 12%nat -> forall ye s, 4 <= s -> exists n, forall k, EOS_SC_find_adiabat_1d r3 t2 t2 (tab3 3 1) hm1 (n + k) s ye = Outside.
Proof. exact highest. Qed.
Print Assumptions C118_highest.
(** And for an entropy at or below the lowest the search reports success with no node:
    the least enthalpy is infinite. *)
Theorem C118_empty_refuted : exists rho tmp yes ent hm1 s ye n a, even rho 1 /\ even tmp 1 /\ even yes 1 /\
  tabulates (fun x t _ => 3 + 1 * t - x) rho tmp yes ent /\ length hm1 = length ent /\ In s ent /\
  (forall k, EOS_SC_find_adiabat_1d rho tmp yes ent hm1 (n + k) s ye = Traced a) /\ ad_lT a = [] /\ ad_hm1_min a = PInf /\ (ad_imax a < ad_imin a)%Z.
Proof.
  destruct (lowest (repeat 1 12) eq_refl 0 1 ltac:(lra)) as (n & a & H & I & L & M & _). exists r3, t2, t2, (tab3 3 1), (repeat 1 12), 1, 0, n, a.
  split; [exact even3|]. split; [exact even2|]. split; [exact even2|]. split; [apply tab3_ok|]. split; [reflexivity|]. split; [cbn; do 2 right; left; ring|]. auto.
Qed.
Print Assumptions C118_empty_refuted.

(** The polytrope of a node has the pressure of the node, *)
Theorem C118_polytrope : forall rho tmp yes dr dt dy, even rho dr -> even tmp dt -> even yes dy -> TOL < dr -> TOL < dt -> TOL < dy -> forall lP gam RU UU,
  length lP = (length rho * length tmp * length yes)%nat -> length gam = (length rho * length tmp * length yes)%nat -> 0 < RU -> 0 < UU ->
  forall i j k x t y, rd rho i = Some x -> rd tmp j = Some t -> rd yes k = Some y -> (i + 1 < ax_n rho)%Z -> (j + 1 < ax_n tmp)%Z -> (k + 1 < ax_n yes)%Z ->
  exists K g p, EOS_SC_get_polytrope rho tmp yes lP gam RU UU x t y = Some (K, g) /\ rd gam (ax_n rho * (k * ax_n tmp + j) + i)%Z = Some g /\
    rd lP (ax_n rho * (k * ax_n tmp + j) + i)%Z = Some p /\ K * Rpower (pow10 x / RU) g * UU = pow10 p.
Proof. exact poly_node. Qed.
Print Assumptions C118_polytrope.
(** and that of a polytropic gas is its own everywhere. *)
Theorem C118_polytrope_gas : forall rho tmp yes dr dt dy, even rho dr -> even tmp dt -> even yes dy -> TOL < dr -> TOL < dt -> TOL < dy -> forall lP gam RU UU,
  length lP = (length rho * length tmp * length yes)%nat -> length gam = (length rho * length tmp * length yes)%nat -> 0 < RU -> 0 < UU ->
  forall lK g lrho lT ye, tabulates (fun x _ _ => lK + g * x) rho tmp yes lP -> tabulates (fun _ _ _ => g) rho tmp yes gam -> lrho <> ax_max rho ->
  exists K, EOS_SC_get_polytrope rho tmp yes lP gam RU UU lrho lT ye = Some (K, g) /\ forall r, 0 < r -> K * Rpower r g * UU = pow10 lK * Rpower (r * RU) g.
Proof. exact poly_gas. Qed.
Print Assumptions C118_polytrope_gas.
(** With the offset every entry has a positive energy per volume. *)
Theorem C118_shift : forall rho le es e p x, nth_error le e = Some p -> nth_error rho (e mod length rho) = Some x -> 0 < pow10 x * (pow10 p - es) + u_shift rho le es.
Proof. exact shift_positive. Qed.
Print Assumptions C118_shift.

(** The filter stays inside the table; away from the edges an entry is replaced by the
    middle value around it if it is off by more than ten times that, and nothing else
    changes. *)
Theorem C118_filter : forall n1 n2 n3 tab, Z.of_nat (length tab) = (n1 * n2 * n3)%Z ->
  exists out, smooth n1 n2 n3 tab = Some out /\ length out = length tab /\
  forall i j k, (0 <= i < n1)%Z -> (0 <= j < n2)%Z -> (0 <= k < n3)%Z ->
    let v := entry n1 n2 tab i j k in let w := entry n1 n2 out i j k in
    (inner n1 n2 n3 i j k -> exists m, middle m (around n1 n2 tab i j k) /\ smoothed v m w) /\ (~ inner n1 n2 n3 i j k -> w = v).
Proof. exact filter_spec. Qed.
Print Assumptions C118_filter.
(** It makes no new extremes, *)
Theorem C118_filter_bounds : forall n1 n2 n3 tab lo hi, (0 < n1)%Z -> (0 < n2)%Z -> Z.of_nat (length tab) = (n1 * n2 * n3)%Z -> Forall (fun v => lo <= v <= hi) tab ->
  exists out, smooth n1 n2 n3 tab = Some out /\ Forall (fun v => lo <= v <= hi) out.
Proof. exact filter_bounds. Qed.
Print Assumptions C118_filter_bounds.
(** and a spike among entries more than half of which are equal is removed. *)
Theorem C118_filter_spike : forall n1 n2 n3 tab c i j k, Z.of_nat (length tab) = (n1 * n2 * n3)%Z -> inner n1 n2 n3 i j k ->
  (2 * other c (around n1 n2 tab i j k) < 343)%nat -> 10 * Rabs c < Rabs (c - entry n1 n2 tab i j k) ->
  exists out, smooth n1 n2 n3 tab = Some out /\ entry n1 n2 out i j k = c.
Proof. exact filter_spike. Qed.
Print Assumptions C118_filter_spike.

Example C118_nonvacuous : (exists n a, (forall k, EOS_SC_find_adiabat_1d r3 t2 t2 (tab3 10 2) (repeat 1 12) (n + k) 10 0 = Traced a) /\ length (ad_lT a) = 2%nat) /\
  inner 7 7 7 3 3 3 /\ middle 1 [5; 0; 1] /\ smoothed 12 1 1 /\ smoothed 11 1 11.
Proof.
  split; [destruct (whole (repeat 1 12) eq_refl 0) as (n & a & H & _ & _ & L); exists n, a; auto|]. split; [unfold inner; lia|]. split; [|split].
  - split; [cbn; auto|]. unfold at_most, at_least. cbn [filter].
    repeat match goal with |- context [Rleb ?a ?b] => destruct (Rleb_spec a b) end; try (exfalso; lra); cbn [length]; lia.
  - left. rewrite Rabs_R1, Rabs_left by lra. split; [lra|reflexivity].
  - right. rewrite Rabs_R1, Rabs_left by lra. split; [lra|reflexivity].
Qed.
(** an isolated spike in a table of ones *)
Definition spike (n : nat) : R := if Nat.eqb n 171 then 50 else 1.
Definition spiked : list R := map spike (seq 0 343).
Example C118_spike : exists out, smooth 7 7 7 spiked = Some out /\ entry 7 7 out 3 3 3 = 1.
Proof.
  assert (EN : forall a b c, (-3 <= a <= 3)%Z -> (-3 <= b <= 3)%Z -> (-3 <= c <= 3)%Z ->
    entry 7 7 spiked (3 + a) (3 + b) (3 + c) = if ((a =? 0) && (b =? 0) && (c =? 0))%Z then 50 else 1).
  { intros a b c A B C. unfold entry, spiked. set (n := Z.to_nat (7 * ((3 + c) * 7 + (3 + b)) + (3 + a))).
    rewrite (nth_indep _ 0 (spike 0%nat)) by (rewrite map_length, seq_length; unfold n; lia).
    rewrite map_nth, seq_nth by (unfold n; lia). rewrite Nat.add_0_l. unfold spike.
    destruct (Nat.eqb_spec n 171) as [E|E]; destruct (Z.eqb_spec a 0), (Z.eqb_spec b 0), (Z.eqb_spec c 0); cbn [andb]; auto; unfold n in E; lia. }
  assert (AP : forall l l', other 1 (l ++ l') = (other 1 l + other 1 l')%nat) by (intros; unfold other; rewrite filter_app, app_length; reflexivity).
  assert (ON : forall l, (forall x, In x l -> x = 1) -> other 1 l = 0%nat).
  { unfold other. induction l as [|x l IH]; intros H; [reflexivity|]. cbn [filter]. rewrite (H x) by now left. destruct (Reqb_spec 1 1); [|congruence]. cbn [negb]. apply IH. intros y Y. apply H. now right. }
  assert (FL : forall g : Z -> list R, (forall z, In z steps -> z <> 0%Z -> other 1 (g z) = 0%nat) -> other 1 (flat_map g steps) = other 1 (g 0%Z)).
  { intros g H. unfold steps in *. cbn [flat_map]. rewrite !AP. rewrite (H (-3)%Z), (H (-2)%Z), (H (-1)%Z), (H 1%Z), (H 2%Z), (H 3%Z) by (try discriminate; cbn; tauto). change (other 1 []) with 0%nat. lia. }
  assert (ST : forall z, In z steps -> (-3 <= z <= 3)%Z) by (unfold steps; cbn; intros z H; intuition lia).
  apply C118_filter_spike; [reflexivity|unfold inner; lia| |].
  - unfold around. rewrite FL.
    2:{ intros c C NC. apply ON. intros x X. apply in_flat_map in X. destruct X as (b & B & X). apply in_map_iff in X. destruct X as (a & <- & A). rewrite EN by auto. destruct (Z.eqb_spec c 0); [lia|]. rewrite andb_false_r. reflexivity. }
    rewrite FL.
    2:{ intros b B NB. apply ON. intros x X. apply in_map_iff in X. destruct X as (a & <- & A). rewrite EN by (auto; lia). destruct (Z.eqb_spec b 0); [lia|]. rewrite andb_false_r. reflexivity. }
    unfold other. assert (L : forall (f : R -> bool) l, (length (filter f l) <= length l)%nat) by (induction l as [|x l IH]; [auto|]; cbn [filter]; destruct (f x); cbn [length]; lia).
    specialize (L (fun x => negb (Reqb x 1)) (map (fun a => entry 7 7 spiked (3 + a) (3 + 0) (3 + 0)) steps)). rewrite map_length in L. cbn [steps length] in L. lia.
  - change (entry 7 7 spiked 3 3 3) with (entry 7 7 spiked (3 + 0) (3 + 0) (3 + 0)). rewrite EN by lia. cbn [Z.eqb andb]. rewrite Rabs_R1, Rabs_left by lra. lra.
Qed.
