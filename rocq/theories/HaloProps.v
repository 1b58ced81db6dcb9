(** Property theorems C07, C08, C10-C13 (decomposition, ghost zones, output
    regions, offsets). *)
From Coq Require Import ZArith List Bool Lia Permutation.
Import ListNotations.
From Verif Require Import SumLib ExchModel HaloModel HaloSpec HaloProofs.
Open Scope Z_scope.

(** C07.  Full claim: for every accepted configuration the process ranges
    partition the global index range.  Missing: the code accepts sizes that the
    process count does not divide, for which it is false
    ([C07_uneven_refuted]); proved when it divides (NTOT = P * N). *)
Theorem C07_partition_partial : forall P N, 0 < P -> 0 < N ->
  (forall x, 0 <= x < P * N ->
     exists! c, 0 <= c < P /\ let (s, n) := zone_region (P * N) P c in s <= x < s + n) /\
  (forall c, 0 <= c < P ->
     global_stop (P * N) P c - global_start (P * N) P c = local_size (P * N) P /\
     global_stop (P * N) P c = global_start (P * N) P (c + 1)).
Proof. exact zone_partition_full. Qed.
Print Assumptions C07_partition_partial.

Example C07_nonvacuous : zone_region 12 3 2 = (8, 4) /\ global_stop 12 3 1 = 8.
Proof. split; reflexivity. Qed.

Theorem C07_uneven_refuted : exists nt p x, 0 < p /\ 0 <= x < nt /\
  forall c, 0 <= c < p -> let (s, n) := zone_region nt p c in ~ (s <= x < s + n).
Proof. exact uneven_refuted. Qed.
Print Assumptions C07_uneven_refuted.

(** C08.  Every element of the zone-centred array, and of the corner array with
    one more element per direction, is written by exactly one process. *)
Theorem C08_zone_regions : forall P N : v3, (forall d, 0 < get d P) -> (forall d, 0 < get d N) ->
  forall x : v3, (forall d, 0 <= get d x < get d P * get d N) ->
  exists! c : rank, (forall d, 0 <= get d c < get d P) /\ in_block (regs zone_region P N) c x = true.
Proof. exact zones_blocks. Qed.
Print Assumptions C08_zone_regions.

Theorem C08_face_regions : forall P N : v3, (forall d, 0 < get d P) -> (forall d, 0 < get d N) ->
  forall x : v3, (forall d, 0 <= get d x < get d P * get d N + 1) ->
  exists! c : rank, (forall d, 0 <= get d c < get d P) /\ in_block (regs face_region P N) c x = true.
Proof. exact faces_blocks. Qed.
Print Assumptions C08_face_regions.

(** C08, read back: whatever the order in which processes write and whatever
    was in the file, each process reads back its own block. *)
Theorem C08_write_read : forall (T : Type) (P N : v3) (mem : rank -> v3 -> T) file order,
  (forall d, 0 < get d P) -> (forall d, 0 < get d N) ->
  (forall c, In c order <-> forall d, 0 <= get d c < get d P) ->
  forall c z, (forall d, 0 <= get d c < get d P) -> (forall d, 0 <= get d z < get d N) ->
  read_block (regs zone_region P N)
    (fold_left (fun f c => write (regs zone_region P N) f c (mem c)) order file) c z = mem c z.
Proof. exact @zones_write_read. Qed.
Print Assumptions C08_write_read.

Example C08_nonvacuous :
  let P := V3 2 1 1 in let N := V3 3 1 1 in
  let order := [V3 1 0 0; V3 0 0 0] in
  (forall c, In c order <-> forall d, 0 <= get d c < get d P) /\
  read_block (regs zone_region P N)
    (fold_left (fun f c => write (regs zone_region P N) f c (fun z => 100 * v1 c + v1 z)) order (fun _ => -1))
    (V3 1 0 0) (V3 2 0 0) = 102 /\
  face_region 6 2 0 = (0, 3) /\ face_region 6 2 1 = (3, 4).
Proof.
  split; [|repeat split].
  intros [a b e]. split.
  - intros [H|[H|[]]]; injection H as <- <- <-; intros [| |]; cbn; lia.
  - intros H. pose proof (H D1). pose proof (H D2). pose proof (H D3). cbn in *.
    assert (b = 0) by lia. assert (e = 0) by lia. assert (Q : a = 0 \/ a = 1) by lia.
    destruct Q; subst; auto.
Qed.

(** C10 (with C12).  After the boundary routine, every zone of every process in
    the padded block (faces, edges and corners) holds the value of the global
    field extended direction by direction: periodic directions wrap, outflow
    copies the nearest active zone, polar mirrors, transformed by [tr]. *)
Theorem C10_ghosts : forall (V : Type) (tr : dir -> bc -> v3 -> v3 -> V -> V) g st F,
  bc_ok g -> (forall d, dir_ok g d) -> not_x3r_outflow g D3 ->
  represents g F st ->
  forall c z, on_grid g c -> (forall d, - NG <= get d z < get d (nloc g) + NG) ->
    bound_prim tr g st c z = ext3 tr g F (gz g c z).
Proof. exact @bound_prim_ok. Qed.
Print Assumptions C10_ghosts.

Definition ex_h : hcfg := HCfg (V3 3 4 3) (V3 2 1 3)
  (fun d => match d with D1 => Outflow | D2 => Polar | D3 => Periodic end)
  (fun d => match d with D1 => Outflow | D2 => Polar | D3 => Periodic end).
Definition ex_F (z : v3) (ip : nat) : Z := 100 * v1 z + 10 * v2 z + v3_ z.
Definition ex_tr := tr_prim Z.opp (fun _ _ v => v + 5000).
Definition ex_st (c z : v3) : nat -> Z :=
  if interior (v1 (nloc ex_h)) (v1 z) && interior (v2 (nloc ex_h)) (v2 z) && interior (v3_ (nloc ex_h)) (v3_ z)
  then ex_F (gz ex_h c z) else fun _ => -77.
(** A corner ghost of the last process: outside in all three directions. *)
Example C10_nonvacuous :
  bc_ok ex_h /\ (forall d, dir_ok ex_h d) /\ not_x3r_outflow ex_h D3 /\
  represents ex_h ex_F ex_st /\
  bound_prim ex_tr ex_h ex_st (V3 1 0 2) (V3 4 (-2) 3) 0%nat = 510 /\
  bound_prim ex_tr ex_h ex_st (V3 1 0 2) (V3 4 (-2) 3) 6%nat = - 5510.
Proof.
  split; [|split; [|split; [|split; [|split]]]].
  - split; [intros [| |]; cbn; split; congruence|repeat split; discriminate].
  - intros [| |]; unfold dir_ok, NG; cbn; lia.
  - intros _ H. discriminate.
  - intros c z Hc Hz. unfold ex_st. pose proof (Hz D1). pose proof (Hz D2). pose proof (Hz D3).
    unfold interior. cbn [get] in *.
    replace (_ && _) with true by lia. reflexivity.
  - vm_compute. reflexivity.
  - vm_compute. reflexivity.
Qed.

(** C10 limits: with blocks narrower than the ghost region the claim fails. *)
Theorem C10_narrow_refuted : exists g (F : v3 -> Z) st c z,
  bc_ok g /\ (forall d, 0 < get d (nloc g) /\ 0 < get d (nproc g)) /\ represents g F st /\ on_grid g c /\
  per g D1 = true /\ get D1 z = -3 /\
  bound_prim copy g st c z <> F (set D1 (get D1 (gz g c z) mod ntot g D1) (gz g c z)).
Proof. exact narrow_refuted. Qed.
Print Assumptions C10_narrow_refuted.

(** C12.  Face ghosts, one direction at a time.  Full claim: for all faces.
    Missing: outflow at the right X3 face ([not_x3r_outflow]), where it is
    false, see [C12_x3r_outflow_refuted]. *)
Theorem C12_face_partial : forall (V : Type) (tr : dir -> bc -> v3 -> v3 -> V -> V) g st F d c z,
  bc_ok g -> (forall d, dir_ok g d) -> not_x3r_outflow g D3 -> represents g F st ->
  NG <= get d (nloc g) -> on_grid g c ->
  (forall e, e <> d -> 0 <= get e z < get e (nloc g)) ->
  (- NG <= get d z < 0 /\ get d c = 0 \/
   get d (nloc g) <= get d z < get d (nloc g) + NG /\ get d c = get d (nproc g) - 1) ->
  let b := if get d z <? 0 then bcL g d else bcR g d in
  let G := gz g c z in
  let G0 := set d (source b (ntot g d) (get d G)) G in
  bound_prim tr g st c z = match b with Periodic => F G0 | _ => tr d b G0 G (F G0) end.
Proof. exact @face_ghost. Qed.
Print Assumptions C12_face_partial.

(** C12, polar: mirror images are equidistant from the pole face, mirroring
    twice is the identity on indices and on primitive vectors. *)
Theorem C12_mirror : forall n x, NG <= n -> - NG <= x < 0 \/ n <= x < n + NG ->
  let m := source Polar n x in
  (x < 0 -> - 1 - m = x) /\ (n <= x -> 2 * n - 1 - m = x) /\
  (x < 0 -> 2 * m + 1 = - (2 * x + 1)) /\ (n <= x -> 2 * n - (2 * m + 1) = (2 * x + 1) - 2 * n).
Proof. exact mirror_twice. Qed.
Print Assumptions C12_mirror.
Theorem C12_polar_twice : forall (T : Type) (neg : T -> T) resc d z0 z z1 z2 (v : nat -> T) ip,
  (forall t, neg (neg t) = t) ->
  tr_prim neg resc d Polar z0 z (tr_prim neg resc d Polar z1 z2 v) ip = v ip.
Proof. exact @polar_twice. Qed.
Print Assumptions C12_polar_twice.
(** What the copies do to the primitives: the pole negates the second component
    of velocity and field, X1 outflow rescales the field, nothing else changes. *)
Theorem C12_primitives : forall (T : Type) (neg : T -> T) resc d z0 z v,
  (unpack (tr_prim neg resc d Polar z0 z v) =
    let '(s, u, b) := unpack v in (s, reflect2 neg u, reflect2 neg b)) /\
  (unpack (tr_prim neg resc D1 Outflow z0 z v) =
    let '(s, u, b) := unpack v in (s, u, scale3 (resc z0 z) b)) /\
  (d <> D1 -> forall ip, tr_prim neg resc d Outflow z0 z v ip = v ip) /\
  (forall ip, (8 <= ip)%nat -> tr_prim neg resc d Polar z0 z v ip = v ip /\
                        tr_prim neg resc D1 Outflow z0 z v ip = v ip).
Proof. exact @transform_prims. Qed.
Print Assumptions C12_primitives.
(** The zone read always lies inside the active block. *)
Theorem C12_source_in_range : forall b n x, NG <= n -> - NG <= x < 0 \/ n <= x < n + NG ->
  0 <= source b n x < n.
Proof. exact source_in_range. Qed.
Print Assumptions C12_source_in_range.
Example C12_nonvacuous : source Polar 4 (-2) = 1 /\ source Polar 4 5 = 2 /\ source Outflow 4 5 = 3 /\
  tr_prim Z.opp (fun _ _ v => v) D2 Polar (V3 0 0 0) (V3 0 0 0) (fun ip => Z.of_nat ip) 6%nat = -6.
Proof. repeat split. Qed.

Theorem C12_x3r_outflow_refuted : exists g (F : v3 -> Z) st c z,
  bc_ok g /\ (forall d, dir_ok g d) /\ represents g F st /\ on_grid g c /\
  (forall d, - NG <= get d z < get d (nloc g) + NG) /\ get D3 z = get D3 (nloc g) /\
  bound_prim copy g st c z <> ext3 copy g F (gz g c z) /\
  bound_prim copy g st c z = F (V3 0 0 0) /\ ext3 copy g F (gz g c z) = F (V3 0 0 3).
Proof. exact x3r_outflow_refuted. Qed.
Print Assumptions C12_x3r_outflow_refuted.

(** C11.  After the reduction each interior zone holds the sum over all
    processes of what was deposited for it, for any commutative monoid of
    values; blocks of at least two zones. *)
Theorem C11_reduction : forall (M : Type) (zero : M) (plus : M -> M -> M),
  (forall a b, plus a b = plus b a) -> (forall a b c, plus a (plus b c) = plus (plus a b) c) ->
  (forall a, plus zero a = a) ->
  forall g st c z, (forall d, 2 <= get d (nloc g)) -> on_grid g c ->
  (forall d, 0 <= get d z < get d (nloc g)) ->
  sync_radG zero plus g st c z = deposited zero plus g st (gz g c z).
Proof. exact @sync_radG_ok. Qed.
Print Assumptions C11_reduction.

(** C11, total: the interior total after the reduction is the total deposited
    (ghost deposits beyond a non-periodic edge excepted; they have no owner). *)
Theorem C11_total : forall (M : Type) (zero : M) (plus : M -> M -> M),
  (forall a b, plus a b = plus b a) -> (forall a b c, plus a (plus b c) = plus (plus a b) c) ->
  (forall a, plus zero a = a) ->
  forall g st, (forall d, 2 <= get d (nloc g)) -> (forall d, 0 < get d (nproc g)) ->
  interior_total zero plus g (sync_radG zero plus g st) = deposit_total zero plus g st.
Proof. exact @sync_radG_total. Qed.
Print Assumptions C11_total.

Definition ex_r : hcfg := HCfg (V3 2 2 2) (V3 2 2 1) (fun d => match d with D3 => Periodic | _ => Outflow end)
  (fun d => match d with D3 => Periodic | _ => Outflow end).
(** A deposit in the corner ghost of process (0,0,0) reaches process (1,1,0). *)
Example C11_nonvacuous :
  let st c z := match c, z with V3 0 0 0, V3 2 2 (-1) => 7 | V3 1 1 0, V3 0 0 1 => 4 | _, _ => 0 end in
  sync_radG 0 Z.add ex_r st (V3 1 1 0) (V3 0 0 1) = 11 /\
  deposit_total 0 Z.add ex_r st = 11.
Proof. split; vm_compute; reflexivity. Qed.

(** C11 limit: with one zone per process a deposit is lost. *)
Theorem C11_thin_refuted : exists g (st : rank -> v3 -> Z) c z,
  (forall d, 0 < get d (nloc g)) /\ on_grid g c /\ (forall d, 0 <= get d z < get d (nloc g)) /\
  sync_radG 0 Z.add g st c z = 0 /\ deposited 0 Z.add g st (gz g c z) = 1.
Proof. exact thin_refuted. Qed.
Print Assumptions C11_thin_refuted.

(** C13.  The offsets are consecutive and every element of the file belongs to
    exactly one process, zero counts included. *)
Theorem C13_offsets : forall vals, Forall (fun v => 0 <= v) vals ->
  accumulate vals 0 = 0 /\
  (forall r v, nth_error vals r = Some v -> accumulate vals (S r) = accumulate vals r + v) /\
  (forall x, 0 <= x < accumulate vals (length vals) ->
     exists! r, exists v, nth_error vals r = Some v /\ accumulate vals r <= x < accumulate vals r + v).
Proof. exact offsets. Qed.
Print Assumptions C13_offsets.
Example C13_nonvacuous : Forall (fun v => 0 <= v) [3; 0; 5] /\
  map (accumulate [3; 0; 5]) [0%nat; 1%nat; 2%nat; 3%nat] = [0; 3; 3; 8].
Proof. split; [repeat constructor; lia|reflexivity]. Qed.
