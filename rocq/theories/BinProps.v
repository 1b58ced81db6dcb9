(** Property theorems C09, C64 and C81 (zones and bins). *)
From Coq Require Import Reals Bool ZArith List Lia Lra.
From Verif Require Import RLib XLib IntLib BinModel BinSpec BinProofs.
Open Scope R_scope.

(** C09.  Whatever the origin, spacing and process offset, the zone found for the centre, a
    face or the corner of a zone is that zone. *)
Theorem C09_centre : forall m l ijk dir, 0 < dx m dir -> (0 <= ijk dir <= 2147483647)%Z ->
  Xtoijk m (fun n => Fin (coord m l ijk n)) dir = Some (ijk dir).
Proof. exact centre_back. Qed.
Print Assumptions C09_centre.
(** The centre is half way between neighbouring corners, which are one spacing apart; a face
    is at the corner in its own direction and at the centre in the others. *)
Theorem C09_places : forall m ijk dir, (1 <= dir <= 3)%nat ->
  coord m CENT ijk dir = (coord m CORN ijk dir + coord m CORN (fun n => (ijk n + 1)%Z) dir) / 2 /\
  coord m CORN (fun n => (ijk n + 1)%Z) dir = coord m CORN ijk dir + dx m dir /\
  coord m FACE1 ijk dir = coord m (if Nat.eqb dir 1 then CORN else CENT) ijk dir /\
  coord m FACE2 ijk dir = coord m (if Nat.eqb dir 2 then CORN else CENT) ijk dir /\
  coord m FACE3 ijk dir = coord m (if Nat.eqb dir 3 then CORN else CENT) ijk dir.
Proof. exact places. Qed.
Print Assumptions C09_places.
(** Every position between two neighbouring corners is attributed to the first one's zone. *)
Theorem C09_position : forall m x ijk dir, 0 < dx m dir -> (0 <= ijk dir <= 2147483647)%Z ->
  coord m CORN ijk dir <= x < coord m CORN (fun n => (ijk n + 1)%Z) dir -> Xtoijk m (fun _ => Fin x) dir = Some (ijk dir).
Proof. exact position. Qed.
Print Assumptions C09_position.
(** A position in the zone before the first ghost zone is attributed to that ghost zone. *)
Theorem C09_below_refuted : exists m x dir, 0 < dx m dir /\
  coord m CORN (fun _ => (-1)%Z) dir <= x < coord m CORN (fun _ => 0%Z) dir /\ Xtoijk m (fun _ => Fin x) dir = Some 0%Z.
Proof. exact below_refuted. Qed.
Print Assumptions C09_below_refuted.
Example C09_nonvacuous : let m := Build_grid (fun _ => 1) (fun _ => 1 / 4) (fun _ => 8%Z) in
  0 < dx m 2 /\ coord m CENT (fun _ => 5%Z) 2%nat = 1 + 42 / 16.
Proof. cbn [dx]. split; [lra|]. unfold coord, coord1. cbn [start dx gs centred]. change (IZR NG) with 3. change (5 + 8)%Z with 13%Z. lra. Qed.

(** C64.  For every number of bins, a packet leaving at a polar angle in [0, pi), an azimuth
    that is not negative and a frequency in the recorded range is recorded in an existing bin,
    the one that contains it. *)
Theorem C64_record_partial : forall NTH NPHI NUB numin numax,
  (0 < NTH <= 2147483647)%Z -> (0 < NPHI <= 2147483647)%Z -> (0 < NUB <= 2147483646)%Z -> 0 < numin < numax ->
  forall th x3 nu, 0 <= th < PI -> 0 <= x3 -> numin <= nu < numax ->
  exists a b c phi, record_superphoton NTH NPHI NUB numin numax th x3 nu = Recorded a b c /\
    (0 <= a < NTH)%Z /\ (0 <= b < NPHI)%Z /\ (0 <= c < NUB)%Z /\ same_angle phi x3 /\
    in_bin 0 (PI / IZR NTH) a th /\ in_bin 0 (2 * PI / IZR NPHI) b phi /\ in_bin (ln numin) ((ln numax - ln numin) / IZR NUB) c (ln nu).
Proof. exact record_in. Qed.
Print Assumptions C64_record_partial.
(** Above the range nothing is recorded. *)
Theorem C64_above : forall NTH NPHI NUB numin numax, (0 < NUB <= 2147483646)%Z -> 0 < numin < numax ->
  forall th x3 nu, numax <= nu -> forall a b c, record_superphoton NTH NPHI NUB numin numax th x3 nu <> Recorded a b c.
Proof. exact record_above. Qed.
Print Assumptions C64_above.
(** On the lower axis the polar bin does not exist. *)
Theorem C64_pole_refuted : exists NTH NPHI NUB numin numax th x3 nu a b c, 0 <= th <= PI /\ 0 <= x3 /\ numin <= nu < numax /\
  record_superphoton NTH NPHI NUB numin numax th x3 nu = Recorded a b c /\ (NTH <= a)%Z.
Proof.
  exists 8%Z, 8%Z, 200%Z, 1, (exp 200), PI, 0, (exp 0), 8%Z, 0%Z, 0%Z. pose proof PI_pos. pose proof (exp_increasing 0 200 ltac:(lra)) as Q. rewrite exp_0 in Q at 1.
  rewrite exp_0. split; [lra|]. split; [lra|]. split; [lra|]. split; [|lia]. rewrite <- exp_0 at 2. exact pole_refuted.
Qed.
Print Assumptions C64_pole_refuted.
(** A negative azimuth, which a packet can have when it is recorded, gives a negative bin ... *)
Theorem C64_azimuth_refuted : exists NTH NPHI NUB numin numax th x3 nu a b c, 0 <= th < PI /\
  record_superphoton NTH NPHI NUB numin numax th x3 nu = Recorded a b c /\ (b < 0)%Z.
Proof. exists 8%Z, 8%Z, 200%Z, 1, (exp 200), (PI / 2), (- PI), (exp 0), 4%Z, (-4)%Z, 0%Z. pose proof PI_pos. split; [lra|]. split; [exact azimuth_refuted|lia]. Qed.
Print Assumptions C64_azimuth_refuted.
(** ... or an existing bin of another direction. *)
Theorem C64_wrap_refuted : exists NTH NPHI NUB numin numax th x3 nu a b c b' phi, 0 <= th < PI /\
  record_superphoton NTH NPHI NUB numin numax th x3 nu = Recorded a b c /\ same_angle phi x3 /\ in_bin 0 (2 * PI / IZR NPHI) b' phi /\
  (0 <= b' < NPHI)%Z /\ b <> b'.
Proof.
  exists 8%Z, 8%Z, 200%Z, 1, (exp 200), (PI / 2), (- (PI / 8)), (exp 0), 4%Z, 0%Z, 0%Z, 7%Z, (2 * PI - PI / 8). pose proof PI_pos.
  destruct wrap_refuted as (A & B & C). split; [lra|]. split; [exact A|]. split; [exact B|]. split; [exact C|]. split; [lia|discriminate].
Qed.
Print Assumptions C64_wrap_refuted.
(** Frequencies just below the range are recorded in its first bin. *)
Theorem C64_low_refuted : exists NTH NPHI NUB numin numax th x3 nu a b c, 0 <= th < PI /\ 0 <= x3 /\ 0 < nu < numin /\
  record_superphoton NTH NPHI NUB numin numax th x3 nu = Recorded a b c.
Proof.
  exists 8%Z, 8%Z, 200%Z, 1, (exp 200), (PI / 2), 0, (exp (- (1 / 2))), 4%Z, 0%Z, 0%Z. pose proof PI_pos. destruct low_refuted as (A & B).
  split; [lra|]. split; [lra|]. split; [split; [apply exp_pos|exact B]|exact A].
Qed.
Print Assumptions C64_low_refuted.
(** Binning by the direction of motion: every direction but straight down falls into the
    existing bin of its spherical angles. *)
Theorem C64_direction_partial : forall NTH NPHI NUB numin numax,
  (0 < NTH <= 2147483647)%Z -> (0 < NPHI <= 2147483647)%Z -> (0 < NUB <= 2147483646)%Z -> 0 < numin < numax ->
  forall x y z nu, (x <> 0 \/ y <> 0 \/ 0 < z) -> numin <= nu < numax ->
  exists a b c th phi, bin_direction NTH NPHI NUB numin numax x y z nu = Recorded a b c /\
    spherical x y z th phi /\ (0 <= a < NTH)%Z /\ (0 <= b < NPHI)%Z /\ (0 <= c < NUB)%Z /\
    in_bin 0 (PI / IZR NTH) a th /\ in_bin 0 (2 * PI / IZR NPHI) b phi /\ in_bin (ln numin) ((ln numax - ln numin) / IZR NUB) c (ln nu).
Proof. exact direction_in. Qed.
Print Assumptions C64_direction_partial.
Theorem C64_direction_refuted : exists NTH NPHI NUB numin numax x y z nu a b c, z < 0 /\
  bin_direction NTH NPHI NUB numin numax x y z nu = Recorded a b c /\ (NTH <= a)%Z.
Proof. exists 8%Z, 8%Z, 200%Z, 1, (exp 200), 0, 0, (-1), (exp 0), 8%Z, 0%Z, 0%Z. split; [lra|]. split; [exact down_refuted|lia]. Qed.
Print Assumptions C64_direction_refuted.
Example C64_nonvacuous : (0 < 8 <= 2147483647)%Z /\ (0 < 200 <= 2147483646)%Z /\ 0 < 1 < 2 /\ 0 <= 1 < PI /\ 0 <= 100 /\ 1 <= 3 / 2 < 2.
Proof. pose proof PI2_1. repeat split; try lia; lra. Qed.

(** C81.  The bin of a local distribution exists for every value that is a number, infinities
    included, contains the value when it is inside the grid and is the nearest one otherwise;
    for not-a-number the behaviour is undefined. *)
Theorem C81_bin : forall n x d, (0 < n <= 2147483647)%Z -> 0 < d -> x <> NaN ->
  exists k, local_bin n x d = Some k /\ (0 <= k < n)%Z /\
    match x with
    | Fin r => (r < 0 -> k = 0%Z) /\ (0 <= r < IZR n * d -> in_bin 0 d k r) /\ (IZR n * d <= r -> k = (n - 1)%Z)
    | NInf => k = 0%Z
    | _ => k = (n - 1)%Z
    end.
Proof. exact local_in. Qed.
Print Assumptions C81_bin.
Theorem C81_nan_outside : forall n d, local_bin n NaN d = None.
Proof. exact local_nan. Qed.
Print Assumptions C81_nan_outside.
Theorem C81_cosine_bin : forall NMU c, (0 < NMU <= 2147483647)%Z -> c <> NaN -> exists k, mu_bin NMU c = Some k /\ (0 <= k < NMU)%Z /\
  forall r, c = Fin r -> -1 <= r < 1 -> in_bin (-1) (2 / IZR NMU) k r.
Proof. exact mu_in. Qed.
Print Assumptions C81_cosine_bin.
(** The centre the grid file gives for a bin falls into that bin. *)
Theorem C81_centre : forall n d i, (0 < n <= 2147483647)%Z -> 0 < d -> (0 <= i < n)%Z -> local_bin n (Fin ((IZR i + 1 / 2) * d)) d = Some i.
Proof. exact local_centre. Qed.
Print Assumptions C81_centre.
(** For a diagonal spatial metric and no shift the number binned is the cosine of the angle
    to the basis vector, to within the two SMALLs, and lies in [-1, 1]. *)
Theorem C81_cosine_partial : forall g Kcov Kcon a, diagonal g -> (1 <= a <= 3)%nat ->
  (forall b, (1 <= b <= 3)%nat -> Kcov b = basis_dot g Kcon b) -> 0 < norm2 g Kcon ->
  -1 <= costh g Kcov Kcon a <= 1 /\
  Rabs (costh g Kcov Kcon a - direction_cosine g Kcon a) <= SMALL / sqrt (g a a) + SMALL / sqrt (norm2 g Kcon).
Proof. exact cosine_partial. Qed.
Print Assumptions C81_cosine_partial.
(** For other metrics it is not: a packet moving along the basis vector is not in the last bin. *)
Theorem C81_cosine_refuted : exists g Kcov Kcon, (forall a b, g a b = g b a) /\
  (forall K, (K 1%nat <> 0 \/ K 2%nat <> 0 \/ K 3%nat <> 0) -> 0 < norm2 g K) /\ (forall b, Kcov b = basis_dot g Kcon b) /\
  direction_cosine g Kcon 1 = 1 /\ mu_bin 20 (Fin (costh g Kcov Kcon 1)) = Some 18%Z.
Proof.
  exists skew, (basis_dot skew e1), e1. destruct cosine_refuted as (A & B & C). split; [|split; [exact C|split; [reflexivity|split; [exact A|exact B]]]].
  intros a b. unfold skew. rewrite Nat.eqb_sym, Nat.add_comm. reflexivity.
Qed.
Print Assumptions C81_cosine_refuted.
Example C81_nonvacuous : diagonal (fun a b => if Nat.eqb a b then 2 else 0) /\ 0 < norm2 (fun a b => if Nat.eqb a b then 2 else 0) (fun _ => 1).
Proof.
  split; [|unfold norm2; cbn [Nat.eqb]; lra]. intros a b _ _. destruct (Nat.eqb_spec a b); split; intros; congruence || lra.
Qed.
