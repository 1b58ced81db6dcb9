(** Property theorems C99 (four-current). *)
From Coq Require Import Reals Bool ZArith Lia Lra.
From Verif Require Import RLib GeomModel GeomSpec FluxModel CurModel CurSpec CurProofs CurWit.
Open Scope R_scope.

(** Fcon_calc gives the field tensor of a perfect conductor: antisymmetric, no electric field
    in the frame of the fluid, and its dual is b u - u b (v and w are u and b with the index
    down). *)
Theorem C99_tensor : forall p ge u, gdet ge <> 0 -> ucon_calc (gcov ge) (gcon ge) (alpha ge) (vel p) = Some u ->
  let v := lower u (gcov ge) in let w := lower (bcon (CurModel.field p) u v) (gcov ge) in
  exists F : nat -> nat -> R, (forall m n, (m < 4)%nat -> (n < 4)%nat -> Fcon_calc p m n ge = Some (F m n) /\ F m n = - F n m /\
      1 / 2 * s4 (fun a => s4 (fun c => levi m n a c * F a c)) = w m * v n - w n * v m) /\
    (forall m, (m < 4)%nat -> s4 (fun n => F m n * v n) = 0 /\ s4 (fun n => F m n * w n) = 0).
Proof. exact tensor. Qed.
Print Assumptions C99_tensor.
(** In flat space the charge density and the current are those of Maxwell's equations with
    central differences of the time-centred fields, but with the opposite sign. *)
Theorem C99_charge_partial : forall dx dt P Ps nstep z, nstep <> 0%Z ->
  current_calc (fun _ _ => {| gcov := eta; gcon := eta; alpha := 1; gdet := 1 |}) dx dt nstep P Ps z 0 =
  Some (- divergence dx (fun z => electric (midway (vel (P z)) (vel (Ps z))) (midway (CurModel.field (P z)) (CurModel.field (Ps z)))) z / (4 * PI)).
Proof. exact charge_flat. Qed.
Print Assumptions C99_charge_partial.
Theorem C99_ampere_partial : forall dx dt P Ps nstep z m, nstep <> 0%Z -> (1 <= m < 4)%nat ->
  current_calc (fun _ _ => {| gcov := eta; gcon := eta; alpha := 1; gdet := 1 |}) dx dt nstep P Ps z m =
  Some (- (curl dx (fun z => midway (CurModel.field (P z)) (CurModel.field (Ps z))) z m -
           (electric (vel (P z)) (CurModel.field (P z)) m - electric (vel (Ps z)) (CurModel.field (Ps z)) m) / dt) / (4 * PI)).
Proof. exact ampere_flat. Qed.
Print Assumptions C99_ampere_partial.
(** Hence Ampere's law does not hold as it stands: a field whose curl is -1 has the current 1
    over 4 pi. *)
Theorem C99_sign_refuted : exists dx dt P Ps z j, 0 < dt /\ (forall d, 0 < dx d) /\
  current_calc (fun _ _ => {| gcov := eta; gcon := eta; alpha := 1; gdet := 1 |}) dx dt 1 P Ps z 2 = Some j /\
  4 * PI * j = 1 /\ curl dx (fun z => midway (CurModel.field (P z)) (CurModel.field (Ps z))) z 2 = -1 /\
  electric (vel (P z)) (CurModel.field (P z)) 2 = electric (vel (Ps z)) (CurModel.field (Ps z)) 2.
Proof. exact sign_refuted. Qed.
Print Assumptions C99_sign_refuted.
(** In every periodic box, flat or not, the total charge is zero. *)
Theorem C99_neutral : forall ggeom dx dt P Ps (n1 n2 n3 : nat),
  (forall i j, ggeom (i + Z.of_nat n1)%Z j = ggeom i j) -> (forall i j, ggeom i (j + Z.of_nat n2)%Z = ggeom i j) -> (forall i j, gdet (ggeom i j) <> 0) ->
  (forall i j k, P ((i + Z.of_nat n1)%Z, j, k) = P (i, j, k) /\ Ps ((i + Z.of_nat n1)%Z, j, k) = Ps (i, j, k)) ->
  (forall i j k, P (i, (j + Z.of_nat n2)%Z, k) = P (i, j, k) /\ Ps (i, (j + Z.of_nat n2)%Z, k) = Ps (i, j, k)) ->
  (forall i j k, P (i, j, (k + Z.of_nat n3)%Z) = P (i, j, k) /\ Ps (i, j, (k + Z.of_nat n3)%Z) = Ps (i, j, k)) ->
  forall nstep s q, nstep <> 0%Z -> (forall z, current_calc ggeom dx dt nstep P Ps z 0 = Some (q z)) ->
  box_sum s n1 n2 n3 (fun z => gdet (let '(i, j, _) := z in ggeom i j) * q z) = 0.
Proof. exact charge_total. Qed.
Print Assumptions C99_neutral.
(** a moving fluid in a period of four zones *)
Example C99_nonvacuous : let P := fun z : zone => let '(i, j, k) := z in
    {| vel := fun m => INR m; CurModel.field := fun m => IZR (i mod 4 + j mod 4) |} in
  (forall i j k, P ((i + Z.of_nat 4)%Z, j, k) = P (i, j, k)) /\ (forall i j k, P (i, (j + Z.of_nat 4)%Z, k) = P (i, j, k)) /\
  (forall i j k, P (i, j, (k + Z.of_nat 4)%Z) = P (i, j, k)) /\
  (forall z, exists q, current_calc (fun _ _ => {| gcov := eta; gcon := eta; alpha := 1; gdet := 1 |}) (fun _ => 1) 1 7 P P z 0 = Some q).
Proof.
  cbv zeta. assert (E : forall i, ((i + Z.of_nat 4) mod 4 = i mod 4)%Z) by (intros; change (Z.of_nat 4) with (1 * 4)%Z; apply Z.mod_add; lia).
  split; [intros; rewrite E; reflexivity|]. split; [intros; rewrite E; reflexivity|]. split; [reflexivity|]. intros z. eexists. apply charge_flat. lia.
Qed.
