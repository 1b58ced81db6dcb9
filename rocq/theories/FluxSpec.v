(** Specification vocabulary for the flux properties. *)
From Coq Require Import Reals ZArith.
From Verif Require Import FluxModel.
Open Scope R_scope.

(** Corner-centred divergence of a zone-centred vector density: in each
    direction the difference across the corner, averaged over the four lines
    through the neighbouring zones. *)
Definition four (f : Z -> Z -> R) (j k : Z) : R :=
  (f j k + f (j - 1)%Z k + f j (k - 1)%Z + f (j - 1)%Z (k - 1)%Z) / 4.
Definition corner_div (dx1 dx2 dx3 : R) (b1 b2 b3 : Z -> Z -> Z -> R) (i j k : Z) : R :=
  (four (fun j k => b1 i j k) j k - four (fun j k => b1 (i - 1)%Z j k) j k) / dx1 +
  (four (fun i k => b2 i j k) i k - four (fun i k => b2 i (j - 1)%Z k) i k) / dx2 +
  (four (fun i j => b3 i j k) i j - four (fun i j => b3 i j (k - 1)%Z) i j) / dx3.
(** The eight zones around a corner. *)
Definition around (i j k x y z : Z) : Prop :=
  (x = i \/ x = i - 1)%Z /\ (y = j \/ y = j - 1)%Z /\ (z = k \/ z = k - 1)%Z.

Fixpoint Rsum (n : nat) (f : Z -> R) : R :=
  match n with O => 0 | S m => Rsum m f + f (Z.of_nat m) end.
Definition Rsum2 (n m : nat) (f : Z -> Z -> R) : R := Rsum n (fun i => Rsum m (fun j => f i j)).
Definition Rsum3 (n m l : nat) (f : Z -> Z -> Z -> R) : R :=
  Rsum n (fun i => Rsum m (fun j => Rsum l (fun k => f i j k))).

Section Blocks.
Variables (Dt dx1 dx2 dx3 : R) (g : Z -> Z -> R) (G1 G2 G3 P : field).
(** A process block: size, offset, its own flux arrays (windows of the global
    ones where flux_ct reads), stale emf values, four-velocities, sources. *)
Record block := Block {
  n1 : Z; n2 : Z; n3 : Z; o1 : Z; o2 : Z; o3 : Z;
  f1 : field; f2 : field; f3 : field;
  s1 : Z -> Z -> Z -> R; s2 : Z -> Z -> Z -> R; s3 : Z -> Z -> Z -> R;
  uc : Z -> Z -> Z -> nat -> R; ud : Z -> Z -> Z -> nat -> R; src : field }.
Definition near_block b i j k := (-1 <= i <= n1 b /\ -1 <= j <= n2 b /\ -1 <= k <= n3 b)%Z.
Definition inside_block b i j k := (0 <= i < n1 b /\ 0 <= j < n2 b /\ 0 <= k < n3 b)%Z.
Definition windows b :=
  (forall i j k ip, near_block b i j k ->
     ((0 <= i)%Z -> f1 b i j k ip = G1 (o1 b + i)%Z (o2 b + j)%Z (o3 b + k)%Z ip) /\
     ((0 <= j)%Z -> f2 b i j k ip = G2 (o1 b + i)%Z (o2 b + j)%Z (o3 b + k)%Z ip) /\
     ((0 <= k)%Z -> f3 b i j k ip = G3 (o1 b + i)%Z (o2 b + j)%Z (o3 b + k)%Z ip)) /\
  (forall i j k, inside_block b i j k -> uc b i j k 0%nat <> 0).
Definition block_advance b : field :=
  let F1 := ct1 (f1 b) (f2 b) (f3 b) (n1 b) (n2 b) (n3 b) (s2 b) (s3 b) in
  let F2 := ct2 (f1 b) (f2 b) (f3 b) (n1 b) (n2 b) (n3 b) (s1 b) (s3 b) in
  let F3 := ct3 (f1 b) (f2 b) (f3 b) (n1 b) (n2 b) (n3 b) (s1 b) (s2 b) in
  advance_B (n1 b) (n2 b) (n3 b) Dt dx1 dx2 dx3
    (fun i j => g (o1 b + i)%Z (o2 b + j)%Z) F1 F2 F3 (uc b) (ud b) (src b)
    (fun i j k ip => P (o1 b + i)%Z (o2 b + j)%Z (o3 b + k)%Z ip).

(** Zone (x,y,z) of the new global field [P'] was written by some process. *)
Definition covered (P' : field) x y z := exists b i j k,
  windows b /\ inside_block b i j k /\ (x = o1 b + i)%Z /\ (y = o2 b + j)%Z /\ (z = o3 b + k)%Z /\
  g x y <> 0 /\ forall ip, P' x y z ip = block_advance b i j k ip.

Definition dens (Q : field) c : Z -> Z -> Z -> R := fun x y z => g x y * Q x y z c.

End Blocks.

(** A function of position (in units of zones) that is linear in each coordinate. *)
Definition affine (E : R -> R -> R -> R) : Prop := exists p q r s, forall x y z, E x y z = p + q * x + r * y + s * z.
(** The magnetic fluxes that an electric field (E1, E2, E3) causes through the middles of the
    faces; face i of direction 1 lies half a zone before the centre of zone i. *)
Definition from_emf (E1 E2 E3 : R -> R -> R -> R) (F1 F2 F3 : field) : Prop :=
  (forall i j k, F1 i j k B1 = 0) /\ (forall i j k, F2 i j k B2 = 0) /\ (forall i j k, F3 i j k B3 = 0) /\
  (forall i j k, F1 i j k B2 = E3 (IZR i - 1/2) (IZR j) (IZR k)) /\ (forall i j k, F2 i j k B1 = - E3 (IZR i) (IZR j - 1/2) (IZR k)) /\
  (forall i j k, F1 i j k B3 = - E2 (IZR i - 1/2) (IZR j) (IZR k)) /\ (forall i j k, F3 i j k B1 = E2 (IZR i) (IZR j) (IZR k - 1/2)) /\
  (forall i j k, F2 i j k B3 = E1 (IZR i) (IZR j - 1/2) (IZR k)) /\ (forall i j k, F3 i j k B2 = - E1 (IZR i) (IZR j) (IZR k - 1/2)).
