(** Property theorems C32: interpolation to the positions of tracers. *)
From Coq Require Import Reals Bool ZArith List Lra Lia.
From Verif Require Import RLib XLib IntLib BinModel LagModel LagSpec LagProofs.
Import ListNotations.
Open Scope R_scope.

(** C32.  At a node the basis function of that node is one and the others vanish, for any
    number of distinct nodes. *)
Theorem C32_node : forall (xv : list R) i j, NoDup xv -> (i < length xv)%nat -> (j < length xv)%nat ->
  lagrange_basis j (nth i xv 0) xv = if Nat.eqb i j then 1 else 0.
Proof. exact basis_node. Qed.
Print Assumptions C32_node.
(** The weights sum to one at every point. *)
Theorem C32_partition : forall (xv : list R) x, NoDup xv -> xv <> [] -> sum_to (length xv) (fun j => lagrange_basis j x xv) = 1.
Proof. exact partition. Qed.
Print Assumptions C32_partition.
(** n nodes reproduce every polynomial with n coefficients, at every point. *)
Theorem C32_exact : forall c (xv : list R) x, NoDup xv -> xv <> [] -> (length c <= length xv)%nat ->
  sum_to (length xv) (fun j => poly c (nth j xv 0) * lagrange_basis j x xv) = poly c x.
Proof. exact exact_on. Qed.
Print Assumptions C32_exact.
(** If an array holds, in the 27 zones around the one a position is in, the values at zone
    centres of a polynomial of degree two in each coordinate, interpolation gives the value of
    that polynomial at the position. *)
Theorem C32_grid : forall m N2 N3 size v c ip i0 j0 k0, (forall dir, dx m dir <> 0) ->
  (forall i j k, (i0 - 1 <= i <= i0 + 1)%Z -> (j0 - 1 <= j <= j0 + 1)%Z -> (k0 - 1 <= k <= k0 + 1)%Z ->
    rd v (offset (N2 + 2 * NG) (N3 + 2 * NG) size i j k ip) =
    Some (triquad c (coord m CENT (fun _ => i) 1%nat) (coord m CENT (fun _ => j) 2%nat) (coord m CENT (fun _ => k) 3%nat))) ->
  forall X, Xtoijk m (fun n => Fin (X n)) 1 = Some i0 -> Xtoijk m (fun n => Fin (X n)) 2 = Some j0 -> Xtoijk m (fun n => Fin (X n)) 3 = Some k0 ->
  lagrange_interp_grid_3d m N2 N3 size v X ip = Some (triquad c (X 1%nat) (X 2%nat) (X 3%nat)).
Proof. exact grid_exact. Qed.
Print Assumptions C32_grid.
(** No read outside of the array for any position that is at least one zone inside the
    outer edge of the ghost zones. *)
Theorem C32_inside : forall m N1 N2 N3 size v X ip, (forall dir, 0 < dx m dir) ->
  (forall n, In n [N1; N2; N3] -> 0 < n /\ n + 2 * NG < 2147483647)%Z ->
  Z.of_nat (length v) = ((N1 + 2 * NG) * (N2 + 2 * NG) * (N3 + 2 * NG) * size)%Z -> (0 <= ip < size)%Z ->
  (forall dir n, In (dir, n) [(1%nat, N1); (2%nat, N2); (3%nat, N3)] ->
    coord m CORN (fun _ => 1%Z) dir <= X dir < coord m CORN (fun _ => (n + 2 * NG - 1)%Z) dir) ->
  exists f, lagrange_interp_grid_3d m N2 N3 size v X ip = Some f.
Proof. exact grid_inside. Qed.
Print Assumptions C32_inside.
(** In the outermost ghost zone of the first direction, and so for every position beyond it,
    the stencil reads before the start of the array. *)
Theorem C32_outer : forall m N2 N3 size v X ip j0 k0,
  Xtoijk m (fun n => Fin (X n)) 1 = Some 0%Z -> Xtoijk m (fun n => Fin (X n)) 2 = Some j0 -> Xtoijk m (fun n => Fin (X n)) 3 = Some k0 ->
  (0 <= ip < size)%Z -> (1 <= j0 <= N2 + 2 * NG - 2)%Z -> (1 <= k0 <= N3 + 2 * NG - 2)%Z ->
  lagrange_interp_grid_3d m N2 N3 size v X ip = None.
Proof. exact grid_outer. Qed.
Print Assumptions C32_outer.
(** Three nodes and x^2 at 3; a position in the one zone of a grid and one in its outermost
    ghost zone. *)
Example C32_nonvacuous :
  sum_to 3 (fun j => poly [0; 0; 1] (nth j [0; 1; 2] 0) * lagrange_basis j 3 [0; 1; 2]) = 9 /\
  (exists m : grid, (forall dir, 0 < dx m dir) /\
    Xtoijk m (fun n => Fin (nth n [0; 1 / 3; 1 / 3; 1 / 3] 0)) 1 = Some 3%Z /\
    Xtoijk m (fun n => Fin (nth n [0; -5 / 2; 1 / 3; 1 / 3] 0)) 1 = Some 0%Z).
Proof. exact grid_example. Qed.
