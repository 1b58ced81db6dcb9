(** Interpolation to the position of a tracer.  core/tracers.c:13-116, core/rad_utils.c:386-390. *)
From Coq Require Import Reals Bool ZArith List.
From Verif Require Import RLib XLib IntLib BinModel.
Import ListNotations.
Open Scope R_scope.

(** tracers.c:56-68; num_x is the length of x_values in every call.  Where two nodes coincide
    the C quotient is infinite or not a number: the theorems take distinct nodes. *)
Definition lagrange_basis (j : nat) (x : R) (x_values : list R) : R :=
  let num_x := length x_values in
  if (Nat.eqb num_x 0 || Nat.eqb num_x 1)%bool then 1
  else fold_left (fun l m => if Nat.eqb m j then l else l * ((x - nth m x_values 0) / (nth j x_values 0 - nth m x_values 0)))
         (seq 0 num_x) 1.

(** tracers.c:14-16 *)
Definition LA_STRIDE : Z := 1.
Definition LA_NP : nat := 3.
(** tracers.c:29-49, one direction: the centres of the zones i0 - 1, i0, i0 + 1.  coord gives
    component 1 (2, 3) from the first (second, third) index alone. *)
Definition get_nearby_coords (m : grid) (dir : nat) (i0 : Z) : list R :=
  map (fun i => coord m CENT (fun _ => (i0 - LA_STRIDE + Z.of_nat i)%Z) dir) (seq 0 LA_NP).

(** tracers.c:79-110 for one component ip of the result.  [v] is the whole array, of
    [length v] numbers; None is a read outside of it, or a position whose zone number is not
    an int.  Overflow of idx is not represented. *)
Definition lagrange_interp_grid_3d (m : grid) (N2 N3 size : Z) (v : list R) (X : nat -> R) (ip : Z) : option R :=
  let sj := (N2 + 2 * NG)%Z in
  let sk := (N3 + 2 * NG)%Z in
  let zone dir := Xtoijk m (fun n => Fin (X n)) dir in
  match zone 1%nat, zone 2%nat, zone 3%nat with
  | Some i0, Some j0, Some k0 =>
      fold_left (fun acc i =>
        let ir := (i0 - LA_STRIDE + Z.of_nat i)%Z in
        let lx := lagrange_basis i (X 1%nat) (get_nearby_coords m 1 i0) in
        fold_left (fun acc j =>
          let jr := (j0 - LA_STRIDE + Z.of_nat j)%Z in
          let ly := lagrange_basis j (X 2%nat) (get_nearby_coords m 2 j0) in
          fold_left (fun acc k =>
            let kr := (k0 - LA_STRIDE + Z.of_nat k)%Z in
            let lz := lagrange_basis k (X 3%nat) (get_nearby_coords m 3 k0) in
            let idx := (ip + size * (kr + sk * (jr + sj * ir)))%Z in
            match acc, rd v idx with
            | Some a, Some f => Some (a + f * lx * ly * lz)
            | _, _ => None
            end) (seq 0 LA_NP) acc) (seq 0 LA_NP) acc) (seq 0 LA_NP) (Some 0)
  | _, _, _ => None
  end.
