(** Vocabulary for tables. *)
From Coq Require Import Reals ZArith List.
From Verif Require Import RLib XLib IntLib.
Import ListNotations.
Open Scope R_scope.

(** equally spaced abscissae from x0 at the indices lo up to hi - 1 *)
Definition uniform (l : list R) (lo hi : Z) (x0 d : R) : Prop :=
  forall i, (lo <= i < hi)%Z -> rd l i = Some (x0 + IZR (i - lo) * d).
(** r is where x lies in a table from lo to hi: x itself if inside, the lower end if below,
    and less than tol before the upper end if above *)
Definition placed (lo hi tol : R) (x : X) (r : R) : Prop :=
  match x with
  | Fin y => (y < lo /\ r = lo) \/ (lo <= y < hi /\ r = y) \/ (hi <= y /\ r = hi - tol)
  | PInf => r = hi - tol
  | NInf => r = lo
  | NaN => False
  end.
Definition between (a b v : R) : Prop := Rmin a b <= v <= Rmax a b.
(** a table of a function of three variables: entry (i, j, k) of n1 by n2 by n3 entries *)
Definition tabulates (f : R -> R -> R -> R) (a b c : list R) (tab : list R) : Prop :=
  length tab = (length a * length b * length c)%nat /\
  forall i j k x y z, rd a i = Some x -> rd b j = Some y -> rd c k = Some z ->
    rd tab (Z.of_nat (length a) * (k * Z.of_nat (length b) + j) + i)%Z = Some (f x y z).
(** linear in each variable *)
Definition trilinear (f : R -> R -> R -> R) : Prop :=
  exists c0 c1 c2 c3 c4 c5 c6 c7, forall x y z,
    f x y z = c0 + c1 * x + c2 * y + c3 * z + c4 * (x * y) + c5 * (x * z) + c6 * (y * z) + c7 * (x * y * z).
(** an axis with equal spacing d between its first and last value *)
Definition even (a : list R) (d : R) : Prop := (2 <= length a)%nat /\ (Z.of_nat (length a) <= 2147483647)%Z /\ 0 < d /\ uniform a 0 (Z.of_nat (length a)) (nth 0 a 0) d.
