(** Vocabulary for reconstruction (C36-C38). *)
From Coq Require Import Reals.
Open Scope R_scope.

Definition between (a b x : R) : Prop := Rmin a b <= x <= Rmax a b.
Definition swap {T} (p : T * T) : T * T := (snd p, fst p).

(** Polynomial of degree at most four and its averages over the unit zone
    centred at [i]. *)
Definition poly (c0 c1 c2 c3 c4 x : R) : R := c0 + c1 * x + c2 * x ^ 2 + c3 * x ^ 3 + c4 * x ^ 4.
Definition primitive_of (c0 c1 c2 c3 c4 x : R) : R :=
  c0 * x + c1 * x ^ 2 / 2 + c2 * x ^ 3 / 3 + c3 * x ^ 4 / 4 + c4 * x ^ 5 / 5.
Definition zone_average (c0 c1 c2 c3 c4 i : R) : R :=
  primitive_of c0 c1 c2 c3 c4 (i + 1 / 2) - primitive_of c0 c1 c2 c3 c4 (i - 1 / 2).

(** The middle one of three numbers. *)
Definition middle (a b c : R) : R := Rmax (Rmin a b) (Rmin (Rmax a b) c).
