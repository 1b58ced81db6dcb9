(** Vocabulary for the repair of bad zones (C14), independent of the sweeps. *)
From Coq Require Import ZArith List Bool QArith.
Import ListNotations.
From Verif Require Import ExchModel FixModel.
Open Scope Z_scope.

Definition inside (n z : v3) : Prop := forall d, 0 <= get d z < get d n.
(** the block and one layer of ghost zones *)
Definition near (n z : v3) : Prop := forall d, -1 <= get d z <= get d n.
Definition adjacent (z w : v3) : Prop := forall d, Z.abs (get d w - get d z) <= 1.

(** A zone whose primitives may be used at the start: inversion succeeded
    (pflag 0) and the zone is not beyond the edges in all three directions. *)
Definition usable (n : v3) (pflag : v3 -> Z) (z : v3) : Prop :=
  pflag z = 0 /\ exists d, 0 <= get d z < get d n.

Definition qsum {T} (f : T -> Q) (l : list T) : Q := fold_right (fun a s => (f a + s)%Q) 0%Q l.

(** [x] is a convex combination, component by component for the non-magnetic
    primitives, of the values [P] in the zones adjacent to [z] that satisfy [S],
    each of them with positive weight. *)
Definition convex_of (S : v3 -> Prop) (P : v3 -> prims) (z : v3) (x : prims) : Prop :=
  exists ws : list (v3 * Q),
    (forall w q, In (w, q) ws -> adjacent z w /\ S w /\ (0 < q)%Q) /\
    (forall w, adjacent z w -> S w -> exists q, In (w, q) ws) /\
    (qsum snd ws == 1)%Q /\
    (forall ip, (ip < 5)%nat -> (x ip == qsum (fun wq => snd wq * P (fst wq) ip) ws)%Q).
