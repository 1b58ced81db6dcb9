(** Specification vocabulary for the packet exchange. *)
From Coq Require Import ZArith List Bool.
Import ListNotations.
From Verif Require Import ExchModel.
Open Scope Z_scope.

Definition valid (g : cfg) (c : rank) : Prop := forall d, 0 <= get d c < get d (ncpu g).

(** All packets of all processes, tagged with the holder. *)
Definition everything (g : cfg) (f : rank -> list pkt) : list (rank * pkt) :=
  flat_map (fun c => map (pair c) (f c)) (ranks g).

(** Process [c]'s sub-domain contains the position. *)
Definition owns (g : cfg) (c : rank) (X : v3) : Prop :=
  forall d, startx_proc g c d <= get d X <= stopx_proc g c d.

(** Same point of the (possibly periodic) domain. *)
Definition same_point (g : cfg) (X Y : v3) : Prop :=
  forall d, if periodic g d
    then exists k, get d Y = get d X + k * (get d (ncpu g) * get d (width g))
    else get d Y = get d X.

Definition in_domain (g : cfg) (d : dir) (X : v3) : Prop :=
  startx_rad g d <= get d X <= stopx_rad g d.

(** A packet as the caller hands it over (bounds.c:368-409): it is outside the
    sender's sub-domain in a direction with more than one process, it moved by
    at most one sub-domain, it is inside the domain in non-periodic directions
    (it would have been lost otherwise), and inside in directions with a single
    process (periodic ones were wrapped already). *)
Record handed_over (g : cfg) (c : rank) (X : v3) : Prop := {
  ho_out : hands_over g c X = true;
  ho_near : forall d, startx_proc g c d - get d (width g) <= get d X
                      <= stopx_proc g c d + get d (width g);
  ho_dom : forall d, periodic g d = false -> in_domain g d X;
  ho_single : forall d, get d (ncpu g) = 1 -> in_domain g d X
}.

Definition outside (g : cfg) (c : rank) (d : dir) (X : v3) : Prop :=
  get d X < startx_proc g c d \/ stopx_proc g c d < get d X.

(** The situation the code gets wrong: a packet leaving the sender's block in
    X1 and in X2, and leaving the whole domain in X3, with three or more
    processes along X3. *)
Definition corner_wrap (g : cfg) (c : rank) (X : v3) : Prop :=
  3 <= get D3 (ncpu g) /\ outside g c D1 X /\ outside g c D2 X /\ ~ in_domain g D3 X.

Definition good_cfg (g : cfg) : Prop :=
  forall d, 0 < get d (ncpu g) /\ 0 < get d (width g).
