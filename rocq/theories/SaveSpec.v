(** What must survive a restart. *)
From Coq Require Import List ZArith.
From Verif Require Import SaveModel.

(** All fields of a packet except the two flags is_tracked and has_oscillated. *)
Definition physical {F} (p : photon F) :=
  (X F p, Kcov F p, Kcon F p, w F p, KdotKprev F p, type F p, nscatt F p, origin F p, t0 F p).
