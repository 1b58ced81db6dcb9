(** Specification of the edges of the radiation domain. *)
From Coq Require Import Reals Bool.
From Verif Require Import ExchModel RimModel.
Open Scope R_scope.

(** The outer edge is that of the gas for tracers, of the radiation for packets. *)
Definition outer (c : rim) (tracer : bool) (d : dir) : R :=
  match d with D1 => if tracer then hi_gas c else hi c D1 | _ => hi c d end.
(** Inside every edge that is not periodic, and in a black-hole metric at least
    three degrees from the axis. *)
Definition in_domain (c : rim) (tracer : bool) (X : dir -> R) : Prop :=
  (mks c = true -> PI / 60 <= th_of c X <= PI - PI / 60) /\
  forall d, (bL c d <> RPeriodic -> lo c d <= X d) /\ (bR c d <> RPeriodic -> X d <= outer c tracer d).
(** Edges the code implements: periodic or escape, and a camera at the outer
    edge of a black-hole metric. *)
Definition handled (c : rim) (b : rbc) (outer_x1 : bool) : Prop :=
  match b with RPeriodic | REscape => True | RCamera => outer_x1 = true /\ mks c = true | _ => False end.
Definition supported (c : rim) : Prop := forall d, handled c (bL c d) false /\ handled c (bR c d) (match d with D1 => true | _ => false end).
(** [X] is beyond an edge the code does not implement. *)
Definition beyond_unhandled (c : rim) (tracer : bool) (X : dir -> R) : Prop :=
  exists d, (X d < lo c d /\ ~ handled c (bL c d) false) \/
            (outer c tracer d < X d /\ ~ handled c (bR c d) (match d with D1 => true | _ => false end)).
