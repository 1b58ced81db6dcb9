(** The packet pusher.  core/push_superphotons.c:18-92, 150-252,
    core/rad_utils.c:370-384 (is_null), 429-530 (get_X_K_interp), 533-555. *)
From Coq Require Import Reals Bool Arith Lia.
From Verif Require Import RLib GeomModel.
Open Scope R_scope.

Section Push.
(** set_gcov followed by gcon_func at a position (core/coord.c:330-387,
    core/metric.c:12-16); any function here. *)
Variable gcon_at : vec -> mat.
(** static int killing[], push_superphotons.c:214-218: {1,1,1,1} in Minkowski space,
    {1,0,0,1} in MKS. *)
Variable killing : nat -> bool.

(** X, Kcov, Kcon of a packet at one time *)
Record state := mkst { X : vec; Kcov : vec; Kcon : vec }.

(** push_superphotons.c:203-207.  If Kcon[0] is zero the C result is not a number; the
    theorems that use these values assume it is not. *)
Definition get_X_source (K : vec) : vec := fun mu => K mu / K 0%nat.

(** push_superphotons.c:210-250, DELTA = 1e-6 (209) *)
Definition DELTAK : R := / 10 ^ 6.
Definition get_K_source (x kcov kcon : vec) : vec := fun mu =>
  if killing mu then 0
  else
    let gconp := gcon_at (bump x mu DELTAK) in
    let gconm := gcon_at (bump x mu (- DELTAK)) in
    let dG nu kap := (gconp nu kap - gconm nu kap) / ((x mu + DELTAK) - (x mu - DELTAK)) in
    sum4 (fun nu => sum4 (fun kap => kcov nu * kcov kap * dG nu kap)) * (-1 / (2 * kcon 0%nat)).

(** push_superphotons.c:150-201.  Kcov[0] is outside the final loop (mu = 1..3). *)
Definition push (dt : R) (s : state) : state :=
  let kcontmp := raise (Kcov s) (gcon_at (X s)) in
  let c1 := get_X_source kcontmp in
  let d1 := get_K_source (X s) (Kcov s) kcontmp in
  let xtmp : vec := fun mu => X s mu + dt * c1 mu in
  let kcovtmp : vec := fun mu => Kcov s mu + dt * d1 mu in
  let kcontmp := raise kcovtmp (gcon_at xtmp) in
  let c2 := get_X_source kcontmp in
  let d2 := get_K_source xtmp kcovtmp kcontmp in
  let x : vec := fun mu => if Nat.eqb mu 0 then X s mu + dt else X s mu + 1 / 2 * dt * (c1 mu + c2 mu) in
  let k : vec := fun mu => if Nat.eqb mu 0 then Kcov s mu else Kcov s mu + 1 / 2 * dt * (d1 mu + d2 mu) in
  mkst x k (raise k (gcon_at x)).

(** run-time parameter kdotk_tol *)
Variable kdotk_tol : R.

(** rad_utils.c:370-384; K0 is the covariant time component before the push.  With
    K0 = 0 the C quotient is infinite or not a number, and the test fails. *)
Definition dot (a b : vec) : R := sum4 (fun mu => a mu * b mu).
Definition is_null (s : state) (K0 KdotKprev : R) : bool :=
  if Reqb K0 0 then false
  else Rltb (Rabs (dot (Kcov s) (Kcon s) - KdotKprev) / K0 ^ 2) kdotk_tol.

(** Doing the same thing n times. *)
Fixpoint times (n : nat) (f : state -> state) (s : state) : state :=
  match n with O => s | S n => times n f (f s) end.

(** One pass of the do loop, push_superphotons.c:37-61: 2^n pushes of dtpush / 2^n.
    [pusher] is push for photons and push_tracers for tracers, whose nullness is not
    checked (59-60). *)
Definition attempt (pusher : R -> state -> state) (s : state) (dtpush : R) (n : nat) : state :=
  times (2 ^ n) (pusher (dtpush / 2 ^ n)) s.
Inductive status := PUSH_FAIL | PUSH_SUCCESS.
Definition MAX_SUBDIV := 10%nat.
(** the do-while loop 36-65 from nsubdiv = n on; [fuel] = MAX_SUBDIV - 1 - n further passes are allowed *)
Fixpoint subdivide (pusher : R -> state -> state) (good : state -> bool) (s : state) (dtpush : R) (n fuel : nat) : state * nat :=
  let s' := attempt pusher s dtpush n in
  match fuel with
  | O => (s', S n)
  | S f => if good s' then (s', S n) else subdivide pusher good s dtpush (S n) f
  end.
(** 18-74 *)
Definition push_X_K (pusher : R -> state -> state) (tracer : bool) (s : state) (KdotKprev dtpush : R) : state * status :=
  let good s' := tracer || is_null s' (Kcov s 0%nat) KdotKprev in
  let '(s', nsubdiv) := subdivide pusher good s dtpush 0 (MAX_SUBDIV - 1) in
  (s', if Nat.eqb nsubdiv MAX_SUBDIV then PUSH_FAIL else PUSH_SUCCESS).

(** The three stored states of a packet, decs.h:574-580. *)
Record history := mkhist { s0 : state; s1 : state; s2 : state }.
(** push_superphotons.c:77-92 *)
Definition push_superphoton (h : history) (KdotKprev dtpush : R) : history * R * status :=
  let '(s', st) := push_X_K push false (s2 h) KdotKprev dtpush in
  (mkhist (s1 h) (s2 h) s', dot (Kcov s') (Kcon s'), st).

(** rad_utils.c:429-530.  (1 - 1e-50) and (1 + 1e-50) are exactly one in double
    precision.  The result is None where the program exits (BAD INTERPOLATION) and
    otherwise the interpolated state with its status.  With equal times of the two
    points the C quotient is not a number; the theorems exclude it. *)
Definition lin (fac : R) (a b : vec) : vec := fun mu => fac * b mu + (1 - fac) * a mu.
Definition interp (ti : R) (a b : state) : state :=
  let fac := (ti - X a 0%nat) / (X b 0%nat - X a 0%nat) in
  mkst (lin fac (X a) (X b)) (lin fac (Kcov a) (Kcov b)) (lin fac (Kcon a) (Kcon b)).
Definition get_X_K_interp (h : history) (ti : R) : option (state * status) :=
  if Reqb ti (X (s2 h) 0%nat) then Some (s2 h, PUSH_SUCCESS)
  else
    let early := Rltb ti (X (s1 h) 0%nat) in
    if negb early && negb (Rleb ti (X (s2 h) 0%nat)) then None
    else
      let a := if early then s0 h else s1 h in
      let b := if early then s1 h else s2 h in
      let s := interp ti a b in
      let prev := dot (Kcov a) (Kcon a) in
      if Rltb (100 * kdotk_tol) (Rabs ((dot (Kcon s) (Kcov s) - prev) / (Kcov s 0%nat * Kcov s 0%nat)))
      then Some (push_X_K push false a prev (ti - X a 0%nat))
      else Some (s, PUSH_SUCCESS).
End Push.

(** The two metrics the code has: which components of the source are skipped. *)
Definition killing_minkowski (mu : nat) : bool := true.
Definition killing_mks (mu : nat) : bool := Nat.eqb mu 0 || Nat.eqb mu 3.
(** core/coord.c:330-387, METRIC == MINKOWSKI, and its inverse *)
Definition eta : mat := fun i j => if Nat.eqb i j then (if Nat.eqb i 0 then -1 else 1) else 0.

(** core/tracers.c:124-150: the pusher of tracers, as far as time is concerned.  The
    right-hand side of the equation of motion is any function. *)
Definition push_tracers (rhs rhs_half : vec -> vec) (ucov ucon : vec -> vec) (dt : R) (s : state) : state :=
  let k : vec := fun mu => if Nat.eqb mu 0 then 0 else X s mu + 1 / 2 * dt * rhs (X s) mu in
  let x : vec := fun mu => if Nat.eqb mu 0 then X s mu else X s mu + dt * rhs_half k mu in
  mkst (fun mu => if Nat.eqb mu 0 then x mu + dt else x mu) (ucov x) (ucon x).
