(** Where packets leave the radiation domain: core/bounds.c:366-406 (one packet
    of bound_superphotons), 437-444 (rad_error_check), 592-728
    (bound_rad_isactive).  Real arithmetic.  The position at t + dt and whether
    its interpolation failed (get_X_K_interp, rad_utils.c:429-529) are given, and
    so is the hand-over test (modelled in ExchModel); the wrap of
    bound_rad_transport changes neither weight nor momentum.  What the camera
    does with a packet is BinModel's record_superphoton. *)
From Coq Require Import Reals Bool List.
From Verif Require Import RLib ExchModel.
Import ListNotations.
Open Scope R_scope.

(** decs.h:241-247, the kinds bound_rad_isactive tells apart.  BC_REQUILIB in
    lines 624 and 650 is not defined anywhere, so it is 0 for the preprocessor
    (BC_OUTFLOW); both it and what falls through to #else print and exit. *)
Inductive rbc := RPeriodic | REscape | REquilib | RCamera | ROther.

(** [mks]: METRIC == MKS, else MINKOWSKI; [th_of]: th_of_X (coord.c:94-104);
    [lo], [hi]: startx_rad, stopx_rad; [hi_gas]: stopx[1]; [bL], [bR]: the six
    RAD_BOUND switches. *)
Record rim := Rim {
  mks : bool; th_of : (dir -> R) -> R;
  lo : dir -> R; hi : dir -> R; hi_gas : R;
  bL : dir -> rbc; bR : dir -> rbc }.

(** exit(-1), or whether the packet is still active and whether the camera took
    it. *)
Inductive verdict := Exit | Act (active recorded : bool).
Definition bind (v : verdict) (f : bool -> bool -> verdict) : verdict :=
  match v with Exit => Exit | Act a r => f a r end.
Definition lose (a r : bool) : verdict := Act false r.

(** 604-618, 665-728: an edge other than the outer one in X1 *)
Definition plain_edge (b : rbc) (a r : bool) : verdict :=
  match b with RPeriodic => Act a r | REscape => lose a r | _ => Exit end.
(** 620-644: the outer edge, packets of radiation *)
Definition outer_edge (c : rim) (a r : bool) : verdict :=
  match bR c D1 with
  | RPeriodic => Act a r
  | REscape => lose a r
  | RCamera => if mks c then Act false true else Exit
  | _ => Exit
  end.
(** 648-663: the outer edge, tracers *)
Definition outer_tracer (c : rim) (a r : bool) : verdict :=
  match bR c D1 with
  | RPeriodic => Act a r
  | REscape => lose a r
  | RCamera => if mks c then lose a r else Exit
  | _ => Exit
  end.

(** bounds.c:592-728 *)
Definition bound_rad_isactive (c : rim) (tracer : bool) (X : dir -> R) : verdict :=
  let th := th_of c X * 180 / PI in
  let a0 := if mks c && (Rltb th 3 || Rltb 177 th) then false else true in
  let at_edge (b : bool) (f : bool -> bool -> verdict) v := if b then bind v f else v in
  at_edge (Rltb (hi c D3) (X D3)) (plain_edge (bR c D3))
  (at_edge (Rltb (X D3) (lo c D3)) (plain_edge (bL c D3))
  (at_edge (Rltb (hi c D2) (X D2)) (plain_edge (bR c D2))
  (at_edge (Rltb (X D2) (lo c D2)) (plain_edge (bL c D2))
  (at_edge (Rltb (hi_gas c) (X D1) && tracer) (outer_tracer c)
  (at_edge (Rltb (hi c D1) (X D1) && negb tracer) (outer_edge c)
  (at_edge (Rltb (X D1) (lo c D1)) (plain_edge (bL c D1))
     (Act a0 false))))))).

(** decs.h:87 *)
Definition SMALL : R := / 10 ^ 20.
(** bounds.c:437-444; [w]: weight, [k0]: Kcov[2][0] *)
Definition rad_error_check (w k0 : R) : bool :=
  if Rltb w SMALL || Rltb 0 k0 then false else true.

(** What one step sees of a packet: position at t + dt, whether the
    interpolation to it worked, weight and Kcov[2][0], and whether the position
    is outside the process (rad_mpi_transport, 447-473). *)
Record view := View { pos : dir -> R; interp_ok : bool; weight : R; k_0 : R; outside : bool }.
Inductive fate := Lost | Sent | Kept.
(** bounds.c:376-406: what becomes of the packet, and whether the camera took
    it. *)
Definition bound_packet (c : rim) (tracer : bool) (v : view) : option (fate * bool) :=
  match bound_rad_isactive c tracer (pos v) with
  | Exit => None
  | Act active_bc r =>
      let active_error := rad_error_check (weight v) (k_0 v) in
      if negb active_bc || negb active_error || negb (interp_ok v) then Some (Lost, r)
      else if outside v then Some (Sent, r) else Some (Kept, r)
  end.

(** ** A history of steps *)
(** A packet is known by a number; [tr] says whether it is a tracer. *)
Record packet := Packet { num : nat; tr : bool }.
(** One pass over the packets of all processes (lists are handled in PhListModel,
    the exchange in ExchModel; both conserve packets): the camera's records and
    the packets that go on. *)
Fixpoint pass (c : rim) (see : packet -> view) (l : list packet) : option (list packet * list packet) :=
  match l with
  | [] => Some ([], [])
  | p :: l =>
      match bound_packet c (tr p) (see p), pass c see l with
      | Some (f, r), Some (recs, rest) =>
          Some (if r then p :: recs else recs, match f with Lost => rest | _ => p :: rest end)
      | _, _ => None
      end
  end.
(** Every step new packets are born (make_superphotons, scattering) and then the
    boundary is seen to. *)
Fixpoint run (c : rim) (steps : list (list packet * (packet -> view))) (l : list packet) : option (list packet * list packet) :=
  match steps with
  | [] => Some ([], l)
  | (born, see) :: steps =>
      match pass c see (born ++ l) with
      | None => None
      | Some (recs, rest) =>
          match run c steps rest with
          | None => None
          | Some (recs', rest') => Some (recs ++ recs', rest')
          end
      end
  end.
