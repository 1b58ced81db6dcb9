(** Linked lists of superphotons ("packets"): heap-level model.

    Transcribes core/rad_utils.c:170-181 (list_remove), 558-570 (swap_ph),
    core/push_superphotons.c:94-145 (push_superphotons),
    core/bounds.c:344-427 (bound_superphotons, local part), 447-473
    (rad_mpi_transport), core/tracers.c:400-422 (prune_tracers).

    A C heap of [struct of_photon] is a partial map from locations to a payload
    of type [A] (all fields but [next]) and the [next] pointer.  Location 0 is
    NULL.  Dereferencing NULL or a location that is not allocated is undefined
    behaviour in C; here it is the outcome [None].  [free] of an unallocated
    location is also [None]. *)
From Coq Require Import ZArith List Bool.
Import ListNotations.

Definition loc := nat.
Definition null : loc := 0.

Section Heap.
Context {A : Type}.

(** decs.h:574-593: struct of_photon, split in payload and [next]. *)
Definition heap := loc -> option (A * loc).

Definition load (h : heap) (p : loc) : option (A * loc) :=
  if Nat.eqb p null then None else h p.

Definition upd (h : heap) (p : loc) (v : option (A * loc)) : heap :=
  fun q => if Nat.eqb q p then v else h q.

(** [p->next = n] *)
Definition store_next (h : heap) (p n : loc) : option heap :=
  match load h p with
  | Some (a, _) => Some (upd h p (Some (a, n)))
  | None => None
  end.

(** assignment to payload fields of [*p] *)
Definition store_pay (h : heap) (p : loc) (a : A) : option heap :=
  match load h p with
  | Some (_, n) => Some (upd h p (Some (a, n)))
  | None => None
  end.

(** [free(p)] for a live heap object *)
Definition free (h : heap) (p : loc) : option heap :=
  match load h p with
  | Some _ => Some (upd h p None)
  | None => None
  end.

Definition next_of (h : heap) (p : loc) : option loc :=
  match load h p with Some (_, n) => Some n | None => None end.

Notation "'let*' x ':=' e 'in' k" :=
  (match e with Some x => k | None => None end)
  (at level 200, x pattern, e at level 100, k at level 200).

(** rad_utils.c:170-181, list_remove(&ph, &head, &prev).
    Returns the heap and the new values of [ph] and [head]. *)
Definition list_remove (h : heap) (ph head prev : loc)
  : option (heap * loc * loc) :=
  if negb (Nat.eqb prev null) then
    let* n := next_of h ph in
    let* h1 := store_next h prev n in
    let* h2 := free h1 ph in
    let* ph' := next_of h2 prev in
    Some (h2, ph', head)
  else
    let* n := next_of h ph in
    let head' := n in
    let* h1 := free h ph in
    Some (h1, head', head').

(** rad_utils.c:558-570, swap_ph(&donor, &recipient).
    Returns the heap and the new values of [donor] and [recipient]. *)
Definition swap_ph (h : heap) (donor recipient : loc)
  : option (heap * loc * loc) :=
  if Nat.eqb recipient null then
    let recipient' := donor in
    let* donor' := next_of h donor in
    let* h1 := store_next h recipient' null in
    Some (h1, donor', recipient')
  else
    let tmp := donor in
    let* donor' := next_of h donor in
    let* h1 := store_next h tmp recipient in
    Some (h1, donor', tmp).

(** The loop [while (ph != NULL) swap_ph(&ph, &dst);], bounds.c:420-422.
    Loops carry fuel; exhausted fuel is the outcome [None] and the theorems
    show that it does not occur. *)
Fixpoint drain (fuel : nat) (h : heap) (ph dst : loc) : option (heap * loc) :=
  match fuel with
  | O => None
  | S f =>
      if Nat.eqb ph null then Some (h, dst)
      else let* (h1, ph', dst') := swap_ph h ph dst in drain f h1 ph' dst'
  end.

(** Loop over all threads' hand-over lists, bounds.c:416-425.  Returns the
    heap, the merged list and the cleared per-thread heads. *)
Fixpoint merge_mpi (fuel : nat) (h : heap) (mpis : list loc) (dst : loc)
  : option (heap * loc) :=
  match mpis with
  | [] => Some (h, dst)
  | m :: ms =>
      if Nat.eqb m null then merge_mpi fuel h ms dst
      else let* (h1, dst') := drain fuel h m dst in merge_mpi fuel h1 ms dst'
  end.

(** push_superphotons.c:103-138, one thread.
    [needs a]: to_be_pushed; [push a]: the packet after push_superphoton and
    whether the status was PUSH_SUCCESS (rad fields only; the pusher does not
    touch [next]); [trac a]: type == TYPE_TRACER (of the pushed packet).
    Simplified: record_lepton_flux (diagnostic totals) is not modelled. *)
Record pstate := { p_heap : heap; p_head : loc; p_lost : Z; p_tot : Z; p_tracer : Z }.

Section Push.
Variable needs : A -> bool.
Variable push : A -> A * bool.
Variable trac : A -> bool.

Fixpoint push_loop (fuel : nat) (h : heap) (ph prev head : loc)
    (lost tot tr : Z) : option pstate :=
  match fuel with
  | O => None
  | S f =>
    if Nat.eqb ph null then
      Some {| p_heap := h; p_head := head; p_lost := lost; p_tot := tot; p_tracer := tr |}
    else
      let* (a, _) := load h ph in
      if needs a then
        let '(a', ok) := push a in
        let* h1 := store_pay h ph a' in
        if negb ok then
          let* (h2, ph', head') := list_remove h1 ph head prev in
          push_loop f h2 ph' prev head' (lost + 1) tot tr
        else
          let* n := next_of h1 ph in
          push_loop f h1 n ph head lost (tot + 1)
            (if trac a' then tr + 1 else tr)
      else
        let* n := next_of h ph in
        push_loop f h n ph head lost (tot + 1)
          (if trac a then tr + 1 else tr)
  end%Z.

(** One thread's part of push_superphotons: cursor = head = photon_lists[i]. *)
Definition push_thread (fuel : nat) (h : heap) (list_head : loc) : option pstate :=
  push_loop fuel h list_head null list_head 0 0 0.

(** All threads (push_superphotons.c:101-142).  The parallel region is run
    thread after thread; the threads touch disjoint lists.  Returns heap, new
    heads, and the reduced counters added to the globals. *)
Fixpoint push_all (fuel : nat) (h : heap) (heads : list loc)
    (step_lost step_tot tracer_tot : Z)
  : option (heap * list loc * (Z * Z * Z)) :=
  match heads with
  | [] => Some (h, [], (step_lost, step_tot, tracer_tot))
  | p :: ps =>
      let* s := push_thread fuel h p in
      let* (h', ps', c) := push_all fuel (p_heap s) ps
          (step_lost + p_lost s) (step_tot + p_tot s) (tracer_tot + p_tracer s) in
      Some (h', p_head s :: ps', c)
  end%Z.
End Push.

(** bounds.c:368-409, one thread of bound_superphotons, with
    rad_mpi_transport (447-473) inlined as the [send] branch.
    [move a]: the packet after bound_rad_transport(X, ph, 0);
    [inactive a]: !active_bc || !active_error || status == SPH_INTERP_FAIL,
    where active_bc and status are computed before and active_error after the
    move, so it is given the packet before and after;
    [leaves a]: the test of rad_mpi_transport (bounds.c:453-455), which uses the
    position computed before the move. *)
Record bstate := { b_heap : heap; b_head : loc; b_mpi : loc;
                   b_lost : Z; b_tot : Z; b_tracer : Z; b_send : Z }.

Section Bound.
Variable move : A -> A.
Variable inactive : A -> A -> bool.
Variable leaves : A -> bool.
Variable trac : A -> bool.

(** bounds.c:447-473 with the range test true: unlink [ph] from its list and
    put it in front of the hand-over list.  Returns heap, ph, head, mpi. *)
Definition rad_mpi_transport (h : heap) (ph head prev mpi : loc)
  : option (heap * loc * loc * loc) :=
  let* next := next_of h ph in
  let* h1 := store_next h ph mpi in
  let mpi' := ph in
  if negb (Nat.eqb prev null) then
    let* h2 := store_next h1 prev next in
    let* ph' := next_of h2 prev in
    Some (h2, ph', head, mpi')
  else
    Some (h1, next, next, mpi').

Fixpoint bound_loop (fuel : nat) (h : heap) (ph prev head mpi : loc)
    (lost tot tr snd : Z) : option bstate :=
  match fuel with
  | O => None
  | S f =>
    if Nat.eqb ph null then
      Some {| b_heap := h; b_head := head; b_mpi := mpi;
              b_lost := lost; b_tot := tot; b_tracer := tr; b_send := snd |}
    else
      let* (a, _) := load h ph in
      let a' := move a in
      let* h1 := store_pay h ph a' in
      if inactive a a' then
        let tr' := if trac a' then tr - 1 else tr in
        let* (h2, ph', head') := list_remove h1 ph head prev in
        bound_loop f h2 ph' prev head' mpi (lost + 1) (tot - 1) tr' snd
      else if leaves a then
        let* (h2, ph', head', mpi') := rad_mpi_transport h1 ph head prev mpi in
        bound_loop f h2 ph' prev head' mpi' lost tot tr (snd + 1)
      else
        let* n := next_of h1 ph in
        bound_loop f h1 n ph head mpi lost tot tr snd
  end%Z.

Definition bound_thread (fuel : nat) (h : heap) (list_head mpi_head : loc)
  : option bstate :=
  bound_loop fuel h list_head null list_head mpi_head 0 0 0 0.

(** All threads (bounds.c:366-413), thread after thread. *)
Fixpoint bound_all (fuel : nat) (h : heap) (lists : list (loc * loc))
    (step_lost step_tot tracer_tot n_to_send : Z)
  : option (heap * list (loc * loc) * (Z * Z * Z * Z)) :=
  match lists with
  | [] => Some (h, [], (step_lost, step_tot, tracer_tot, n_to_send))
  | (p, m) :: ps =>
      let* s := bound_thread fuel h p m in
      let* (h', ps', c) := bound_all fuel (b_heap s) ps
          (step_lost + b_lost s) (step_tot + b_tot s) (tracer_tot + b_tracer s)
          (n_to_send + b_send s) in
      Some (h', (b_head s, b_mpi s) :: ps', c)
  end%Z.

(** bounds.c:344-427 up to the call of sync_mpi_photons: local pass, then the
    hand-over lists of all threads are merged into one list. *)
Definition bound_local (fuel : nat) (h : heap) (lists : list (loc * loc))
    (step_lost step_tot tracer_tot : Z)
  : option (heap * list loc * loc * (Z * Z * Z * Z)) :=
  let* (h1, lists', c) := bound_all fuel h lists step_lost step_tot tracer_tot 0%Z in
  let* (h2, merged) := merge_mpi fuel h1 (map snd lists') null in
  Some (h2, map fst lists', merged, c).
End Bound.

(** tracers.c:400-422, one thread of prune_tracers; [doomed a]: type is
    TYPE_TRACER and fixup_required in the packet's zone. *)
Section Prune.
Variable doomed : A -> bool.

Fixpoint prune_loop (fuel : nat) (h : heap) (ph prev head : loc)
  : option (heap * loc) :=
  match fuel with
  | O => None
  | S f =>
    if Nat.eqb ph null then Some (h, head)
    else
      let* (a, n) := load h ph in
      if doomed a then
        let* (h', ph', head') := list_remove h ph head prev in
        prune_loop f h' ph' prev head'
      else prune_loop f h n ph head
  end.
Definition prune_thread (fuel : nat) (h : heap) (p : loc) := prune_loop fuel h p null p.
End Prune.

End Heap.

Arguments heap : clear implicits.
