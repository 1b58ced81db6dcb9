(** Inter-process exchange of superphotons, core/mpi.c:437-583
    (sync_mpi_photons), with the Cartesian topology of core/mpi.c:23-79
    (init_mpi), the process ranges of core/coord.c:453-458 (set_points), the
    hand-over test of core/bounds.c:453-455 (rad_mpi_transport) and the wrap of
    core/bounds.c:529-590 (bound_rad_transport).

    Simplifications.  Positions are integers (a common fixed-point scaling of
    the coordinates; the code only adds, subtracts and compares them).  A packet
    carries its identity and its position at time t+dt, i.e. the value
    get_X_K_interp returns; shifting all stored positions by a constant shifts
    that value by the same constant.  The zone width in each direction divides
    evenly over the processes (see C07).  Linked lists are lists: swap_ph is
    "cons" by theorem C02.  MPI_Sendrecv delivers the neighbour's buffer in
    order; a transfer to MPI_PROC_NULL is dropped and one from it is empty. *)
From Coq Require Import ZArith List Bool.
Import ListNotations.
Open Scope Z_scope.

(** Three components, one per direction X1, X2, X3. *)
Record v3 := V3 { v1 : Z; v2 : Z; v3_ : Z }.
Inductive dir := D1 | D2 | D3.
Definition get (d : dir) (v : v3) : Z :=
  match d with D1 => v1 v | D2 => v2 v | D3 => v3_ v end.
Definition set (d : dir) (x : Z) (v : v3) : v3 :=
  match d with
  | D1 => V3 x (v2 v) (v3_ v) | D2 => V3 (v1 v) x (v3_ v) | D3 => V3 (v1 v) (v2 v) x
  end.

Definition rank := v3.       (* Cartesian coordinates of a process *)
Record pkt := Pkt { pid : nat; pos : v3 }.

(** ncpu: NiCPU; start: startx[i]; width: dx[i]*Ni; periodic: mpi.c:42-44. *)
Record cfg := Cfg { ncpu : v3; start : v3; width : v3;
                    per1 : bool; per2 : bool; per3 : bool }.
Definition periodic (g : cfg) (d : dir) : bool :=
  match d with D1 => per1 g | D2 => per2 g | D3 => per3 g end.

(** All processes (MPI_Cart_create over cpudims). *)
Definition zrange (n : Z) : list Z := map Z.of_nat (seq 0 (Z.to_nat n)).
Definition ranks (g : cfg) : list rank :=
  flat_map (fun a => flat_map (fun b => map (fun c => V3 a b c)
    (zrange (v3_ (ncpu g)))) (zrange (v2 (ncpu g)))) (zrange (v1 (ncpu g))).

(** coord.c:453-458; global_start = coord*NTOT/NCPU, so
    startx_proc = startx + coord*width. *)
Definition startx_proc (g : cfg) (c : rank) (d : dir) : Z :=
  get d (start g) + get d c * get d (width g).
Definition stopx_proc (g : cfg) (c : rank) (d : dir) : Z :=
  startx_proc g c d + get d (width g).
(** startx_rad / stopx_rad in a periodic direction, coord.c:399-404, 438-442. *)
Definition startx_rad (g : cfg) (d : dir) : Z := get d (start g).
Definition stopx_rad (g : cfg) (d : dir) : Z :=
  get d (start g) + get d (ncpu g) * get d (width g).

(** mpi.c:54-73, neighbours one step along one direction; [None] is
    MPI_PROC_NULL.  MPI_Cart_rank wraps periodic directions. *)
Definition neighbor (g : cfg) (d : dir) (s : Z) (c : rank) : option rank :=
  let n := get d c + s in
  if ((n <? 0) || (get d (ncpu g) <=? n)) && negb (periodic g d) then None
  else Some (set d (n mod get d (ncpu g)) c).

(** bounds.c:529-590, bound_rad_transport.  [X] is the position the decision is
    taken on (the argument, never updated); the stored position is shifted.
    Boundary conditions of both sides of a direction agree (mpi.c:28-38). *)
Definition wrap1 (g : cfg) (is_transported : bool) (d : dir) (X p : v3) : v3 :=
  let go := periodic g d && ((get d (ncpu g) =? 1) || is_transported) in
  let p := if get d X <? startx_rad g d then
             (if go then set d (stopx_rad g d - (startx_rad g d - get d p)) p else p) else p in
  if get d X >? stopx_rad g d then
    (if go then set d (startx_rad g d + (get d p - stopx_rad g d)) p else p) else p.
Definition bound_rad_transport (g : cfg) (is_transported : bool) (X p : v3) : v3 :=
  wrap1 g is_transported D3 X
    (wrap1 g is_transported D2 X (wrap1 g is_transported D1 X p)).

(** bounds.c:453-455 *)
Definition hands_over (g : cfg) (c : rank) (X : v3) : bool :=
  let out d := ((get d X <? startx_proc g c d) || (get d X >? stopx_proc g c d))
               && (1 <? get d (ncpu g)) in
  out D1 || out D2 || out D3.

(** What a process does with one packet. *)
Inductive act := SendL (d : dir) | SendR (d : dir) | KeepHere | Drop.

(** The loop over directions i = from .. 3 at mpi.c:458-472 and 547-559;
    [last] is what the final else-branch does ([ph = ph->next] without linking
    the packet anywhere in the first sort; swap into ph_recv later). *)
Fixpoint scan (g : cfg) (c : rank) (X : v3) (ds : list dir) (last : act) : act :=
  match ds with
  | [] => last
  | d :: ds' =>
      if get d X <? startx_proc g c d then SendL d
      else if get d X >? stopx_proc g c d then SendR d
      else scan g c X ds' last
  end.

(** mpi.c:455-473: first sort of the hand-over list. *)
Definition sort_act (g : cfg) (c : rank) (p : pkt) : act :=
  scan g c (pos p) [D1; D2; D3] Drop.

Definition dirs_after (d : dir) : list dir :=
  match d with D1 => [D2; D3] | D2 => [D3] | D3 => [] end.

(** mpi.c:538-562: a packet received in direction [d]: the decision uses the
    position before wrapping, the packet kept or forwarded is the wrapped one. *)
Definition recv_act (g : cfg) (d : dir) (c : rank) (p : pkt) : act * pkt :=
  let X := pos p in
  let p' := Pkt (pid p) (bound_rad_transport g true X (pos p)) in
  (scan g c X (dirs_after d) KeepHere, p').

(** Per-process buffers. *)
Record bufs := Bufs { sendL : dir -> list pkt; sendR : dir -> list pkt; recv : list pkt }.
Definition dir_eqb (a b : dir) : bool :=
  match a, b with D1, D1 | D2, D2 | D3, D3 => true | _, _ => false end.
Definition put (f : dir -> list pkt) (d : dir) (l : list pkt) : dir -> list pkt :=
  fun e => if dir_eqb e d then l else f e.

Definition perform (a : act) (p : pkt) (b : bufs) : bufs :=
  match a with
  | SendL d => Bufs (put (sendL b) d (p :: sendL b d)) (sendR b) (recv b)
  | SendR d => Bufs (sendL b) (put (sendR b) d (p :: sendR b d)) (recv b)
  | KeepHere => Bufs (sendL b) (sendR b) (p :: recv b)
  | Drop => b
  end.

Definition empty : bufs := Bufs (fun _ => []) (fun _ => []) [].

(** First sort on every process. *)
Definition sort_all (g : cfg) (mpi : rank -> list pkt) (c : rank) : bufs :=
  fold_left (fun b p => perform (sort_act g c p) p b) (mpi c) empty.

(** One direction pass (mpi.c:489-562) on all processes at once: the list
    received from the left, then the one received from the right, are pushed on
    ph_tmp_recv one by one, which is then popped from the head. *)
Definition tmp_recv (g : cfg) (d : dir) (st : rank -> bufs) (c : rank) : list pkt :=
  let fromL := match neighbor g d (-1) c with Some b => sendR (st b) d | None => [] end in
  let fromR := match neighbor g d 1 c with Some b => sendL (st b) d | None => [] end in
  rev fromR ++ rev fromL.

Definition pass (g : cfg) (d : dir) (st : rank -> bufs) (c : rank) : bufs :=
  let b0 := Bufs (put (sendL (st c)) d []) (put (sendR (st c)) d []) (recv (st c)) in
  fold_left (fun b p => let (a, p') := recv_act g d c p in perform a p' b)
            (tmp_recv g d st c) b0.

(** The whole exchange: packets kept by each process (ph_recv). *)
Definition exchange (g : cfg) (mpi : rank -> list pkt) (c : rank) : list pkt :=
  recv (pass g D3 (pass g D2 (pass g D1 (sort_all g mpi))) c).

(** Packet counters: mpi.c:457, 469, 566.  Net change of step_tot on [c]. *)
Definition step_tot_change (g : cfg) (mpi : rank -> list pkt) (c : rank) : Z :=
  fold_left (fun s p => match sort_act g c p with Drop => s - 1 + 1 | _ => s - 1 end)
            (mpi c) 0
  + Z.of_nat (length (exchange g mpi c)).

(** mpi.c:568-582: hand received packets to the threads.  [lists] are the
    thread lists; [start] = thread_start.  [give] is the inner while loop. *)
Fixpoint give (k : nat) (recv dst : list pkt) : list pkt * list pkt :=
  match k with
  | O => (recv, dst)
  | S k' => match recv with [] => (recv, dst) | p :: r => give k' r (p :: dst) end
  end.

Fixpoint replace_nth {X} (i : nat) (x : X) (l : list X) : list X :=
  match l with
  | [] => []
  | y :: l' => match i with O => x :: l' | S i' => y :: replace_nth i' x l' end
  end.

Fixpoint distribute_loop (count n : nat) (per : nat) (recv : list pkt)
    (lists : list (list pkt)) : option (list pkt * list (list pkt)) :=
  match count with
  | O => Some (recv, lists)
  | S c =>
      let index := (n mod length lists)%nat in
      match nth_error lists index with
      | None => None (* out-of-bounds access of photon_lists *)
      | Some dst =>
          let (recv', dst') := give per recv dst in
          distribute_loop c (n + 1) per recv' (replace_nth index dst' lists)
      end
  end.

Definition per_thread (nrecv nthreads : nat) : nat :=
  let q := (nrecv / nthreads)%nat in
  if (q * nthreads <? nrecv)%nat then (q + 1)%nat else q.

Definition distribute (thread_start : nat) (recv : list pkt) (lists : list (list pkt))
  : option (list pkt * list (list pkt)) :=
  distribute_loop (length lists) thread_start
    (per_thread (length recv) (length lists)) recv lists.
