(** Saving and restoring the packets in a restart file.
    core/io.c:1462-1519 (restart_write), 1735-1787 (restart_read),
    core/rad_utils.c:392-406 (copy_photon), 558-570 (swap_ph),
    core/mpi.c:640-652 (mpi_accumulate_int). *)
From Coq Require Import List Arith ZArith.
Import ListNotations.

Section Save.
(** The type of doubles; nothing is computed with them here. *)
Variable F : Type.

(** core/decs.h:574-593.  The arrays are lists; next is the list structure itself. *)
Record photon := mkph {
  X : list (list F); Kcov : list (list F); Kcon : list (list F);
  w : F; KdotKprev : F; type : Z; nscatt : Z; origin : list Z; t0 : F;
  is_tracked : Z; has_oscillated : Z }.

(** rad_utils.c:392-406: copies [ph] onto [phc].  Both loops run over the whole
    arrays.  is_tracked and has_oscillated are not mentioned and keep whatever
    [phc] held. *)
Definition copy_photon (ph phc : photon) : photon :=
  mkph (X ph) (Kcov ph) (Kcon ph) (w ph) (KdotKprev ph) (type ph) (nscatt ph)
       (origin ph) (t0 ph) (is_tracked phc) (has_oscillated phc).

(** io.c:1471-1481: the packets of all threads of a rank, in order, copied into
    freshly allocated memory; [junk i] is what entry [i] of that memory held. *)
Fixpoint copy_all (junk : nat -> photon) (i : nat) (l : list photon) : list photon :=
  match l with
  | [] => []
  | ph :: l => copy_photon ph (junk i) :: copy_all junk (S i) l
  end.
Definition buffer (junk : nat -> photon) (threads : list (list photon)) : list photon :=
  copy_all junk 0 (concat threads).

(** rad_utils.c:810-823 and mpi.c:640-652: the local count, and the sum over the
    lower ranks.  The casts to int are taken as exact. *)
Definition count (threads : list (list photon)) : nat := List.length (concat threads).
Definition accumulate (counts : list nat) (rank : nat) : nat :=
  fold_left Nat.add (firstn rank counts) 0.

(** A one-dimensional HDF5 dataset of [n] packets: entries not yet written are None. *)
Definition dataset := list (option photon).
(** io.c:1507-1517 WRITE_ARRAY with fstart = [off], fcount = length of [data]. *)
Fixpoint write_slab (d : dataset) (off : nat) (data : list photon) : dataset :=
  match off, d, data with
  | _, [], _ => []
  | _, d, [] => d
  | 0, _ :: d, x :: data => Some x :: write_slab d 0 data
  | S off, y :: d, data => y :: write_slab d off data
  end.
(** io.c:1760-1771 READ_ARRAY with fstart = [off], fcount = [n]; None when the slab
    reaches outside the dataset or contains unwritten entries. *)
Fixpoint sequence (l : list (option photon)) : option (list photon) :=
  match l with
  | [] => Some []
  | Some x :: l => option_map (cons x) (sequence l)
  | None :: _ => None
  end.
Definition read_slab (d : dataset) (off n : nat) : option (list photon) :=
  if off + n <=? List.length d then sequence (firstn n (skipn off d)) else None.

(** What the file holds: particle_counts and particle_offsets, one per rank
    (io.c:1484-1503), and the packets. *)
Record file := mkfile { counts : list nat; offsets : list nat; superphotons : dataset }.

(** io.c:1462-1519 on all ranks: [ranks] lists, per rank and thread, the packets.
    The ranks write disjoint slabs, so the order in which they do does not matter;
    here it is by rank. *)
Fixpoint write_ranks (junk : nat -> nat -> photon) (cs : list nat) (r : nat)
    (ranks : list (list (list photon))) (d : dataset) : dataset :=
  match ranks with
  | [] => d
  | th :: ranks =>
      write_ranks junk cs (S r) ranks (write_slab d (accumulate cs r) (buffer (junk r) th))
  end.
Definition restart_write (junk : nat -> nat -> photon) (ranks : list (list (list photon))) : file :=
  let cs := map count ranks in
  mkfile cs (map (accumulate cs) (seq 0 (List.length ranks)))
    (write_ranks junk cs 0 ranks (repeat None (fold_left Nat.add cs 0))).

(** rad_utils.c:558-570: onto the head of the recipient list. *)
Fixpoint push_head (lists : list (list photon)) (index : nat) (ph : photon) : list (list photon) :=
  match lists, index with
  | [], _ => []
  | l :: ls, 0 => (ph :: l) :: ls
  | l :: ls, S i => l :: push_head ls i ph
  end.

(** io.c:1775-1782: dealt out round-robin from thread_start. *)
Fixpoint deal (junk : nat -> photon) (nthreads start ip : nat) (l : list photon)
    (lists : list (list photon)) : list (list photon) :=
  match l with
  | [] => lists
  | ph :: l =>
      deal junk nthreads start (S ip) l
        (push_head lists ((start + ip) mod nthreads) (copy_photon ph (junk ip)))
  end.

(** io.c:1735-1782 on one rank.  [start] is (int)(get_rand() * nthreads). *)
Definition restart_read (junk : nat -> photon) (nthreads start : nat) (f : file) (rank : nat) :
    option (list (list photon)) :=
  match nth_error (offsets f) rank, nth_error (counts f) rank with
  | Some off, Some n =>
      match read_slab (superphotons f) off n with
      | Some l => Some (deal junk nthreads start 0 l (repeat [] nthreads))
      | None => None
      end
  | _, _ => None
  end.
End Save.
