(** Restart files as seen on disk, one file-system operation at a time.
    core/io.c:1212-1535 (restart_write), 1537-1560 (restart_read, the counters),
    1858-1889 (restart_init, the pointer). *)
From Coq Require Import List Arith Bool.
Import ListNotations.

(** io.c:1214, defs: restart_type is RESTART_TEMP or RESTART_PERM. *)
Inductive kind := Temp | Perm.

(** What a restart file holds.  Of the contents only the two counters matter here:
    restart_id and restart_perm_id as saved in the header (io.c:1276-1279).
    A file between H5Fcreate (1241) and H5Fclose (1523) is [Partial]: HDF5 gives no
    guarantee about it if the program dies. *)
Inductive content := Partial | Complete (rid pid : nat).

(** The text file restart.last: absent, truncated by fopen(..., "w") (1231) and not
    yet written, or naming restart_<k>.h5. *)
Inductive pointer := NoLast | Blank | Names (k : nat).

(** The restart directory: restart_%08d.h5, restart_perm_%08d.h5 and restart.last.
    Ids are natural numbers; the int overflow after 2^31 writes is not modelled. *)
Record fs := mkfs { temp : nat -> option content; perm : nat -> option content; last : pointer }.

Definition empty : fs := mkfs (fun _ => None) (fun _ => None) NoLast.

(** The operations restart_write performs, in the order the program text has them.
    All ranks perform OLast and ONames, with identical contents; they are taken as
    one.  fprintf is buffered, so ONames is the effect of fclose (1233). *)
Inductive op :=
| OLast                          (* io.c:1231 fopen "w" *)
| ONames (k : nat)               (* io.c:1232-1233 *)
| OCreate (d : kind) (k : nat)   (* io.c:1241 H5Fcreate, H5F_ACC_TRUNC *)
| OClose (d : kind) (k rid pid : nat) (* io.c:1522-1523 *)
| ORemove (k : nat).             (* io.c:1530 remove, temporary files only *)

Definition upd {A} (f : nat -> A) k v := fun j => if j =? k then v else f j.

Definition exec (f : fs) (o : op) : fs :=
  match o with
  | OLast => mkfs (temp f) (perm f) Blank
  | ONames k => mkfs (temp f) (perm f) (Names k)
  | OCreate Temp k => mkfs (upd (temp f) k (Some Partial)) (perm f) (last f)
  | OCreate Perm k => mkfs (temp f) (upd (perm f) k (Some Partial)) (last f)
  | OClose Temp k r p => mkfs (upd (temp f) k (Some (Complete r p))) (perm f) (last f)
  | OClose Perm k r p => mkfs (temp f) (upd (perm f) k (Some (Complete r p))) (last f)
  | ORemove k => mkfs (upd (temp f) k None) (perm f) (last f)
  end.

Definition run (f : fs) (l : list op) : fs := fold_left exec l f.

(** One call of restart_write with restart_id = r and restart_perm_id = p: the
    operations and the new values of the two counters (io.c:1216-1222, 1230,
    1526-1532). *)
Definition write_ops (d : kind) (r p : nat) : list op * (nat * nat) :=
  match d with
  | Temp =>
      let r' := r + 1 in
      ([OLast; ONames r; OCreate Temp r; OClose Temp r r' p] ++
        (if 3 <=? r' then [ORemove (r' - 3)] else []), (r', p))
  | Perm =>
      let p' := p + 1 in
      ([OCreate Perm p; OClose Perm p r p'], (r, p'))
  end.

(** A run of the program: the sequence of restart_write calls it makes. *)
Fixpoint session (ds : list kind) (r p : nat) : list op :=
  match ds with
  | [] => []
  | d :: ds => let '(l, (r', p')) := write_ops d r p in l ++ session ds r' p'
  end.

(** Starting the program on an existing directory (io.c:1877-1889, restart_init):
    without restart.last it starts from scratch with both counters 0; otherwise it
    opens the file named there and exits if that fails (1546-1549).  When
    restart.last is empty the buffer still holds the text "restart.last", which is
    not a restart file. *)
Inductive outcome := Fresh | Resumed (rid pid : nat) | Exits.
Definition resume (f : fs) : outcome :=
  match last f with
  | NoLast => Fresh
  | Blank => Exits
  | Names k => match temp f k with Some (Complete r p) => Resumed r p | _ => Exits end
  end.

(** A life of the directory: each entry is a run that makes the given writes and dies
    after the given number of operations; each later run starts from what it finds. *)
Fixpoint life (runs : list (list kind * nat)) (f : fs) : option fs :=
  match runs with
  | [] => Some f
  | (ds, n) :: rest =>
      match resume f with
      | Fresh => life rest (run f (firstn n (session ds 0 0)))
      | Resumed r p => life rest (run f (firstn n (session ds r p)))
      | Exits => None
      end
  end.
