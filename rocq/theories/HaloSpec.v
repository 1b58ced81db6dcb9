(** Specification vocabulary for decomposition, ghost zones and reduction. *)
From Coq Require Import ZArith List Bool.
Import ListNotations.
From Verif Require Import SumLib ExchModel HaloModel.
Open Scope Z_scope.

Definition on_grid (g : hcfg) (c : rank) : Prop := forall d, 0 <= get d c < get d (nproc g).
Definition ntot (g : hcfg) (d : dir) : Z := get d (nproc g) * get d (nloc g).

(** Boundary types are accepted combinations; polar only in X2 (bounds.c). *)
Definition bc_ok (g : hcfg) : Prop :=
  (forall d, (bcL g d = Periodic <-> bcR g d = Periodic)) /\
  bcL g D1 <> Polar /\ bcR g D1 <> Polar /\ bcL g D3 <> Polar /\ bcR g D3 <> Polar.

(** A direction the exchange can handle: blocks at least as wide as the ghost
    region, or a single zone in total (inactive direction). *)
Definition dir_ok (g : hcfg) (d : dir) : Prop :=
  0 < get d (nproc g) /\
  (NG <= get d (nloc g) \/ (get d (nloc g) = 1 /\ get d (nproc g) = 1)).

(** The code's X3 right outflow boundary is broken (see C12), so theorems exclude it
    unless the direction is inactive. *)
Definition not_x3r_outflow (g : hcfg) (d : dir) : Prop :=
  d = D3 -> bcR g D3 = Outflow -> ntot g D3 = 1.

Section Ext.
Context {V : Type} (tr : dir -> bc -> v3 -> v3 -> V -> V).

(** Extension of a global field by one direction's boundary condition, written
    on global zone numbers: which zone should be read.  *)
Definition source (b : bc) (n x : Z) : Z :=
  match b with
  | Periodic => x mod n                                    (* wrap *)
  | Outflow => if x <? 0 then 0 else n - 1                 (* nearest active zone *)
  | Polar => if x <? 0 then - 1 - x else 2 * n - 1 - x     (* mirror image *)
  end.
Definition ext (g : hcfg) (d : dir) (F : v3 -> V) : v3 -> V := fun z =>
  let n := ntot g d in
  let x := get d z in
  if interior n x then F z
  else if n =? 1 then F (set d 0 z)
  else let b := if x <? 0 then bcL g d else bcR g d in
       let z0 := set d (source b n x) z in
       match b with Periodic => F z0 | _ => tr d b z0 z (F z0) end.
Definition ext3 (g : hcfg) (F : v3 -> V) : v3 -> V := ext g D3 (ext g D2 (ext g D1 F)).

(** The field of all processes is a view of one global field on interior zones. *)
Definition represents (g : hcfg) (F : v3 -> V) (st : rank -> v3 -> V) : Prop :=
  forall c z, on_grid g c -> (forall d, 0 <= get d z < get d (nloc g)) ->
    st c z = F (gz g c z).
End Ext.

(** Zone of the whole grid a deposit belongs to, per direction: the deposit of
    process [a] at local index [x]; [None] beyond a non-periodic edge. *)
Definition target (g : hcfg) (d : dir) (a x : Z) : option Z :=
  let G := a * get d (nloc g) + x in
  if interior (ntot g d) G then Some G
  else if per g d then Some (G mod ntot g d) else None.

(** All (process index, local index) pairs of one direction, ghosts included. *)
Definition slots (g : hcfg) (d : dir) : list (Z * Z) :=
  flat_map (fun a => map (fun x => (a, x - 1)) (zrange (get d (nloc g) + 2)))
    (zrange (get d (nproc g))).
Definition depositors (g : hcfg) (d : dir) (G : Z) : list (Z * Z) :=
  filter (fun ax => match target g d (fst ax) (snd ax) with Some t => t =? G | None => false end)
    (slots g d).
Definition live (g : hcfg) (d : dir) : list (Z * Z) :=
  filter (fun ax => match target g d (fst ax) (snd ax) with Some t => true | None => false end)
    (slots g d).

Section Sums.
Context {M : Type} (zero : M) (plus : M -> M -> M).
(** Triple sum of a field over per-direction lists of (process, index) pairs. *)
Definition sum3 (st : rank -> v3 -> M) (l1 l2 l3 : list (Z * Z)) : M :=
  gsum zero plus (fun p3 => gsum zero plus (fun p2 => gsum zero plus (fun p1 =>
      st (V3 (fst p1) (fst p2) (fst p3)) (V3 (snd p1) (snd p2) (snd p3))) l1) l2) l3.

(** Everything deposited for global zone [G], over all processes and all their
    zones including ghosts. *)
Definition deposited (g : hcfg) (st : rank -> v3 -> M) (G : v3) : M :=
  sum3 st (depositors g D1 (v1 G)) (depositors g D2 (v2 G)) (depositors g D3 (v3_ G)).

(** Total over the interior zones of all processes. *)
Definition owned (g : hcfg) (d : dir) : list (Z * Z) :=
  flat_map (fun a => map (fun x => (a, x)) (zrange (get d (nloc g)))) (zrange (get d (nproc g))).
Definition interior_total (g : hcfg) (st : rank -> v3 -> M) : M :=
  sum3 st (owned g D1) (owned g D2) (owned g D3).
(** Total over everything deposited, except beyond non-periodic edges. *)
Definition deposit_total (g : hcfg) (st : rank -> v3 -> M) : M :=
  sum3 st (live g D1) (live g D2) (live g D3).
End Sums.

(** Multi-process write of one array: process [c] owns, in each direction, the
    interval given by [reg]; it writes its local block there (H5Dwrite of the
    selected hyperslab), and reading uses the same selection. *)
Definition in_region (r : Z * Z) (x : Z) : bool := (fst r <=? x) && (x <? fst r + snd r).
Definition in_block (reg : dir -> Z -> Z * Z) (c : rank) (x : v3) : bool :=
  in_region (reg D1 (v1 c)) (v1 x) && in_region (reg D2 (v2 c)) (v2 x) && in_region (reg D3 (v3_ c)) (v3_ x).
Section File.
Context {T : Type}.
Definition write (reg : dir -> Z -> Z * Z) (file : v3 -> T) (c : rank) (mem : v3 -> T) : v3 -> T :=
  fun x => if in_block reg c x then
     mem (V3 (v1 x - fst (reg D1 (v1 c))) (v2 x - fst (reg D2 (v2 c))) (v3_ x - fst (reg D3 (v3_ c))))
   else file x.
Definition read_block (reg : dir -> Z -> Z * Z) (file : v3 -> T) (c : rank) : v3 -> T :=
  fun z => file (V3 (v1 z + fst (reg D1 (v1 c))) (v2 z + fst (reg D2 (v2 c))) (v3_ z + fst (reg D3 (v3_ c)))).
End File.
(** Per-direction regions for a grid of P processes with N zones each. *)
Definition regs (kind : Z -> Z -> Z -> Z * Z) (P N : v3) (d : dir) (c : Z) : Z * Z :=
  kind (get d P * get d N) (get d P) c.

(** Independent description of the reflection at the pole and of the X1
    outflow copy on the eight fluid primitives, in terms of (scalar, velocity
    vector, field vector). *)
Definition unpack {T} (v : nat -> T) : (T * T) * (T * T * T) * (T * T * T) :=
  ((v 0%nat, v 1%nat), (v 2%nat, v 3%nat, v 4%nat), (v 5%nat, v 6%nat, v 7%nat)).
Definition reflect2 {T} (neg : T -> T) (x : T * T * T) : T * T * T :=
  match x with (a, b, c) => (a, neg b, c) end.
Definition scale3 {T} (f : T -> T) (x : T * T * T) : T * T * T :=
  match x with (a, b, c) => (f a, f b, f c) end.
