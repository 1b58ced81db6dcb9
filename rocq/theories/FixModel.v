(** Repair of zones whose inversion failed: core/fixup.c:259-359
    (fixup_utoprim).

    Zone indices are relative to the first interior zone (C index minus NG).
    Primitive values and weights are rationals (exact arithmetic).  fixup1zone
    (fixup.c:108-257) is an oracle: given the zone and its primitives it returns
    the new primitives and whether it left the zone's flag alone ([true]) or set
    it to -333 ([false], fixup.c:245-246).  Messages and timers are omitted. *)
From Coq Require Import ZArith List Bool QArith.
Import ListNotations.
From Verif Require Import ExchModel HaloModel.
Open Scope Z_scope.

Definition prims := nat -> Q.
(** B1 = 5 (decs.h): FLOOP covers components 0..4. *)
Definition NFLOOP : nat := 5.

Definition zadd (a b : v3) : v3 := V3 (v1 a + v1 b) (v2 a + v2 b) (v3_ a + v3_ b).
Definition v3_eqb (a b : v3) : bool := (v1 a =? v1 b) && (v2 a =? v2 b) && (v3_ a =? v3_ b).
Definition setf {T} (f : v3 -> T) (z : v3) (x : T) : v3 -> T :=
  fun w => if v3_eqb w z then x else f w.

(** ZSLOOP(0,N1-1,0,N2-1,0,N3-1), fixup.c:300 *)
Definition zones (n : v3) : list v3 :=
  flat_map (fun i => flat_map (fun j => map (fun k => V3 i j k)
    (zrange (v3_ n))) (zrange (v2 n))) (zrange (v1 n)).
(** for l,m,n = -1..1, fixup.c:304-306 *)
Definition offs : list v3 :=
  flat_map (fun l => flat_map (fun m => map (fun n => V3 l m n)
    [-1; 0; 1]) [-1; 0; 1]) [-1; 0; 1].

(** fixup.c:307-308: 1./(|l|+|m|+|n|+1) * pflag_tmp *)
Definition weight (o : v3) (flag : Z) : Q :=
  ((1 # Z.to_pos (Z.abs (v1 o) + Z.abs (v2 o) + Z.abs (v3_ o) + 1)) * inject_Z flag)%Q.

Definition qlt (a b : Q) : bool := negb (Qle_bool b a).

(** fixup.c:302-313: weighted sum over the neighbours. *)
Definition wsum (ptmp : v3 -> Z) (z : v3) : Q :=
  fold_left (fun s o => (s + weight o (ptmp (zadd z o)))%Q) offs 0%Q.
Definition vsum (ptmp : v3 -> Z) (tmp : v3 -> prims) (z : v3) (ip : nat) : Q :=
  fold_left (fun s o => (s + weight o (ptmp (zadd z o)) * tmp (zadd z o) ip)%Q) offs 0%Q.

Section Sweep.
Variable fx : v3 -> prims -> prims * bool.
Variable n : v3.

Record fst_ := FSt { pv : v3 -> prims; pf : v3 -> Z; tmp : v3 -> prims; bad : Z; fc : Z }.

(** Body of the loop, fixup.c:301-351.  [ptmp] is the snapshot of the flags. *)
Definition visit (ptmp : v3 -> Z) (s : fst_) (z : v3) : fst_ :=
  if ptmp z =? 0 then
    if qlt (wsum ptmp z) (1 # 10000000000) then
      (* fixup.c:314-342: velocities zeroed in the snapshot only *)
      FSt (pv s) (pf s)
          (setf (tmp s) z (fun ip => if (2 <=? ip)%nat && (ip <=? 4)%nat then 0%Q else tmp s z ip))
          (bad s + 1) (fc s + 1)
    else
      let x := fun ip => if (ip <? NFLOOP)%nat
                         then (vsum ptmp (tmp s) z ip / wsum ptmp z)%Q else pv s z ip in
      let '(y, ok) := fx z x in
      FSt (setf (pv s) z y) (setf (pf s) z (if ok then 1 else -333)) (tmp s) (bad s) 0
  else s.

(** One pass of the do/while body, fixup.c:289-352.  The snapshot of the values
    covers components below B1 only; the others are never read. *)
Definition sweep (s : fst_) : fst_ :=
  fold_left (visit (pf s)) (zones n) (FSt (pv s) (pf s) (pv s) 0 (fc s)).

Definition nzones : Z := v1 n * v2 n * v3_ n.

(** do { } while (bad > 0 && fail_consec < N1*N2*N3), fixup.c:288, 353 *)
Fixpoint repair (fuel : nat) (s : fst_) : option fst_ :=
  match fuel with
  | O => None
  | S f =>
      let s' := sweep s in
      if (bad s' >? 0) && (fc s' <? nzones) then repair f s' else Some s'
  end.

(** fixup.c:274-285: flags of the eight corner blocks are cleared. *)
Definition corner1 (m x : Z) : bool := in_left x || in_right m x.
Definition corner (z : v3) : bool :=
  corner1 (v1 n) (v1 z) && corner1 (v2 n) (v2 z) && corner1 (v3_ n) (v3_ z).
(** fixup.c:267-285 *)
Definition flip (pflag : v3 -> Z) (z : v3) : Z :=
  if corner z then 0 else if pflag z =? 0 then 1 else 0.

(** fixup.c:264-357.  Also returns whether fixup() is called at the end
    (fixup.c:355-356); its effect is not modelled. *)
Definition fixup_utoprim (fuel : nat) (P : v3 -> prims) (pflag : v3 -> Z)
  : option ((v3 -> prims) * (v3 -> Z) * bool) :=
  match repair fuel (FSt P (flip pflag) P 0 0) with
  | None => None
  | Some s => Some (pv s, pf s, fc s =? nzones)
  end.
End Sweep.
