(** Specification vocabulary for packet lists: when a pointer represents a list. *)
From Coq Require Import ZArith List Bool.
Import ListNotations.
From Verif Require Import PhListModel.

Section Spec.
Context {A : Type}.

(** Following [next] from [p] visits exactly the nodes [l] (location, payload)
    and ends at [q]. *)
Fixpoint lseg (h : heap A) (p : loc) (l : list (loc * A)) (q : loc) : Prop :=
  match l with
  | [] => p = q
  | (x, a) :: l' => p = x /\ x <> null /\ exists n, h x = Some (a, n) /\ lseg h n l' q
  end.

Definition llist (h : heap A) (p : loc) (l : list (loc * A)) : Prop := lseg h p l null.

Fixpoint locs (l : list (loc * A)) : list loc :=
  match l with [] => [] | (x, _) :: l' => x :: locs l' end.

(** The location of the last node, NULL for the empty list. *)
Fixpoint last_loc (l : list (loc * A)) : loc :=
  match l with
  | [] => null
  | [(x, _)] => x
  | _ :: l' => last_loc l'
  end.

Definition head_loc (l : list (loc * A)) : loc :=
  match l with [] => null | (x, _) :: _ => x end.

(** Heaps agree outside a set of locations. *)
Definition agree_off (S : list loc) (h h' : heap A) : Prop :=
  forall y, ~ In y S -> h' y = h y.

(** Several lists at once: pointer i represents list i. *)
Definition llists (h : heap A) (ps : list loc) (ls : list (list (loc * A))) : Prop :=
  Forall2 (llist h) ps ls.

(** What a push pass is meant to leave behind. *)
Definition survives (needs : A -> bool) (push : A -> A * bool) (xa : loc * A)
  : list (loc * A) :=
  let (x, a) := xa in
  if needs a then (if snd (push a) then [(x, fst (push a))] else []) else [xa].

Definition count (f : A -> bool) (l : list (loc * A)) : Z :=
  Z.of_nat (length (filter (fun xa => f (snd xa)) l)).

(** The three destinations of the boundary pass. *)
Inductive verdict := Keep | Lose | Hand.
Definition destination (move : A -> A) (inactive : A -> A -> bool) (leaves : A -> bool)
  (a : A) : verdict :=
  if inactive a (move a) then Lose else if leaves a then Hand else Keep.

Definition moved (move : A -> A) (l : list (loc * A)) : list (loc * A) :=
  map (fun xa => (fst xa, move (snd xa))) l.

Definition verdict_eqb (v w : verdict) : bool :=
  match v, w with Keep, Keep | Lose, Lose | Hand, Hand => true | _, _ => false end.

(** Members of [l] with a given destination, with their moved payload. *)
Definition sent_to (v : verdict) (move : A -> A) (inactive : A -> A -> bool)
  (leaves : A -> bool) (l : list (loc * A)) : list (loc * A) :=
  moved move (filter (fun xa => verdict_eqb v (destination move inactive leaves (snd xa))) l).
(** Sum of a quantity over several lists. *)
Definition zsum (f : list (loc * A) -> Z) (ls : list (list (loc * A))) : Z :=
  fold_right (fun l s => f l + s)%Z 0%Z ls.

(** Concrete heaps, for examples. *)
Fixpoint heap_of (l : list (loc * (A * loc))) : heap A :=
  match l with [] => fun _ => None | (x, v) :: l' => upd (heap_of l') x (Some v) end.
End Spec.
