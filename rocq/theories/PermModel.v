(** The permutation symbol: core/current.c:104-162. *)
From Coq Require Import ZArith List Bool.
Import ListNotations.
Open Scope Z_scope.

(** v[x] = b *)
Fixpoint set_at (v : list bool) (x : nat) : list bool :=
  match v, x with
  | [], _ => []
  | _ :: t, O => true :: t
  | h :: t, S y => h :: set_at t y
  end.
(** current.c:150-153: the do-while loop.  [None]: an access outside the two
    arrays, or [fuel] passes without coming back to [j]. *)
Fixpoint walk (fuel : nat) (n : nat) (P : list nat) (j x : nat) (v : list bool) : option (list bool) :=
  match fuel with
  | O => None
  | S f =>
      match nth_error P x with
      | None => None
      | Some y =>
          if Nat.ltb y n then
            let v := set_at v y in
            if Nat.eqb y j then Some v else walk f n P j y v
          else None
      end
  end.
(** current.c:145-155, one pass for index [j]; the state is (p, v) *)
Definition pp_step (n : nat) (P : list nat) (st : option (nat * list bool)) (j : nat) : option (nat * list bool) :=
  match st with
  | None => None
  | Some (p, v) =>
      if nth j v false then Some (S p, v)
      else match walk n n P j j v with None => None | Some v => Some (p, v) end
  end.
(** current.c:136-162.  The fuel [n] is enough for every permutation; a walk
    that needs more never returns to its start. *)
Definition pp (n : nat) (P : list nat) : option Z :=
  match fold_left (pp_step n P) (seq 0 n) (Some (O, repeat false n)) with
  | None => None
  | Some (p, _) => Some (if Nat.even p then 1 else -1)
  end.
(** current.c:104-133 *)
Definition antisym (a b c d : Z) : option Z :=
  let bad x := (x <? 0) || (x >? 3) in
  if bad a then Some 100 else if bad b then Some 100 else if bad c then Some 100 else if bad d then Some 100
  else if a =? b then Some 0 else if a =? c then Some 0 else if a =? d then Some 0
  else if b =? c then Some 0 else if b =? d then Some 0 else if c =? d then Some 0
  else pp 4 [Z.to_nat a; Z.to_nat b; Z.to_nat c; Z.to_nat d].
