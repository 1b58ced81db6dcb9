(** Property theorems C59 (the permutation symbol). *)
From Coq Require Import ZArith List Lia.
From mathcomp Require Import all_ssreflect all_fingroup.
From Verif Require Import PermModel PermProofs.

Local Open Scope Z_scope.

(** C59.  For every length n and every permutation of 0..n-1 the parity count
    terminates and returns the sign; [odd_perm] is mathcomp's parity. *)
Theorem C59_parity : forall (n : nat) (s : {perm 'I_n}),
  pp n [seq val (s i) | i <- enum 'I_n] = Some (if odd_perm s then -1 else 1).
Proof. exact pp_sign. Qed.
Print Assumptions C59_parity.
(** The four-index symbol: exchanging any two arguments changes the sign (so it
    is zero on repeated arguments), and it is one on the identity. *)
Theorem C59_exchange : forall a b c d, 0 <= a <= 3 -> 0 <= b <= 3 -> 0 <= c <= 3 -> 0 <= d <= 3 -> exists x,
  antisym a b c d = Some x /\ antisym b a c d = Some (- x) /\ antisym c b a d = Some (- x) /\ antisym d b c a = Some (- x) /\
  antisym a c b d = Some (- x) /\ antisym a d c b = Some (- x) /\ antisym a b d c = Some (- x).
Proof. exact antisym_swaps. Qed.
Print Assumptions C59_exchange.
Theorem C59_identity : antisym 0 1 2 3 = Some 1.
Proof. exact (erefl (Some 1)). Qed.
Print Assumptions C59_identity.
(** An index outside 0..3 is answered by the error code 100, which is no sign. *)
Theorem C59_range : forall a b c d, (exists x, (x = a \/ x = b \/ x = c \/ x = d) /\ ~ 0 <= x <= 3) -> antisym a b c d = Some 100.
Proof. exact antisym_range. Qed.
Print Assumptions C59_range.
(** An odd permutation of five indices, and an even one. *)
Example C59_nonvacuous : pp 5 (1 :: 2 :: 0 :: 4 :: 3 :: nil)%nat = Some (-1) /\ pp 5 (1 :: 2 :: 3 :: 4 :: 0 :: nil)%nat = Some 1 /\ antisym 2 0 3 1 = Some (-1) /\ antisym 0 1 4 2 = Some 100.
Proof. by vm_compute. Qed.
