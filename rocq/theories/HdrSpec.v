(** What it means for a header access to be sound. *)
From Coq Require Import List String.
From Verif Require Import HdrModel.

(** The access covers exactly the bytes of the variable: the variable is declared,
    with a type of the size transferred. *)
Definition exact_bytes (e : string * ctype) := exists d, declared (fst e) = Some d /\ size (snd e) = size d.
(** The access uses the declared type. *)
Definition right_type (e : string * ctype) := declared (fst e) = Some (snd e).
