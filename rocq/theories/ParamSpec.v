(** Specification vocabulary for parameter tables. *)
From Coq Require Import List String Ascii.
From Verif Require Import ParamModel.
Import ListNotations.
(** [p] is an initial piece of [s] *)
Definition starts (p s : string) : Prop := exists r, s = (p ++ r)%string.
(** order-preserving selection of some elements of a list *)
Inductive picks {A} : list A -> list A -> Prop :=
| p_nil : picks [] []
| p_skip x l m : picks l m -> picks l (x :: m)
| p_take x l m : picks l m -> picks (x :: l) (x :: m).

(** whitespace in the C locale *)
Definition blank (c : ascii) : Prop := nat_of_ascii c = 32 \/ 9 <= nat_of_ascii c <= 13.
Definition blank_free (s : string) : Prop := s <> ""%string /\ forall l c r, s = (l ++ String c r)%string -> ~ blank c.
(** a line of a parameter file: [dbl] name = value *)
Definition tag (k : kind) : string := match k with KInt => "[int]" | KDbl => "[dbl]" | KStr => "[str]" end%string.
Definition entry (k : kind) (key v : string) : string := (tag k ++ " " ++ key ++ " = " ++ v)%string.
(** Text made of blanks only, at least one. *)
Definition blanks (s : string) : Prop := s <> ""%string /\ forall l c r, s = (l ++ String c r)%string -> blank c.
(** The same line with other blanks between its words and anything after the value. *)
Definition spaced (k : kind) (key v b1 b2 b3 rest : string) : string := (tag k ++ b1 ++ key ++ b2 ++ "=" ++ b3 ++ v ++ rest)%string.
Definition tail_ok (rest : string) : Prop := rest = ""%string \/ exists c r, rest = String c r /\ blank c.
(** [m] is the plain file [l] in another layout: comments, empty and indented lines between
    the entries, other blanks within them, remarks behind them. *)
Inductive laid_out : list string -> list string -> Prop :=
| l_end : laid_out [] []
| l_skip s l m : s = ""%string \/ (exists r, s = String "#" r) \/ (exists c r, s = String c r /\ blank c) -> laid_out l m -> laid_out l (s :: m)
| l_entry k key v b1 b2 b3 rest l m : blank_free key -> blank_free v -> blanks b1 -> blanks b2 -> blanks b3 -> tail_ok rest ->
    laid_out l m -> laid_out (entry k key v :: l) (spaced k key v b1 b2 b3 rest :: m).
