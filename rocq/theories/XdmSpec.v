(** A description is right when the file named holds a dataset of that name and size, and the slab lies in it. *)
From Coq Require Import ZArith List String.
From Verif Require Import XdmModel.
Import ListNotations.
Open Scope string_scope.
Open Scope list_scope.
Open Scope Z_scope.

Definition inside (d s n : list Z) : Prop :=
  List.length s = List.length d /\ List.length n = List.length d /\
  forall i a b m, nth_error s i = Some a -> nth_error n i = Some b -> nth_error d i = Some m -> 0 <= a /\ 0 <= b /\ a + b <= m.
Definition right_ (c : xcfg) (it : item) : Prop :=
  In (dset it, dims it) (datasets c (file it)) /\ inside (dims it) (start it) (count it).
