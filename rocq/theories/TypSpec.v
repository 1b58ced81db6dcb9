(** What the shares and the files of tracked packets should be, without the counters. *)
From Coq Require Import Reals ZArith List.
From Verif Require Import TypModel.
Import ListNotations.
Open Scope R_scope.

Definition sumw (l : list packet) : R := fold_right (fun p s => pw p + s) 0 l.
Definition of_type (t : nat) (l : list packet) : list packet := filter (fun p => Z.eqb (ptype p) (Z.of_nat t)) l.
Definition radiation (l : list packet) : list packet := filter (fun p => negb (Z.eqb (ptype p) (-1))) l.
Definition legal (N : nat) (p : packet) : Prop := ptype p = (-1)%Z \/ (0 <= ptype p < Z.of_nat N)%Z.
(** rows a rank should write *)
Definition rows {P Row} (row : P -> Row) (tr : P -> bool) (lists : list (list P)) : list Row := map row (filter tr (concat lists)).
