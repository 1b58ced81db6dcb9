(** Vocabulary for biases: finite optical depths and biases as pairs of reals. *)
From Coq Require Import Reals List.
From Verif Require Import RLib XLib BiasModel.
Import ListNotations.
Open Scope R_scope.

Definition fin (l : list (R * R)) : list proc := map (fun p => (Fin (fst p), Fin (snd p))) l.
(** expected number of scatterings: sum of depth times bias *)
Fixpoint expected (l : list (R * R)) : R := match l with [] => 0 | (d, b) :: l => d * b + expected l end.
(** optical depth of all processes together *)
Fixpoint depth (l : list (R * R)) : R := match l with [] => 0 | (d, _) :: l => d + depth l end.
(** the processes whose bias is above one *)
Definition boosted (l : list (R * R)) : list (R * R) := filter (fun p => Rltb 1 (snd p)) l.
