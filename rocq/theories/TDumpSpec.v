(** What the tracer output should contain. *)
From Coq Require Import Reals ZArith List.
From Verif Require Import TDumpModel.
Import ListNotations.

(** Everything known about one tracer: its own identifier, mass and place, and the fields at
    that place. *)
Definition row (nstep : Z) (t : R) (ntypes : nat) (cart fluid em ab ucon ucov bcon bcov : (nat -> R) -> nat -> R)
    (c : col) (p : particle) : list val :=
  let X := X2 p in
  match c with
  | Cid => [I (nscatt p)] | Cit => [I nstep] | Cactive => [I 1] | Ctime => [D t] | Cmass => [D (w p)]
  | CXharm => [D (X 1); D (X 2); D (X 3)]
  | CXcart => [D (cart X 1); D (cart X 2); D (cart X 3)]
  | Cx => [D (cart X 1)] | Cy => [D (cart X 2)] | Cz => [D (cart X 3)]
  | Crho => [D (fluid X 0)] | Cuu => [D (fluid X 1)] | Cs => [D (fluid X 2)]
  | CPress => [D (fluid X 3)] | CT => [D (fluid X 4)]
  | Cem => map (fun i => D (em X i)) (seq 0 ntypes) | Cabs => map (fun i => D (ab X i)) (seq 0 ntypes)
  | Cucon => [D (ucon X 0); D (ucon X 1); D (ucon X 2); D (ucon X 3)]
  | Cucov => [D (ucov X 0); D (ucov X 1); D (ucov X 2); D (ucov X 3)]
  | Cbcon => [D (bcon X 0); D (bcon X 1); D (bcon X 2); D (bcon X 3)]
  | Cbcov => [D (bcov X 0); D (bcov X 1); D (bcov X 2); D (bcov X 3)]
  end.

(** The tracers of one process in the order of its lists, and of all processes by rank. *)
Definition tracers (lists : list (list particle)) : list particle := filter tracer (concat lists).
Definition all_tracers (procs : list (list (list particle))) : list particle := concat (map tracers procs).
