(** Vocabulary for the restart-file properties, independent of how restart_write
    orders its operations. *)
From Coq Require Import List Arith.
From Verif Require Import RestartModel.
Import ListNotations.

(** The pointer names a file that is there and complete. *)
Definition usable (f : fs) := exists k r p, last f = Names k /\ temp f k = Some (Complete r p).

(** How many temporary restart files have been finished in a trace. *)
Definition finished (o : op) := match o with OClose Temp _ _ _ => true | _ => false end.
Definition completed (l : list op) := List.length (filter finished l).

(** A trace that stops inside the writing of a temporary file: after the pointer was
    touched and before the file was closed. *)
Definition in_progress (l : list op) := exists l' o, l = l' ++ [o] /\
  (o = OLast \/ (exists k, o = ONames k) \/ exists k, o = OCreate Temp k).

(** Crash points: what is done of a run before the program dies. *)
Definition crash (ds : list kind) (l : list op) := exists l', session ds 0 0 = l ++ l'.
