(** Property theorems: packets through a restart file (C51, C77). *)
From Coq Require Import List Arith ZArith Permutation.
From Verif Require Import SaveModel SaveSpec SaveProofs.
Import ListNotations.

(** C51.  Whatever uninitialised memory held, however many threads there were and are,
    each rank gets back its own packets with all fields but the two flags. *)
Theorem C51_restored_partial : forall F junkw junkr ranks r th nt s, nth_error ranks r = Some th -> 0 < nt ->
  exists lists, restart_read F (junkr r) nt s (restart_write F junkw ranks) r = Some lists /\
    List.length lists = nt /\
    Permutation (map physical (concat lists)) (map physical (concat th)).
Proof. exact restored. Qed.
Print Assumptions C51_restored_partial.
(** The flags is_tracked and has_oscillated are not restored. *)
Theorem C51_flags_refuted : exists junk ranks lists,
  restart_read Z (junk 0) 1 0 (restart_write Z junk ranks) 0 = Some lists /\
  nth_error ranks 0 = Some [[some_photon 1]] /\
  ~ Permutation (map (has_oscillated Z) (concat lists)) (map (has_oscillated Z) [some_photon 1]).
Proof. exact flags_refuted. Qed.
Print Assumptions C51_flags_refuted.
Example C51_nonvacuous :
  let p k := mkph Z [[k]] [] [] k 0%Z 0%Z 0%Z [] 0%Z 0%Z 0%Z in
  let f := restart_write Z (fun _ _ => p 9%Z) [[[p 1%Z; p 2%Z]; [p 3%Z]]; [[]; [p 4%Z; p 5%Z]]] in
  option_map (map (map (w Z))) (restart_read Z (fun _ => p 8%Z) 2 1 f 0) = Some [[2]; [3; 1]]%Z /\
  option_map (map (map (w Z))) (restart_read Z (fun _ => p 8%Z) 3 0 f 1) = Some [[4]; [5]; []]%Z.
Proof. vm_compute. repeat split. Qed.

(** C77.  The packets are dealt out evenly: no thread gets more than one packet more
    than another. *)
Theorem C77_balanced : forall F junkw junkr ranks r th nt s lists i j, nth_error ranks r = Some th -> s < nt ->
  restart_read F junkr nt s (restart_write F junkw ranks) r = Some lists ->
  i < nt -> j < nt -> List.length (nth i lists []) <= List.length (nth j lists []) + 1.
Proof. exact balanced. Qed.
Print Assumptions C77_balanced.
