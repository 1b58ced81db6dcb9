(** Property theorems on the output of tracers. *)
From Coq Require Import Reals ZArith List Lia.
From Verif Require Import TDumpModel TDumpSpec TDumpProofs.
Import ListNotations.

(** C54. For any lists of any number of threads and processes, if no process has exactly one
    tracer, each column of the file but four holds, for one tracer after another in the same
    order, that tracer's own values, and nothing else. *)
Theorem C54_columns_partial : forall nstep t ntypes cart fluid em ab ucon ucov bcon bcov c procs,
  match c with Cx | Cy | Cz | Cbcov => False | _ => True end ->
  Forall (fun lists => length (tracers lists) <> 1) procs ->
  exists file, dump_tracers nstep t ntypes cart fluid em ab ucon ucov bcon c procs = Some file /\
    forall i, file i = nth_error (map Some (flat_map (row nstep t ntypes cart fluid em ab ucon ucov bcon bcov c) (all_tracers procs))) i.
Proof. exact file_columns. Qed.
Print Assumptions C54_columns_partial.
(** The columns x, y, z of a process with two or more tracers: every tracer gets the y and z
    of the first tracer as its x and y, and the x of the second as its z; the z of the
    first is an element never written. *)
Theorem C54_xyz : forall nstep t ntypes cart fluid em ab ucon ucov bcon p q l lists, tracers lists = p :: q :: l ->
  exists m, fill nstep t ntypes cart fluid em ab ucon ucov bcon lists = Some m /\
  forall n, n < length (tracers lists) ->
    nth_error (m Cx) n = Some (Some (D (cart (X2 p) 2))) /\
    nth_error (m Cy) n = Some (Some (D (cart (X2 p) 3))) /\
    nth_error (m Cz) n = Some (match n with O => None | _ => Some (D (cart (X2 q) 1)) end).
Proof. exact columns_xyz. Qed.
Print Assumptions C54_xyz.
Theorem C54_xyz_refuted : exists nstep t ntypes fluid em ab ucon ucov bcon lists m,
  fill nstep t ntypes (fun X => X) fluid em ab ucon ucov bcon lists = Some m /\
  length (tracers lists) = 2 /\
  m Cx <> map (fun p => Some (D (X2 p 1))) (tracers lists) /\
  m Cy <> map (fun p => Some (D (X2 p 2))) (tracers lists) /\
  m Cz <> map (fun p => Some (D (X2 p 3))) (tracers lists).
Proof. exact xyz_refuted. Qed.
Print Assumptions C54_xyz_refuted.
(** A process with one tracer reads beyond the end of Xcart. *)
Theorem C54_single_refuted : exists p, tracer p = true /\
  forall nstep t ntypes cart fluid em ab ucon ucov bcon, fill nstep t ntypes cart fluid em ab ucon ucov bcon [[p]] = None.
Proof. exact single_refuted. Qed.
Print Assumptions C54_single_refuted.
(** The column of the covariant magnetic four-vector holds the contravariant one. *)
Theorem C54_bcov_refuted : exists nstep t ntypes cart fluid em ab ucon ucov bcon bcov lists m,
  fill nstep t ntypes cart fluid em ab ucon ucov bcon lists = Some m /\
  (forall X, bcov X 0 = Ropp (bcon X 0) /\ forall k, 0 < k -> bcov X k = bcon X k) /\
  m Cbcov <> map Some (flat_map (row nstep t ntypes cart fluid em ab ucon ucov bcon bcov Cbcov) (tracers lists)).
Proof. exact bcov_refuted. Qed.
Print Assumptions C54_bcov_refuted.
Example C54_nonvacuous :
  let procs := [[[wph; wp 5 1 2 3]; []; [wp 6 4 5 6; wph; wp 9 7 8 9]]; [[wph]]; [[wp 1 1 1 1]; [wp 2 2 2 2]]] in
  Forall (fun lists => length (tracers lists) <> 1) procs /\ map nscatt (all_tracers procs) = [5; 6; 9; 1; 2]%Z /\
  exists p q l, tracers (nth 0 procs []) = p :: q :: l.
Proof. cbn. split; [repeat (apply Forall_cons; [cbn; lia|]); apply Forall_nil|]. split; [reflexivity|]. do 3 eexists. reflexivity. Qed.
