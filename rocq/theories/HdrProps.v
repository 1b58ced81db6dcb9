(** Property theorems: the header of restart files (C53, C78). *)
From Coq Require Import List String.
From Verif Require Import HdrModel HdrSpec HdrProofs.
Import ListNotations.
Open Scope string_scope.

(** C53.  In every build, every header variable other than the two dump counters is
    saved and restored with its declared type, touching exactly its own bytes. *)
Theorem C53_exact_partial : forall c e, In e (write_header c ++ read_header c)%list ->
  fst e <> "dump_id" -> fst e <> "fdump_id" -> right_type e /\ exact_bytes e.
Proof. exact accesses. Qed.
Print Assumptions C53_exact_partial.
(** The two counters are ints, accessed as doubles, *)
Theorem C53_counters : forall n t c, In (n, t) (write_header c ++ read_header c)%list -> n = "dump_id" \/ n = "fdump_id" ->
  declared n = Some Int /\ t = Dbl.
Proof. exact overrun_bytes. Qed.
Print Assumptions C53_counters.
(** so in every build saving and restoring reach past the end of a variable. *)
Theorem C53_exact_refuted : forall c, exists e, In e (write_header c) /\ In e (read_header c) /\ ~ exact_bytes e.
Proof. exact overrun. Qed.
Print Assumptions C53_exact_refuted.
Example C53_nonvacuous : let c := mkcfg Mks EosTable true RadNeutrinos true true in
  In ("dumptrace_id", Int) (read_header c) /\ right_type ("dumptrace_id", Int) /\ In ("eospath", Str) (write_header c).
Proof. vm_compute. repeat split; repeat (try (left; reflexivity); right). Qed.

(** C78.  In every build, every variable the reader asks for was written, under the
    same name and with the same type; *)
Theorem C78_read_written : forall c e, In e (read_header c) -> In e (write_header c).
Proof. exact read_written. Qed.
Print Assumptions C78_read_written.
(** everything written is taken back, except the options fixed at compile time and the
    path of the tables; *)
Theorem C78_written_read : forall c e, In e (write_header c) -> In e (read_header c) \/
  In (fst e) ["version"; "metric"; "nulnutype"; "electrons"; "radiation"; "nvar"; "nvar_passive"; "output_eosvars";
   "diagnostics_use_radtypes"; "eospath"].
Proof. exact written_read. Qed.
Print Assumptions C78_written_read.
(** and no name is written twice. *)
Theorem C78_no_clash : forall c, NoDup (map fst (write_header c)).
Proof. exact write_nodup. Qed.
Print Assumptions C78_no_clash.
Example C78_nonvacuous : let c := mkcfg Minkowski EosPolytrope false RadNone true false in
  In ("poly_K", Dbl) (read_header c) /\ ~ In ("gam", Dbl) (write_header c).
Proof.
  vm_compute. split; [repeat (try (left; reflexivity); right)|].
  intros H. repeat (destruct H as [H|H]; [discriminate|]). exact H.
Qed.
