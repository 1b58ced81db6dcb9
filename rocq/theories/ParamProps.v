(** Property theorems: run-time parameters (C26, C27). *)
From Coq Require Import List String Ascii Bool Arith Lia.
From Verif Require Import ParamModel ParamSpec ParamProofs ParamMore.
Import ListNotations.
Open Scope string_scope.

(** C26.  Lookup finds the first registered name that starts with the key, *)
Theorem C26_first : forall tbl key m, get_param tbl key = Found m <->
  exists l1 k v l2, tbl = (l1 ++ (k, v) :: l2)%list /\ m = List.length l1 /\ starts key k /\
    forall k' v', In (k', v') l1 -> ~ starts key k'.
Proof. exact lookup_first. Qed.
Print Assumptions C26_first.
(** and reports the others as unknown. *)
Theorem C26_unknown : forall tbl key, tbl <> [] ->
  (get_param tbl key = Missing <-> forall k v, In (k, v) tbl -> ~ starts key k).
Proof. exact lookup_missing. Qed.
Print Assumptions C26_unknown.
(** In every build of every shipped problem each registered name finds itself, *)
Theorem C26_registered : forall c p l, In p shipped -> picks l p -> forall k v,
  In (k, v) (core_table c ++ self l)%list ->
  exists n, get_param (core_table c ++ self l)%list k = Found n /\ nth_error (core_table c ++ self l)%list n = Some (k, v).
Proof. exact core_lookup. Qed.
Print Assumptions C26_registered.
(** but a name that is not registered can be taken for another one. *)
Theorem C26_exact_refuted : exists c key n v, get_param (core_table c) key = Found n /\
  nth_error (core_table c) n = Some v /\ (forall v, ~ In (key, v) (core_table c)).
Proof. exact exact_refuted. Qed.
Print Assumptions C26_exact_refuted.
Example C26_nonvacuous : get_param (core_table cfg0) "gam" = Found 12%nat /\ get_param (core_table cfg1) "gam" = Found 9%nat /\
  get_param (core_table cfg1) "mbh" = Missing.
Proof. vm_compute. repeat split. Qed.

(** C27.  An accepted file that sets no parameter twice sets every parameter. *)
Theorem C27_all_set_partial : forall tbl lines a, read_params tbl lines = Some a -> NoDup (map (fun x => fst (fst x)) a) ->
  forall n, (n < List.length tbl)%nat -> exists k t, In (n, k, t) a.
Proof. exact accepted_all. Qed.
Print Assumptions C27_all_set_partial.
(** Without that proviso a file can be accepted with a parameter left unset. *)
Theorem C27_all_set_refuted : exists c lines a n e, read_params (core_table c) lines = Some a /\
  nth_error (core_table c) n = Some e /\ forall k t, ~ In (n, k, t) a.
Proof. exact all_set_refuted. Qed.
Print Assumptions C27_all_set_refuted.
(** A file with one line per registered name is accepted, and every value ends up
    in the slot of its own name. *)
Theorem C27_complete_file : forall c p l (ks : string -> kind) (vs : string -> string), In p shipped -> picks l p ->
  let tbl := (core_table c ++ self l)%list in
  NoDup (map fst tbl) -> (forall k, blank_free (vs k)) ->
  read_params tbl (map (fun e => entry (ks (fst e)) (fst e) (vs (fst e))) tbl) =
  Some (combine (combine (seq 0 (List.length tbl)) (map (fun e => ks (fst e)) tbl)) (map (fun e => vs (fst e)) tbl)).
Proof. exact full_core. Qed.
Print Assumptions C27_complete_file.
(** Comments, empty and indented lines, other blanks between the words and remarks after the
    value make no difference to what is read. *)
Theorem C27_layout : forall tbl l m, laid_out l m -> read_params tbl m = read_params tbl l.
Proof. exact layout. Qed.
Print Assumptions C27_layout.
Example C27_layout_nonvacuous : laid_out ["[int] nx = 12"] ["# sizes"; "";  "[int]  nx   =   12  # zones"; " [int] nx = 7"].
Proof.
  assert (S2 : blanks "  ") by (split; [discriminate|]; intros [|? [|? [|? ?]]] c r E; cbn in E; try discriminate E; injection E; intros; subst; left; reflexivity).
  assert (S3 : blanks "   ") by (split; [discriminate|]; intros [|? [|? [|? [|? ?]]]] c r E; cbn in E; try discriminate E; injection E; intros; subst; left; reflexivity).
  apply ParamSpec.l_skip; [right; left; eexists; reflexivity|]. apply ParamSpec.l_skip; [now left|].
  apply (l_entry KInt "nx" "12" "  " "   " "   " "  # zones"); try assumption.
  - apply no_blank_free; [discriminate|reflexivity].
  - apply no_blank_free; [discriminate|reflexivity].
  - right. do 2 eexists. split; [reflexivity|now left].
  - apply l_skip; [right; right; do 2 eexists; split; [reflexivity|now left]|]. apply l_end.
Qed.
Example C27_nonvacuous : assign (core_table cfg1) "[dbl] cour = 0.9" = Some (8%nat, KDbl, "0.9") /\
  assign (core_table cfg1) " [dbl] cour = 0.9" = None /\ assign (core_table cfg1) "[flt] cour = 0.9" = None.
Proof. vm_compute. repeat split. Qed.
