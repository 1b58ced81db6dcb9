(** C132: how a run starts. *)
From Coq Require Import List Ascii String NArith Bool Arith Lia.
From Verif Require Import SlabModel SlabSpec SlabProofs CmdModel.
Import ListNotations.
Open Scope string_scope.
Open Scope list_scope.

Lemma letter_p s : letter s = Some "p"%char <-> s = "-p".
Proof.
  split; [|intros ->; reflexivity]. destruct s as [|d [|c [|e s]]]; try discriminate. cbn.
  destruct (Ascii.eqb_spec d "-"%char) as [->|]; [|discriminate]. intros [= ->]. reflexivity.
Qed.
Lemma scan_skip a b rest pf : a <> "-p" -> scan (a :: b :: rest) pf = scan (b :: rest) pf.
Proof.
  intros N. cbn [scan]. destruct (letter a) as [c|] eqn:L; [|reflexivity].
  destruct (Ascii.eqb_spec c "p"%char) as [->|]; [exfalso; apply N, letter_p, L|reflexivity].
Qed.
Lemma scan_take b rest pf : pf <> Overflow -> scan ("-p" :: b :: rest) pf = scan rest (strcpy b).
Proof. intros N. cbn [scan letter]. destruct pf; [reflexivity|reflexivity|contradiction]. Qed.
Lemma scan_none l : forall pf, (forall pre post, l = pre ++ "-p" :: post -> post = []) -> scan l pf = pf.
Proof.
  induction l as [|a l IH]; intros pf H; [reflexivity|]. destruct l as [|b l]; [reflexivity|].
  rewrite scan_skip; [|intros ->; specialize (H [] (b :: l) eq_refl); discriminate].
  apply IH. intros pre post E. apply (H (a :: pre)). rewrite E. reflexivity.
Qed.
Lemma scan_first pre : forall rest pf, pf <> Overflow -> ~ In "-p" pre -> forall x, scan (pre ++ "-p" :: x :: rest) pf = scan rest (strcpy x).
Proof.
  induction pre as [|a pre IH]; intros rest pf N H x; cbn [app]; [apply scan_take, N|].
  assert (A : a <> "-p") by (intros ->; apply H; left; reflexivity).
  destruct pre as [|b pre]; cbn [app]; rewrite scan_skip by exact A; [apply scan_take, N|].
  apply (IH rest pf N). intros I. apply H. right. exact I.
Qed.

(** A path given once is taken, whatever else is on the command line, and even if it looks
    like an option itself. *)
Theorem C132_path : forall pre post x, ~ In "-p" pre -> ~ In "-p" post -> (N.of_nat (String.length x) < STRLEN)%N ->
  command_line (pre ++ "-p" :: x :: post) = Path x.
Proof.
  intros pre post x A B L. unfold command_line. rewrite scan_first by (discriminate || exact A). unfold strcpy.
  rewrite (proj2 (N.ltb_lt _ _) L). apply scan_none. intros p q ->. exfalso. apply B, in_or_app. right. left. reflexivity.
Qed.
Print Assumptions C132_path.

(** Given several times, the last counts. *)
Theorem C132_last : forall pre x mid y post, ~ In "-p" pre -> ~ In "-p" mid -> ~ In "-p" post ->
  (N.of_nat (String.length x) < STRLEN)%N -> (N.of_nat (String.length y) < STRLEN)%N ->
  command_line (pre ++ "-p" :: x :: mid ++ "-p" :: y :: post) = Path y.
Proof.
  intros pre x mid y post A B C L M. unfold command_line. rewrite scan_first by (discriminate || exact A). unfold strcpy.
  rewrite (proj2 (N.ltb_lt _ _) L), scan_first by (discriminate || exact B). unfold strcpy. rewrite (proj2 (N.ltb_lt _ _) M).
  apply scan_none. intros p q ->. exfalso. apply C, in_or_app. right. left. reflexivity.
Qed.
Print Assumptions C132_last.

(** Without a path, or with -p as last word, the array is used without ever being set: main
    passes it to init_params all the same (110). *)
Theorem C132_unset : forall args, (forall pre post, args = pre ++ "-p" :: post -> post = []) -> command_line args = Unset.
Proof. intros args H. apply scan_none, H. Qed.
Print Assumptions C132_unset.
Theorem C132_unset_refuted : exists argv, argv <> [] /\ ~ exists s, command_line argv = Path s.
Proof. exists ["./bhlight"; "-p"]. split; [discriminate|]. intros (s & E). discriminate E. Qed.
Print Assumptions C132_unset_refuted.

Fixpoint dots (n : nat) : string := match n with O => "" | S m => String "."%char (dots m) end.
Lemma dots_length n : String.length (dots n) = n.
Proof. induction n; cbn; congruence. Qed.
(** A path of STRLEN characters or more is written past the end. *)
Theorem C132_long_refuted : exists argv x, argv = ["./bhlight"; "-p"; x] /\ command_line argv = Overflow.
Proof.
  exists ["./bhlight"; "-p"; dots (N.to_nat STRLEN)], (dots (N.to_nat STRLEN)). split; [reflexivity|].
  unfold command_line. generalize (dots_length (N.to_nat STRLEN)). generalize (dots (N.to_nat STRLEN)). intros x L.
  change ["./bhlight"; "-p"; x] with (["./bhlight"] ++ "-p" :: x :: []). rewrite scan_first by (discriminate || (intros [E|[]]; discriminate E)).
  unfold strcpy. rewrite L, N2Nat.id, N.ltb_irrefl. reflexivity.
Qed.
Print Assumptions C132_long_refuted.

Lemma open_found V (pre post : h5file V) name d : ~ In name (map fst pre) -> H5Dopen V (pre ++ (name, d) :: post) name = Some d.
Proof.
  induction pre as [|[n e] pre IH]; intros H; cbn [app H5Dopen]; [now rewrite String.eqb_refl|].
  destruct (String.eqb_spec n name) as [->|]; [exfalso; apply H; left; reflexivity|]. apply IH. intros I. apply H. right. exact I.
Qed.
(** The fluid from a file: if the file has a dataset "p" whose blocks were written by the
    processes of some decomposition, every active element of a process, in whatever
    decomposition, gets the value the writer had for the same element of the whole grid, and
    ghost zones are left. *)
Theorem C132_fluid : forall V ds ds' procs (pre post : h5file V) c c' (mem' : array V) mem m,
  ~ In "p" (map fst pre) ->
  Forall (position ds') (map fst procs) -> NoDup (map fst procs) -> In (c', mem') procs ->
  inside ds' c' (to_file ds c m) = true ->
  init_fluid_restart V ds c mem (pre ++ ("p", write_all V ds' procs (fun _ => None)) :: post) m = if active ds m then Some (mem' (to_mem ds' c' (to_file ds c m))) else mem m.
Proof.
  intros V ds ds' procs pre post c c' mem' mem m O P N I B. unfold init_fluid_restart. rewrite open_found by exact O. unfold read_array.
  destruct (active ds m); [|reflexivity]. apply write_all_block; assumption.
Qed.
Print Assumptions C132_fluid.

(** and every active element is in some writer's block, if both decompositions divide the
    same grid. *)
Theorem C132_fluid_complete : forall ds ds' c m, position ds c -> map tot ds = map tot ds' ->
  Forall (fun d => 0 < cpu d /\ tot d = cpu d * len d) ds' -> active ds m = true ->
  exists c', position ds' c' /\ inside ds' c' (to_file ds c m) = true.
Proof.
  intros ds ds' c m P T D A. apply covered; [exact D|].
  destruct (active_inside ds c m P A) as [I _]. pose proof (inside_bounds ds c _ P I) as B. revert B T. generalize (to_file ds c m).
  clear. revert ds'. induction ds as [|d ds IH]; intros [|d' ds'] x B T; try discriminate; inversion B; subst; constructor.
  - injection T as E _. lia.
  - apply IH; [assumption|]. injection T as _ E. exact E.
Qed.
Print Assumptions C132_fluid_complete.

(** The files of the program itself do not serve: their dataset is called "P", nothing is
    read and the run goes on with the memory as it was. *)
Theorem C132_own_file : forall V ds ds' procs c (mem : list nat -> option V) others,
  ~ In "p" (map fst others) -> init_fluid_restart V ds c mem (write_prim V ds' procs :: others) = mem.
Proof.
  intros V ds ds' procs c mem others H. unfold init_fluid_restart. cbn [H5Dopen write_prim]. cbn [String.eqb Ascii.eqb Bool.eqb].
  replace (H5Dopen V others "p") with (@None (list nat -> option V)); [reflexivity|]. symmetry. induction others as [|[n d] r IH]; [reflexivity|]. cbn [H5Dopen].
  destruct (String.eqb_spec n "p") as [->|]; [exfalso; apply H; left; reflexivity|]. apply IH. intros I. apply H. right. exact I.
Qed.
Print Assumptions C132_own_file.
Theorem C132_own_file_refuted : exists ds c (mem' : array nat) m, position ds c /\ active ds m = true /\
  init_fluid_restart nat ds c (fun _ => Some 0) [write_prim nat ds [(c, mem')]] m <> Some (mem' m).
Proof.
  exists [mkdim 4 1 3; mkdim 8 1 0], [0; 0], (fun _ => 1), [3; 0].
  split; [repeat constructor|]. split; [reflexivity|]. discriminate.
Qed.
Print Assumptions C132_own_file_refuted.

Example C132_nonvacuous : command_line ["./bhlight"; "-v"; "-p"; "-p"; "more"] = Path "-p" /\
  init_fluid_restart nat [mkdim 4 2 3] [1] (fun _ => Some 0) [("p", write_all nat [mkdim 4 1 3] [([0], fun m => match m with [i] => i * 10 | _ => 0 end)] (fun _ => None))] [3] = Some 50.
Proof. split; reflexivity. Qed.
