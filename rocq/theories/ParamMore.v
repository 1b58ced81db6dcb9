(** The layout of a parameter file does not matter. *)
From Coq Require Import List String Ascii Bool Arith Lia.
From Verif Require Import ParamModel ParamSpec ParamProofs.
Import ListNotations.
Open Scope string_scope.

Lemma isspace_is c : blank c -> isspace c = true.
Proof.
  unfold blank, isspace. intros [->|[A B]]; [reflexivity|]. apply orb_true_iff. right. apply andb_true_iff. split; apply Nat.leb_le; assumption.
Qed.
Lemma words_blanks b : (forall l c r, b = l ++ String c r -> blank c) -> forall s, words_aux "" (b ++ s) = words_aux "" s.
Proof.
  induction b as [|c b IH]; intros H s; cbn [append words_aux]; [reflexivity|].
  rewrite (isspace_is c) by apply (H "" c b eq_refl). apply IH. intros l d r E. apply (H (String c l) d r). cbn. now rewrite E.
Qed.
Lemma words_gap cur b s : cur <> "" -> blanks b -> words_aux cur (b ++ s) = cur :: words_aux "" s.
Proof.
  intros N [E H]. destruct b as [|c b]; [congruence|]. cbn [append words_aux]. rewrite (isspace_is c) by apply (H "" c b eq_refl).
  destruct cur; [congruence|]. f_equal. apply words_blanks. intros l d r F. apply (H (String c l) d r). cbn. now rewrite F.
Qed.
Lemma words_tail cur r : cur <> "" -> tail_ok r -> exists l, words_aux cur r = cur :: l.
Proof.
  intros N [->|(c & s & -> & B)]; [exists []; apply words_end; assumption|]. cbn [words_aux]. rewrite isspace_is by assumption.
  destruct cur; [congruence|]. eexists. reflexivity.
Qed.
Lemma spaced_words k key v b1 b2 b3 r : blank_free key -> blank_free v -> blanks b1 -> blanks b2 -> blanks b3 -> tail_ok r ->
  exists l, words (spaced k key v b1 b2 b3 r) = tag k :: key :: "=" :: v :: l.
Proof.
  intros [K1 K2'] [V1 V2'] B1 B2 B3 T. unfold words, spaced.
  assert (K2 := fun l c r E => isspace_blank c (K2' l c r E)). assert (V2 := fun l c r E => isspace_blank c (V2' l c r E)). clear K2' V2'.
  assert (E : forall s, words_aux "" (tag k ++ s) = words_aux (tag k) s) by (destruct k; reflexivity).
  rewrite E, words_gap by (destruct k; discriminate || assumption). rewrite words_word by exact K2. cbn [append]. rewrite words_gap by assumption.
  change (String "=" (b3 ++ v ++ r)) with ("=" ++ (b3 ++ v ++ r)).
  change (words_aux "" ("=" ++ (b3 ++ v ++ r))) with (words_aux "=" (b3 ++ v ++ r)). rewrite words_gap by (discriminate || assumption).
  rewrite words_word by exact V2. cbn [append]. destruct (words_tail v r V1 T) as (l & ->). exists l. reflexivity.
Qed.
Lemma substring_0 s : substring 0 0 s = "".
Proof. destruct s; reflexivity. Qed.
Lemma kind_tag k s : kind_of (tag k ++ s) = Some k.
Proof. destruct k; unfold kind_of; cbn [tag append substring]; rewrite substring_0; reflexivity. Qed.
Lemma spaced_assign tbl k key v b1 b2 b3 r : blank_free key -> blank_free v -> blanks b1 -> blanks b2 -> blanks b3 -> tail_ok r ->
  assign tbl (spaced k key v b1 b2 b3 r) = assign tbl (entry k key v).
Proof.
  intros K V B1 B2 B3 T. unfold assign, parse_line. destruct (spaced_words k key v b1 b2 b3 r K V B1 B2 B3 T) as (l & W). pose proof (entry_words k key v K V) as W'.
  assert (A : kind_of (spaced k key v b1 b2 b3 r) = Some k) by apply kind_tag. assert (A' : kind_of (entry k key v) = Some k) by apply kind_tag.
  rewrite A, A'.
  destruct (spaced k key v b1 b2 b3 r) as [|c s] eqn:E; [destruct k; discriminate|]. destruct (entry k key v) as [|c' s'] eqn:E'; [destruct k; discriminate|].
  assert (C : Ascii.eqb c "#"%char || isspace c = false) by (destruct k; injection E as <- _; reflexivity).
  assert (C' : Ascii.eqb c' "#"%char || isspace c' = false) by (destruct k; injection E' as <- _; reflexivity).
  rewrite C, C', W, W'. reflexivity.
Qed.
Lemma skip_assign tbl s : s = "" \/ (exists r, s = String "#" r) \/ (exists c r, s = String c r /\ blank c) -> assign tbl s = None.
Proof.
  intros [->|[(r & ->)|(c & r & -> & B)]]; [reflexivity|reflexivity|]. unfold assign, parse_line. rewrite (isspace_is c B), orb_true_r. reflexivity.
Qed.
Lemma layout_lines tbl l m : laid_out l m -> read_lines tbl m = read_lines tbl l.
Proof.
  induction 1 as [|s l m S _ IH|k key v b1 b2 b3 r l m K V B1 B2 B3 T _ IH]; cbn [read_lines]; [reflexivity| |].
  - rewrite skip_assign by assumption. exact IH.
  - rewrite spaced_assign by assumption. rewrite IH. reflexivity.
Qed.
Lemma layout tbl l m : laid_out l m -> read_params tbl m = read_params tbl l.
Proof. intros H. unfold read_params. cbv zeta. rewrite (layout_lines tbl l m H). reflexivity. Qed.
