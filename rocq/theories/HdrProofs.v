From Coq Require Import List String Bool.
From Verif Require Import HdrModel HdrSpec.
Import ListNotations.
Open Scope string_scope.

Definition ctype_eqb (a b : ctype) := match a, b with Int, Int | Dbl, Dbl | Str, Str => true | _, _ => false end.
Lemma ctype_eqb_eq a b : ctype_eqb a b = true <-> a = b.
Proof. destruct a, b; cbn; split; congruence. Qed.
Definition right (e : string * ctype) := match declared (fst e) with Some d => ctype_eqb (snd e) d | None => false end.
Lemma right_spec e : right e = true -> right_type e.
Proof.
  unfold right, right_type. destruct (declared (fst e)); [|discriminate]. intros H. apply ctype_eqb_eq in H. congruence.
Qed.
Definition excepted (s : string) := String.eqb s "dump_id" || String.eqb s "fdump_id".
Definition ok (e : string * ctype) := excepted (fst e) || right e.

Lemma write_ok c : forallb ok (write_header c) = true.
Proof. destruct c as [m e g r t el]. destruct m, e, g, r, t, el; reflexivity. Qed.
Lemma read_ok c : forallb ok (read_header c) = true.
Proof. destruct c as [m e g r t el]. destruct m, e, g, r, t, el; reflexivity. Qed.

Lemma accesses c e : In e (write_header c ++ read_header c) -> fst e <> "dump_id" -> fst e <> "fdump_id" ->
  right_type e /\ exact_bytes e.
Proof.
  intros H A B. assert (O : ok e = true).
  { rewrite in_app_iff in H. destruct H as [H|H].
    - exact (proj1 (forallb_forall _ _) (write_ok c) e H).
    - exact (proj1 (forallb_forall _ _) (read_ok c) e H). }
  unfold ok, excepted in O.
  destruct (String.eqb_spec (fst e) "dump_id"); [contradiction|].
  destruct (String.eqb_spec (fst e) "fdump_id"); [contradiction|].
  cbn [orb] in O. apply right_spec in O. split; auto. exists (snd e). split; auto.
Qed.

Lemma overrun c : exists e, In e (write_header c) /\ In e (read_header c) /\ ~ exact_bytes e.
Proof.
  exists ("dump_id", Dbl). repeat split.
  - unfold write_header. cbn. repeat (try (left; reflexivity); right).
  - unfold read_header. cbn. repeat (try (left; reflexivity); right).
  - intros (d & D & S). cbn in D, S. inversion D; subst. discriminate.
Qed.
Lemma overrun_bytes n t c : In (n, t) (write_header c ++ read_header c) -> n = "dump_id" \/ n = "fdump_id" ->
  declared n = Some Int /\ t = Dbl.
Proof.
  intros H N. assert (G : forallb (fun e => if excepted (fst e) then ctype_eqb (snd e) Dbl else true)
      (write_header c ++ read_header c) = true).
  { destruct c as [m e g r tr el]. destruct m, e, g, r, tr, el; reflexivity. }
  rewrite forallb_forall in G. specialize (G _ H). cbn [fst snd] in G.
  destruct N as [-> | ->]; cbn in G; apply ctype_eqb_eq in G; auto.
Qed.

Definition mem (e : string * ctype) l := existsb (fun x => String.eqb (fst e) (fst x) && ctype_eqb (snd e) (snd x)) l.
Lemma mem_In e l : mem e l = true -> In e l.
Proof.
  unfold mem. rewrite existsb_exists. intros (x & H & E). apply andb_true_iff in E. destruct E as (A & B).
  apply String.eqb_eq in A. apply ctype_eqb_eq in B. destruct e, x; cbn in *. subst. exact H.
Qed.
Lemma read_written c e : In e (read_header c) -> In e (write_header c).
Proof.
  intros H. apply mem_In.
  assert (G : forallb (fun e => mem e (write_header c)) (read_header c) = true).
  { destruct c as [m eo g r t el]. destruct m, eo, g, r, t, el; reflexivity. }
  rewrite forallb_forall in G. apply G. exact H.
Qed.

(** What the file holds and the program does not take back. *)
Definition constants : list string :=
  ["version"; "metric"; "nulnutype"; "electrons"; "radiation"; "nvar"; "nvar_passive"; "output_eosvars";
   "diagnostics_use_radtypes"; "eospath"].
Lemma written_read c e : In e (write_header c) -> In e (read_header c) \/ In (fst e) constants.
Proof.
  intros H. assert (G : forallb (fun e => mem e (read_header c) || existsb (String.eqb (fst e)) constants) (write_header c) = true).
  { destruct c as [m eo g r t el]. destruct m, eo, g, r, t, el; reflexivity. }
  rewrite forallb_forall in G. specialize (G e H). apply orb_true_iff in G. destruct G as [G|G].
  - left. apply mem_In. exact G.
  - right. rewrite existsb_exists in G. destruct G as (x & I & E). apply String.eqb_eq in E. rewrite E. exact I.
Qed.
Fixpoint nodup (l : list string) := match l with [] => true | x :: l => negb (existsb (String.eqb x) l) && nodup l end.
Lemma nodup_NoDup l : nodup l = true -> NoDup l.
Proof.
  induction l as [|x l IH]; cbn; intros H; constructor; apply andb_true_iff in H; destruct H as (A & B); auto.
  intros I. apply negb_true_iff in A. assert (existsb (String.eqb x) l = true); [|congruence].
  apply existsb_exists. exists x. split; auto. apply String.eqb_refl.
Qed.
Lemma write_nodup c : NoDup (map fst (write_header c)).
Proof. apply nodup_NoDup. destruct c as [m eo g r t el]. destruct m, eo, g, r, t, el; reflexivity. Qed.
