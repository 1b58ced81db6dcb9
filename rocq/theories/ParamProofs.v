From Coq Require Import List String Ascii Bool Arith Lia.
From Verif Require Import ParamModel ParamSpec.
Import ListNotations.
Open Scope string_scope.

Lemma strncmp_starts key : forall k, strncmp_eq (String.length key) key k = true <-> starts key k.
Proof.
  induction key as [|c key IH]; intros k; cbn [String.length strncmp_eq].
  - split; [intros _; now exists k|reflexivity].
  - destruct k as [|d k].
    + split; [discriminate|]. intros (r & E). discriminate.
    + rewrite andb_true_iff, IH, Ascii.eqb_eq. split.
      * intros (-> & r & ->). exists r. reflexivity.
      * intros (r & E). cbn in E. injection E as -> ->. split; [reflexivity|]. now exists r.
Qed.
Lemma scan_spec key rest : forall n r, scan key n rest = r ->
  match r with
  | Found m => exists l1 k v l2, rest = (l1 ++ (k, v) :: l2)%list /\ m = (n + List.length l1)%nat /\ starts key k /\ forall k' v', In (k', v') l1 -> ~ starts key k'
  | Missing => forall k v, In (k, v) rest -> ~ starts key k
  | Undefined => False
  end.
Proof.
  induction rest as [|(k, v) rest IH]; intros n r; cbn [scan].
  - intros <-. intros k v [].
  - destruct (strncmp_eq _ key k) eqn:E.
    + intros <-. exists [], k, v, rest. split; [reflexivity|]. split; [cbn; lia|]. split; [now apply strncmp_starts|]. intros ? ? [].
    + assert (N : ~ starts key k) by (rewrite <- strncmp_starts, E; discriminate).
      intros R. specialize (IH _ _ R). destruct r as [m| |]; [|intros ? ? [[= <- <-]|I]; [exact N|now apply (IH _ v0)]|exact IH].
      destruct IH as (l1 & k1 & v1 & l2 & -> & -> & S1 & S2). exists ((k, v) :: l1)%list, k1, v1, l2.
      split; [reflexivity|]. split; [cbn [List.length]; lia|]. split; [exact S1|].
      intros k' v' [[= <- <-]|I]; [exact N|now apply (S2 k' v')].
Qed.
Lemma lookup_first tbl key m : get_param tbl key = Found m <->
  exists l1 k v l2, tbl = (l1 ++ (k, v) :: l2)%list /\ m = List.length l1 /\ starts key k /\ forall k' v', In (k', v') l1 -> ~ starts key k'.
Proof.
  unfold get_param. destruct tbl as [|e tbl].
  - split; [discriminate|]. intros (l1 & k & v & l2 & E & _). destruct l1; discriminate.
  - pose proof (scan_spec key (e :: tbl) 0 _ eq_refl) as H. split.
    + intros E. rewrite E in H. exact H.
    + intros (l1 & k & v & l2 & E & -> & S1 & S2). destruct (scan key 0 (e :: tbl)) as [m'| |] eqn:R.
      * destruct H as (l1' & k' & v' & l2' & E' & -> & S1' & S2'). f_equal. cbn [Nat.add].
        destruct (lt_eq_lt_dec (List.length l1') (List.length l1)) as [[L|L]|L]; [exfalso|exact L|exfalso].
        -- apply (S2 k' v'); [|exact S1']. rewrite E in E'.
           assert (N : nth_error l1 (List.length l1') = Some (k', v')).
           { rewrite <- (nth_error_app1 l1 ((k, v) :: l2)) by exact L. rewrite E'. rewrite nth_error_app2 by lia. rewrite Nat.sub_diag. reflexivity. }
           now apply nth_error_In in N.
        -- apply (S2' k v); [|exact S1]. rewrite E in E'.
           assert (N : nth_error l1' (List.length l1) = Some (k, v)).
           { rewrite <- (nth_error_app1 l1' ((k', v') :: l2')) by exact L. rewrite <- E'. rewrite nth_error_app2 by lia. rewrite Nat.sub_diag. reflexivity. }
           now apply nth_error_In in N.
      * exfalso. apply (H k v); [|exact S1]. rewrite E. apply in_or_app. right. now left.
      * destruct H.
Qed.
Lemma lookup_missing tbl key : tbl <> [] -> (get_param tbl key = Missing <-> forall k v, In (k, v) tbl -> ~ starts key k).
Proof.
  intros NE. destruct tbl as [|e tbl]; [congruence|]. unfold get_param.
  pose proof (scan_spec key (e :: tbl) 0 _ eq_refl) as H. split.
  - intros E. rewrite E in H. exact H.
  - intros A. destruct (scan key 0 (e :: tbl)) as [m| |]; [exfalso|reflexivity|destruct H].
    destruct H as (l1 & k & v & l2 & E & _ & S1 & _). apply (A k v); [|exact S1]. rewrite E. apply in_or_app. right. now left.
Qed.

(** ** Tables in which no earlier name extends a later one *)
Definition clash (e e' : string * string) : bool :=
  strncmp_eq (String.length (fst e')) (fst e') (fst e) && negb (String.eqb (fst e) (fst e') && String.eqb (snd e) (snd e')).
Fixpoint safe (tbl : table) : bool :=
  match tbl with [] => true | e :: r => forallb (fun e' => negb (clash e e')) r && safe r end.
Lemma safe_spec tbl : safe tbl = true -> forall l1 e l2, tbl = (l1 ++ e :: l2)%list -> forall e', In e' l1 -> clash e' e = false.
Proof.
  induction tbl as [|x tbl IH]; intros S l1 e l2 E e' I; [destruct l1; discriminate|].
  cbn [safe] in S. apply andb_true_iff in S as [S1 S2]. destruct l1 as [|y l1]; [destruct I|].
  injection E as -> ->. destruct I as [<-|I].
  - rewrite forallb_forall in S1. specialize (S1 e ltac:(apply in_or_app; right; now left)). now apply negb_true_iff in S1.
  - exact (IH S2 l1 e l2 eq_refl e' I).
Qed.
Lemma picks_In {A} (l m : list A) : picks l m -> forall x, In x l -> In x m.
Proof. induction 1; intros y; cbn; [tauto|auto|]. intros [->|I]; auto. Qed.
Lemma safe_picks l m : picks l m -> safe m = true -> safe l = true.
Proof.
  induction 1 as [|x l m P IH|x l m P IH]; [reflexivity| |]; cbn [safe]; rewrite andb_true_iff; intros [S1 S2]; [auto|].
  rewrite IH by exact S2. rewrite andb_true_r. apply forallb_forall. intros e I. rewrite forallb_forall in S1. apply S1. now apply (picks_In l m).
Qed.
Lemma safe_lookup tbl k v : safe tbl = true -> In (k, v) tbl ->
  exists n, get_param tbl k = Found n /\ nth_error tbl n = Some (k, v).
Proof.
  intros S I.
  destruct (get_param tbl k) as [n| |] eqn:G.
  - exists n. split; [reflexivity|]. apply lookup_first in G as (l1 & k1 & v1 & l2 & -> & -> & S1 & S2).
    rewrite nth_error_app2 by lia. rewrite Nat.sub_diag. cbn. f_equal.
    apply in_app_or in I as [I|[I|I]].
    + exfalso. apply (S2 k v I). exists "". clear. induction k; cbn; congruence.
    + exact I.
    + apply in_split in I as (l3 & l4 & ->).
      pose proof (safe_spec _ S (l1 ++ (k1, v1) :: l3) (k, v) l4 ltac:(rewrite <- app_assoc; reflexivity) (k1, v1) ltac:(apply in_or_app; right; now left)) as C.
      unfold clash in C. cbn [fst snd] in C. apply strncmp_starts in S1. rewrite S1 in C. cbn in C.
      apply negb_false_iff, andb_true_iff in C as [C1 C2]. apply String.eqb_eq in C1, C2. now subst.
  - exfalso. assert (NE : tbl <> []) by (intros ->; destruct I). rewrite (lookup_missing tbl k NE) in G. apply (G k v I).
    exists "". clear. induction k; cbn; congruence.
  - exfalso. unfold get_param in G. destruct tbl; [destruct I|].
    pose proof (scan_spec k (p :: tbl) 0 _ G) as H. exact H.
Qed.

(** ** The shipped tables *)
Definition all_on : table := Eval compute in
  (self ["tf"; "dt"; "x1Min"; "x1Max"; "x2Min"; "x2Max"; "x3Min"; "x3Max"; "a"; "hslope"; "poly_xt"; "poly_alpha"; "mks_smooth"; "Rout"; "Rout_vis";
   "Rout_rad"; "cour"; "cour_cool"; "gam"; "poly_K"; "poly_gam"; "eospath"; "L_unit"; "M_unit"; "mbh"; "M_unit"; "game"; "gamp"; "fel0"; "tptemin"; "tptemax";
   "tp_over_te"; "nph_per_proc"; "numin"; "numax"; "tune_emiss"; "tune_scatt"] ++
  [("t0_tune_emiss", "t_tune_emiss"); ("t0_tune_scatt", "t_tune_scatt")] ++
  self ["thetae_max"; "sigma_max"; "kdotk_tol"; "Nph_to_track"; "cnu_flat"; "ms_theta_nu0"; "ms_delta0"; "rz_rmax"; "rz_zmax";
   "opac_param_file"; "opac_file"; "opac_file"; "init_from_grmhd"; "DTd"; "DTl"; "DTr"; "DNr"; "DTp"; "DTf"; "outputdir"])%list.
Lemma picks_refl {A} (l : list A) : picks l l.
Proof. induction l; [apply p_nil|now apply p_take]. Qed.
Lemma picks_none {A} (l : list A) : picks [] l.
Proof. induction l; constructor; assumption. Qed.
Lemma picks_app {A} (a b c d : list A) : picks a b -> picks c d -> picks (a ++ c) (b ++ d).
Proof. induction 1; cbn; intros; [assumption|apply p_skip; auto|apply p_take; auto]. Qed.
Lemma picks_on b l : picks (on b l) l.
Proof. destruct b; [apply picks_refl|apply picks_none]. Qed.
Lemma picks_trans {A} (l m : list A) : picks l m -> forall n, picks m n -> picks l n.
Proof.
  intros P n Q. revert l P. induction Q as [|x m n Q IH|x m n Q IH]; intros l P.
  - exact P.
  - constructor. auto.
  - inversion P; subst; [apply p_skip|apply p_take]; auto.
Qed.
Lemma core_picks c : picks (core_table c) all_on.
Proof.
  unfold core_table. cbv zeta.
  change all_on with (self ["tf"; "dt"]
  ++ (self ["x1Min"; "x1Max"; "x2Min"; "x2Max"; "x3Min"; "x3Max"])
  ++ (self ["a"; "hslope"; "poly_xt"; "poly_alpha"; "mks_smooth"; "Rout"; "Rout_vis"])
  ++ (self ["Rout_rad"])
  ++ self ["cour"]
  ++ (self ["cour_cool"])
  ++ (self ["gam"])
  ++ (self ["poly_K"; "poly_gam"])
  ++ (self ["eospath"])
  ++ (self ["L_unit"; "M_unit"])
  ++ (self ["mbh"; "M_unit"])
  ++ (self ["game"; "gamp"; "fel0"; "tptemin"; "tptemax"])
  ++ (self ["tp_over_te"])
  ++ (self ["nph_per_proc"; "numin"; "numax"; "tune_emiss"; "tune_scatt"])
  ++ [("t0_tune_emiss", "t_tune_emiss"); ("t0_tune_scatt", "t_tune_scatt")]
  ++ (self ["thetae_max"; "sigma_max"; "kdotk_tol"; "Nph_to_track"])
  ++ (self ["cnu_flat"])
  ++ (self ["ms_theta_nu0"; "ms_delta0"])
  ++ (self ["rz_rmax"; "rz_zmax"])
  ++ (self ["opac_param_file"; "opac_file"])
  ++ (self ["opac_file"])
  ++ self ["init_from_grmhd"; "DTd"; "DTl"; "DTr"; "DNr"; "DTp"; "DTf"; "outputdir"])%list.
  repeat first [apply picks_refl | apply picks_on | apply picks_app].
Qed.
Lemma shipped_safe : forallb (fun p => safe (all_on ++ self p)%list) shipped = true.
Proof. vm_compute. reflexivity. Qed.
Lemma picks_self l m : picks l m -> picks (self l) (self m).
Proof. unfold self. induction 1; cbn; [apply p_nil|now apply p_skip|now apply p_take]. Qed.
Lemma core_lookup c p l : In p shipped -> picks l p -> forall k v,
  In (k, v) (core_table c ++ self l)%list ->
  exists n, get_param (core_table c ++ self l)%list k = Found n /\ nth_error (core_table c ++ self l)%list n = Some (k, v).
Proof.
  intros I P k v. apply safe_lookup. apply (safe_picks _ (all_on ++ self p)%list).
  - apply picks_app; [apply core_picks|now apply picks_self].
  - pose proof shipped_safe as S. rewrite forallb_forall in S. now apply S.
Qed.

(** ** Reading *)
Lemma assign_bound tbl l n k t : assign tbl l = Some (n, k, t) -> (n < List.length tbl)%nat.
Proof.
  unfold assign. destruct (parse_line l) as [[key test]|]; [|discriminate].
  destruct (get_param tbl key) as [m| |] eqn:G; try discriminate. destruct (kind_of l); [|discriminate].
  intros [= <- <- <-]. apply lookup_first in G as (l1 & k1 & v & l2 & -> & -> & _). rewrite app_length. cbn. lia.
Qed.
Lemma read_bound tbl lines a : In a (read_lines tbl lines) -> (fst (fst a) < List.length tbl)%nat.
Proof.
  induction lines as [|l r IH]; cbn [read_lines]; [intros []|]. destruct (assign tbl l) as [[[n k] t]|] eqn:E; [|exact IH].
  intros [<-|I]; [cbn; now apply assign_bound in E|auto].
Qed.
Lemma accepted_all tbl lines a : read_params tbl lines = Some a -> NoDup (map (fun x => fst (fst x)) a) ->
  forall n, (n < List.length tbl)%nat -> exists k t, In (n, k, t) a.
Proof.
  unfold read_params. cbv zeta. destruct (Nat.eqb_spec (List.length (read_lines tbl lines)) (List.length tbl)) as [L|]; [|discriminate].
  intros [= <-] ND n Hn. set (s := map (fun x => fst (fst x)) (read_lines tbl lines)) in *.
  assert (I : incl (seq 0 (List.length tbl)) s).
  { apply NoDup_length_incl; [exact ND| |].
    - unfold s. rewrite map_length, seq_length. lia.
    - intros m M. apply in_map_iff in M as (x & <- & X). apply in_seq. apply read_bound in X. lia. }
  specialize (I n ltac:(apply in_seq; lia)). apply in_map_iff in I as ([[m k] t] & <- & X). exists k, t. exact X.
Qed.
Lemma accepted_count tbl lines : (exists a, read_params tbl lines = Some a) <-> List.length (read_lines tbl lines) = List.length tbl.
Proof.
  unfold read_params. cbv zeta. destruct (Nat.eqb_spec (List.length (read_lines tbl lines)) (List.length tbl)) as [L|L].
  - split; eauto.
  - split; [intros (a & E); discriminate|congruence].
Qed.
(** a well-formed line assigns its own parameter *)
Lemma rejected tbl lines n : (n < List.length tbl)%nat -> (forall k t, ~ In (n, k, t) (read_lines tbl lines)) ->
  NoDup (map (fun x => fst (fst x)) (read_lines tbl lines)) -> read_params tbl lines = None.
Proof.
  intros Hn A ND. destruct (read_params tbl lines) as [a|] eqn:E; [exfalso|reflexivity].
  assert (a = read_lines tbl lines) as ->. { unfold read_params in E. cbv zeta in E. destruct (_ =? _)%nat; congruence. }
  destruct (accepted_all _ _ _ E ND n Hn) as (k & t & I). exact (A k t I).
Qed.

Definition cfg0 : config := {| c_metric := Minkowski; c_rad := NoRad; c_eos := Tab; c_fallback := false; c_electrons := true;
  c_flatemiss := false; c_multiscatt := false; c_rz := false; c_burrows := false; c_hdf5 := false |}.
Lemma gam_hits_game : exists n, get_param (core_table cfg0) "gam" = Found n /\ nth_error (core_table cfg0) n = Some ("game", "game") /\
  forall v, ~ In ("gam", v) (core_table cfg0).
Proof.
  exists 12%nat. split; [vm_compute; reflexivity|]. split; [vm_compute; reflexivity|].
  intros v I. apply (in_map fst) in I. cbn [fst] in I. revert I.
  assert (E : existsb (String.eqb "gam") (map fst (core_table cfg0)) = false) by (vm_compute; reflexivity).
  intros I. rewrite <- not_true_iff_false in E. apply E. apply existsb_exists. exists "gam". split; [exact I|apply String.eqb_refl].
Qed.
Definition cfg1 : config := {| c_metric := Minkowski; c_rad := NoRad; c_eos := Gamma; c_fallback := false; c_electrons := false;
  c_flatemiss := false; c_multiscatt := false; c_rz := false; c_burrows := false; c_hdf5 := false |}.
(** a file giving tf twice and leaving the adiabatic index out *)
Definition dup_file : list string :=
  ["# parameters"; "[dbl] tf = 1.0"; "[dbl] tf = 2.0"; "[dbl] dt = 1e-3"; "[dbl] x1Min = 0"; "[dbl] x1Max = 1"; "[dbl] x2Min = 0"; "[dbl] x2Max = 1";
   "[dbl] x3Min = 0"; "[dbl] x3Max = 1"; "[dbl] cour = 0.9"; "[str] init_from_grmhd = none"; "[dbl] DTd = 1"; "[dbl] DTl = 1";
   "[dbl] DTr = 1"; "[int] DNr = 100"; "[int] DTp = 10"; "[int] DTf = 1"; "[str] outputdir = ./"].
Lemma dup_accepted : exists a n, read_params (core_table cfg1) dup_file = Some a /\ nth_error (core_table cfg1) n = Some ("gam", "gam") /\
  forall k t, ~ In (n, k, t) a.
Proof.
  eexists. exists 9%nat. split; [vm_compute; reflexivity|]. split; [vm_compute; reflexivity|].
  intros k t I. cbn [In] in I. repeat (destruct I as [I|I]; [discriminate|]). exact I.
Qed.

(** ** Well-formed files *)
Lemma isspace_blank c : ~ blank c -> isspace c = false.
Proof.
  unfold blank, isspace. intros N. apply orb_false_iff. split; [apply Nat.eqb_neq; tauto|].
  apply andb_false_iff. destruct (9 <=? nat_of_ascii c)%nat eqn:A; [right|now left]. apply Nat.leb_gt. apply Nat.leb_le in A. lia.
Qed.
Lemma app_assoc_s (a b c : string) : (a ++ b) ++ c = a ++ (b ++ c).
Proof. induction a; cbn; congruence. Qed.
Lemma app_nil_s (a : string) : a ++ "" = a.
Proof. induction a; cbn; congruence. Qed.
Lemma words_word w : (forall l c r, w = l ++ String c r -> isspace c = false) -> forall cur s, words_aux cur (w ++ s) = words_aux (cur ++ w) s.
Proof.
  induction w as [|c w IH]; intros B cur s; cbn [append words_aux].
  - now rewrite app_nil_s.
  - rewrite (B "" c w eq_refl). rewrite IH.
    + rewrite app_assoc_s. reflexivity.
    + intros l d r ->. apply (B (String c l) d r). reflexivity.
Qed.
Lemma words_blank cur s : cur <> "" -> words_aux cur (String " " s) = cur :: words_aux "" s.
Proof. intros N. destruct cur; [congruence|reflexivity]. Qed.
Lemma words_end cur : cur <> "" -> words_aux cur "" = [cur].
Proof. intros N. destruct cur; [congruence|reflexivity]. Qed.
Lemma entry_words k key v : blank_free key -> blank_free v -> words (entry k key v) = [tag k; key; "="; v].
Proof.
  intros [K1 K2'] [V1 V2']. unfold words, entry.
  assert (K2 := fun l c r E => isspace_blank c (K2' l c r E)). assert (V2 := fun l c r E => isspace_blank c (V2' l c r E)). clear K2' V2'.
  assert (E : forall s, words_aux "" (tag k ++ " " ++ s) = tag k :: words_aux "" s) by (destruct k; reflexivity).
  rewrite E. f_equal. rewrite words_word by exact K2. cbn [append]. rewrite words_blank by exact K1. f_equal.
  change (String "=" (String " " v)) with ("=" ++ " " ++ v).
  change (words_aux "" ("=" ++ " " ++ v)) with ("=" :: words_aux "" v). f_equal.
  rewrite <- (app_nil_s v) at 1. rewrite words_word by exact V2. cbn [append]. now rewrite words_end.
Qed.
Lemma entry_assign tbl k key v n : blank_free key -> blank_free v -> get_param tbl key = Found n ->
  assign tbl (entry k key v) = Some (n, k, v).
Proof.
  intros K V G. unfold assign, parse_line. pose proof (entry_words k key v K V) as W.
  destruct (entry k key v) as [|c r] eqn:E; [destruct k; discriminate|].
  assert (C : Ascii.eqb c "#"%char || isspace c = false) by (destruct k; injection E as <- _; reflexivity).
  rewrite C, W, G, <- E. destruct k; reflexivity.
Qed.
Lemma read_app tbl a b : read_lines tbl (a ++ b)%list = (read_lines tbl a ++ read_lines tbl b)%list.
Proof. induction a as [|x a IH]; cbn [read_lines app]; [reflexivity|]. destruct (assign tbl x); cbn [app]; congruence. Qed.
(** a file with one entry per registered name is accepted and every entry lands in its own slot *)
Lemma full_file tbl (ks : string -> kind) (vs : string -> string) :
  safe tbl = true -> NoDup (map fst tbl) -> (forall k v, In (k, v) tbl -> blank_free k /\ blank_free (vs k)) ->
  read_params tbl (map (fun e => entry (ks (fst e)) (fst e) (vs (fst e))) tbl) =
  Some (combine (combine (seq 0 (List.length tbl)) (map (fun e => ks (fst e)) tbl)) (map (fun e => vs (fst e)) tbl)).
Proof.
  intros S ND B.
  assert (R : forall l1 l2, tbl = (l1 ++ l2)%list -> read_lines tbl (map (fun e => entry (ks (fst e)) (fst e) (vs (fst e))) l2)
    = combine (combine (seq (List.length l1) (List.length l2)) (map (fun e => ks (fst e)) l2)) (map (fun e => vs (fst e)) l2)).
  { intros l1 l2. revert l1. induction l2 as [|(k, v) l2 IH]; intros l1 E; [reflexivity|].
    assert (I : In (k, v) tbl) by (rewrite E; apply in_or_app; right; now left).
    destruct (B k v I) as [B1 B2]. destruct (safe_lookup tbl k v S I) as (n & G & N).
    assert (n = List.length l1) as ->.
    { assert (Hn : (n < List.length (map fst tbl))%nat) by (rewrite map_length; apply nth_error_Some; congruence).
      rewrite NoDup_nth_error in ND. apply ND; [exact Hn|]. rewrite !nth_error_map, N. rewrite E at 1.
      rewrite nth_error_app2 by lia. rewrite Nat.sub_diag. reflexivity. }
    cbn [map read_lines fst List.length seq combine]. rewrite (entry_assign tbl _ _ _ _ B1 B2 G). f_equal.
    specialize (IH (l1 ++ [(k, v)])%list). rewrite app_length in IH. cbn [List.length] in IH. rewrite Nat.add_1_r in IH. apply IH.
    rewrite E, <- app_assoc. reflexivity. }
  unfold read_params. cbv zeta. rewrite (R [] tbl eq_refl). cbn [List.length].
  rewrite !combine_length, seq_length, !map_length, !Nat.min_id, Nat.eqb_refl. reflexivity.
Qed.

Fixpoint no_blank (s : string) : bool := match s with EmptyString => true | String c r => negb (isspace c) && no_blank r end.
Lemma no_blank_free s : s <> "" -> no_blank s = true -> blank_free s.
Proof.
  intros N B. split; [exact N|]. clear N. induction s as [|d s IH]; intros l c r E.
  - destruct l; discriminate.
  - cbn in B. apply andb_true_iff in B as [B1 B2]. destruct l as [|e l]; injection E.
    + intros _ <-. intros K. apply negb_true_iff in B1. unfold isspace in B1. apply orb_false_iff in B1 as [B3 B4].
      apply Nat.eqb_neq in B3. destruct K as [K|K]; [congruence|]. apply andb_false_iff in B4 as [B4|B4]; apply Nat.leb_gt in B4; lia.
    + intros -> _. now apply (IH B2 l c r).
Qed.
Lemma names_plain : forallb (fun p => forallb (fun e => negb (String.eqb (fst e) "") && no_blank (fst e)) (all_on ++ self p)%list) shipped = true.
Proof. vm_compute. reflexivity. Qed.
Lemma full_core c p l (ks : string -> kind) (vs : string -> string) : In p shipped -> picks l p ->
  let tbl := (core_table c ++ self l)%list in
  NoDup (map fst tbl) -> (forall k, blank_free (vs k)) ->
  read_params tbl (map (fun e => entry (ks (fst e)) (fst e) (vs (fst e))) tbl) =
  Some (combine (combine (seq 0 (List.length tbl)) (map (fun e => ks (fst e)) tbl)) (map (fun e => vs (fst e)) tbl)).
Proof.
  intros I P tbl ND B.
  assert (PK : picks tbl (all_on ++ self p)%list) by (apply picks_app; [apply core_picks|now apply picks_self]).
  apply full_file; [|exact ND|].
  - apply (safe_picks _ _ PK). pose proof shipped_safe as S. rewrite forallb_forall in S. now apply S.
  - intros k v K. split; [|apply B]. apply (picks_In _ _ PK) in K. pose proof names_plain as N. rewrite forallb_forall in N.
    specialize (N p I). rewrite forallb_forall in N. specialize (N _ K). apply andb_true_iff in N as [N1 N2]. cbn [fst] in *.
    apply no_blank_free; [|exact N2]. intros ->. discriminate.
Qed.

Lemma exact_refuted : exists c key n v, get_param (core_table c) key = Found n /\
  nth_error (core_table c) n = Some v /\ (forall v, ~ In (key, v) (core_table c)).
Proof. destruct gam_hits_game as (n & A & B & C). exists cfg0, "gam", n, ("game", "game"). auto. Qed.
Lemma all_set_refuted : exists c lines a n e, read_params (core_table c) lines = Some a /\
  nth_error (core_table c) n = Some e /\ forall k t, ~ In (n, k, t) a.
Proof. destruct dup_accepted as (a & n & A & B & C). exists cfg1, dup_file, a, n, ("gam", "gam"). auto. Qed.
