From Coq Require Import Reals ZArith List Arith Bool Lia.
From Verif Require Import TDumpModel TDumpSpec.
Import ListNotations.

Lemma update_at {A} (a : list A) x b v : update (a ++ x :: b) (length a) v = Some (a ++ v :: b).
Proof. induction a as [|y a IH]; cbn [app length update]; [reflexivity|]. rewrite IH. reflexivity. Qed.
Lemma col_eqb_refl c : col_eqb c c = true.
Proof. destruct c; reflexivity. Qed.
Lemma col_eqb_eq c d : col_eqb c d = true -> c = d.
Proof. destruct c, d; cbn; congruence. Qed.
Lemma stores_at c vs : forall (m : mem) a b i, m c = a ++ repeat None (length vs) ++ b -> i = length a ->
  exists m', stores m c i vs = Some m' /\ forall c', m' c' = if col_eqb c c' then a ++ vs ++ b else m c'.
Proof.
  induction vs as [|v vs IH]; intros m a b i M I; cbn [stores].
  { exists m. split; [reflexivity|]. intros c'. destruct (col_eqb c c') eqn:E; [|reflexivity].
    apply col_eqb_eq in E. subst c'. exact M. }
  cbn [length repeat app] in M. unfold store. rewrite M, I, update_at.
  edestruct (IH (fun c' => if col_eqb c c' then a ++ v :: repeat None (length vs) ++ b else m c') (a ++ [v]) b (S (length a))) as (m' & S' & F).
  { rewrite col_eqb_refl, <- app_assoc. reflexivity. }
  { rewrite app_length. cbn. lia. }
  exists m'. split; [exact S'|]. intros c'. rewrite F. destruct (col_eqb c c'); [|reflexivity].
  rewrite <- app_assoc. reflexivity.
Qed.
Lemma store_at c v (m : mem) a b i : m c = a ++ None :: b -> i = length a ->
  exists m', store m c i v = Some m' /\ forall c', m' c' = if col_eqb c c' then a ++ v :: b else m c'.
Proof.
  intros M I. destruct (stores_at c [v] m a b i M I) as (m' & S' & F). cbn [stores] in S'. exists m'. split; [|exact F].
  destruct (store m c i v); exact S'.
Qed.
Lemma update_length {A} (l : list A) : forall i v l', update l i v = Some l' -> length l' = length l.
Proof.
  induction l as [|x l IH]; intros [|i] v l'; cbn; try discriminate.
  { intros H. injection H as <-. reflexivity. }
  destruct (update l i v) eqn:E; [|discriminate]. intros H. injection H as <-. cbn. f_equal. eapply IH, E.
Qed.
Lemma repeat_app {A} (x : A) a b : repeat x (a + b) = repeat x a ++ repeat x b.
Proof. induction a; cbn; congruence. Qed.

Section Dump.
Variable nstep : Z.
Variable t : R.
Variable ntypes : nat.
Variable cart fluid em ab ucon ucov bcon bcov : (nat -> R) -> nat -> R.
Notation Row := (row nstep t ntypes cart fluid em ab ucon ucov bcon bcov).
Notation Record' := (record nstep t ntypes cart fluid em ab ucon ucov bcon).
Notation Width := (width ntypes).
Notation Fill := (fill nstep t ntypes cart fluid em ab ucon ucov bcon).

(** what the columns hold after the tracers [ds] *)
Definition first_cart (ds : list particle) (k : nat) : option val := nth k (map Some (flat_map (Row CXcart) ds)) None.
Definition got (ds : list particle) (c : col) : list (option val) :=
  match c with
  | Cx => map (fun _ => first_cart ds 1) ds
  | Cy => map (fun _ => first_cart ds 2) ds
  | Cz => match ds with [] => [] | _ :: l => None :: map (fun _ => first_cart ds 3) l end
  | Cbcov => map Some (flat_map (Row Cbcon) ds)
  | _ => map Some (flat_map (Row c) ds)
  end.

Lemma row_length c p : length (Row c p) = Width c.
Proof. destruct c; cbn; try reflexivity; rewrite map_length, seq_length; reflexivity. Qed.
Lemma flat_rows c ds : length (flat_map (Row c) ds) = Width c * length ds.
Proof. induction ds as [|p ds IH]; cbn [flat_map length]; [lia|]. rewrite app_length, IH, row_length. lia. Qed.
Lemma got_length ds c : length (got ds c) = Width c * length ds.
Proof.
  destruct c; cbn [got]; rewrite ?map_length; try (exact (flat_rows _ ds)); try (cbn [width]; lia).
  { destruct ds; cbn; rewrite ?map_length; lia. }
Qed.
Lemma first_app ds p k : k < 3 * length ds -> first_cart (ds ++ [p]) k = first_cart ds k.
Proof.
  intros L. unfold first_cart. rewrite flat_map_app, map_app, app_nth1; [reflexivity|].
  rewrite map_length, (flat_rows CXcart). exact L.
Qed.
Lemma got_app ds p c : Row c = Row c -> match c with Cx | Cy | Cz => False | _ => True end ->
  got (ds ++ [p]) c = got ds c ++ map Some (Row (match c with Cbcov => Cbcon | _ => c end) p).
Proof.
  intros _ H. destruct c; try contradiction; cbn [got]; rewrite flat_map_app, map_app; cbn [flat_map]; rewrite app_nil_r; reflexivity.
Qed.

Definition held (m : mem) (ds : list particle) (r : nat) := forall c, m c = got ds c ++ repeat None (Width c * r).

Lemma record_ok m ds p r : held m ds (S r) -> (ds <> [] \/ 0 < r) ->
  exists m', Record' m (length ds) p = Some m' /\ held m' (ds ++ [p]) r.
Proof.
  intros Hm Hr. unfold record.
  assert (O1 : forall c, Width c = 1 -> m c = got ds c ++ None :: repeat None (Width c * r)).
  { intros c W. rewrite Hm, Nat.mul_succ_r, Nat.add_comm, W. reflexivity. }
  assert (O : forall c k, Width c = k -> m c = got ds c ++ repeat None k ++ repeat None (Width c * r)).
  { intros c k W. rewrite Hm, Nat.mul_succ_r, Nat.add_comm, repeat_app, W. reflexivity. }
  assert (N1 : forall c, Width c = 1 -> length ds = length (got ds c)). { intros c W. rewrite got_length, W. lia. }
  assert (N : forall c k, Width c = k -> length ds * k = length (got ds c)). { intros c k W. rewrite got_length, W. lia. }
  Local Ltac look := repeat match goal with F : forall c', ?m' c' = _ |- ?m' _ = _ => rewrite F; cbn [col_eqb] end.
  Local Ltac one O1 N1 c v :=
    let m' := fresh "m" in let S' := fresh "S" in let F := fresh "F" in
    match goal with |- context [store ?m0 c _ _] =>
    edestruct (store_at c v m0) as (m' & S' & F); [look; apply (O1 c); reflexivity | apply (N1 c); reflexivity |
    rewrite S'; cbn [bind]; clear S'] end.
  Local Ltac many O N c k vs :=
    let m' := fresh "m" in let S' := fresh "S" in let F := fresh "F" in
    match goal with |- context [stores ?m0 c _ _] =>
    edestruct (stores_at c vs m0) as (m' & S' & F); [look;
      replace (length vs) with k by (unfold vec; rewrite map_length, seq_length; reflexivity); apply (O c k); reflexivity |
      apply (N c k); reflexivity |
    rewrite S'; cbn [bind]; clear S'] end.
  one O1 N1 Cid (Some (I (nscatt p))). one O1 N1 Cactive (Some (I 1)). one O1 N1 Cit (Some (I nstep)).
  one O1 N1 Ctime (num t). one O1 N1 Cmass (num (w p)).
  many O N CXharm 3 (vec (X2 p) 1 3). many O N CXcart 3 (vec (cart (X2 p)) 1 3).
  match goal with |- bind (load ?m' _ _) _ = _ \/ _ => idtac | |- exists _, bind (load ?m' _ _) _ = _ /\ _ =>
    assert (L : forall k, k < 3 * length (ds ++ [p]) -> nth_error (m' CXcart) k = Some (first_cart (ds ++ [p]) k)) end.
  { intros k K. rewrite F5. cbn [col_eqb]. change (vec (cart (X2 p)) 1 3) with (map Some (Row CXcart p)). rewrite app_assoc.
    rewrite nth_error_app1.
    2:{ rewrite app_length, got_length, map_length, row_length. rewrite app_length in K. cbn [width length] in *. lia. }
    unfold first_cart. cbn [got]. rewrite flat_map_app. cbn [flat_map]. rewrite app_nil_r, map_app.
    apply nth_error_nth'. rewrite app_length, !map_length, flat_rows, row_length. rewrite app_length in K. cbn [width length] in *. lia. }
  assert (L3 : match ds with [] => nth_error (m6 CXcart) 3 = Some None | _ => nth_error (m6 CXcart) 3 = Some (first_cart (ds ++ [p]) 3) end).
  { destruct ds as [|q l].
    - rewrite F5. cbn [col_eqb got flat_map map app vec seq width]. destruct r as [|r]; [destruct Hr; [congruence|lia]|]. reflexivity.
    - apply L. rewrite app_length. cbn [length]. lia. }
  assert (LN : length (ds ++ [p]) = S (length ds)) by (rewrite app_length; cbn; lia).
  unfold load at 1. rewrite L by lia. cbn [bind]. one O1 N1 Cx (first_cart (ds ++ [p]) 1).
  unfold load at 1. replace (m7 CXcart) with (m6 CXcart) by (symmetry; look; reflexivity).
  rewrite L by lia. cbn [bind]. one O1 N1 Cy (first_cart (ds ++ [p]) 2).
  unfold load at 1. replace (m8 CXcart) with (m6 CXcart) by (symmetry; look; reflexivity).
  assert (Z : exists v, nth_error (m6 CXcart) 3 = Some v /\ v = match ds with [] => None | _ => first_cart (ds ++ [p]) 3 end)
    by (destruct ds; eexists; split; [exact L3| reflexivity | exact L3 | reflexivity]).
  destruct Z as (v & Z & Zv). rewrite Z. cbn [bind]. one O1 N1 Cz v.
  one O1 N1 Crho (num (fluid (X2 p) 0)). one O1 N1 Cuu (num (fluid (X2 p) 1)). one O1 N1 Cs (num (fluid (X2 p) 2)).
  one O1 N1 CPress (num (fluid (X2 p) 3)). one O1 N1 CT (num (fluid (X2 p) 4)).
  many O N Cem ntypes (vec (em (X2 p)) 0 ntypes). many O N Cabs ntypes (vec (ab (X2 p)) 0 ntypes).
  many O N Cucon 4 (vec (ucon (X2 p)) 0 4). many O N Cucov 4 (vec (ucov (X2 p)) 0 4). many O N Cbcon 4 (vec (bcon (X2 p)) 0 4).
  many O N Cbcov 4 (vec (bcon (X2 p)) 0 4).
  eexists. split; [reflexivity|].
  intros c.
  assert (G : match c with Cx | Cy | Cz => False | _ => True end -> got (ds ++ [p]) c = got ds c ++ map Some (Row (match c with Cbcov => Cbcon | _ => c end) p))
    by (apply got_app; reflexivity).
  destruct c; try (rewrite (G Logic.I); clear G; look; rewrite <- app_assoc; cbn [width]; reflexivity).
  - look. cbn [col_eqb got width]. rewrite map_app, <- app_assoc. cbn [map app]. f_equal.
    apply map_ext_in. intros q Q. symmetry. apply first_app. destruct ds; [destruct Q|cbn [length]; lia].
  - look. cbn [col_eqb got width]. rewrite map_app, <- app_assoc. cbn [map app]. f_equal.
    apply map_ext_in. intros q Q. symmetry. apply first_app. destruct ds; [destruct Q|cbn [length]; lia].
  - look. cbn [col_eqb got width]. rewrite Zv. destruct ds as [|q l]; [reflexivity|].
    cbn [app]. f_equal. rewrite map_app, <- app_assoc. cbn [map app]. f_equal.
    apply map_ext_in. intros q' Q. symmetry. apply (first_app (q :: l)). destruct l; [destruct Q|cbn [length]; lia].
  - rewrite (G Logic.I). look. cbn [row]. rewrite <- app_assoc, map_map. reflexivity.
  - rewrite (G Logic.I). look. cbn [row]. rewrite <- app_assoc, map_map. reflexivity.
Qed.

Lemma count_is lists : count_tracers_local lists = length (tracers lists).
Proof.
  unfold tracers. induction lists as [|l lists IH]; [reflexivity|].
  cbn [count_tracers_local fold_right concat]. rewrite filter_app, app_length. unfold count_tracers_local in IH. lia.
Qed.
Notation Walk := (walk nstep t ntypes cart fluid em ab ucon ucov bcon).
Notation Walk_all := (walk_all nstep t ntypes cart fluid em ab ucon ucov bcon).
Lemma walk_ok l : forall m ds r, held m ds (length (filter tracer l) + r) -> length ds + length (filter tracer l) + r <> 1 ->
  exists m', Walk m (length ds) l = Some (m', length ds + length (filter tracer l)) /\ held m' (ds ++ filter tracer l) r.
Proof.
  induction l as [|p l IH]; intros m ds r Hm N; cbn [walk filter].
  { cbn [filter length] in Hm. exists m. rewrite app_nil_r, Nat.add_0_r. split; [reflexivity|exact Hm]. }
  cbn [filter] in *. destruct (tracer p); [|apply IH; assumption].
  cbn [length] in *. destruct (record_ok m ds p (length (filter tracer l) + r) Hm) as (m' & E & Hm').
  { destruct ds as [|q ds]; [right; cbn [length] in *; lia|left; discriminate]. }
  rewrite E. cbn [bind]. destruct (IH m' (ds ++ [p]) r Hm') as (m2 & E2 & H2).
  { rewrite app_length. cbn [length]. lia. }
  exists m2. rewrite app_length in E2. cbn [length] in E2. rewrite Nat.add_1_r in E2. rewrite E2.
  split; [f_equal; f_equal; lia|]. rewrite <- app_assoc in H2. exact H2.
Qed.
Lemma walk_all_ok lists : forall m ds r, held m ds (length (tracers lists) + r) -> length ds + length (tracers lists) + r <> 1 ->
  exists m', Walk_all m (length ds) lists = Some (m', length ds + length (tracers lists)) /\ held m' (ds ++ tracers lists) r.
Proof.
  induction lists as [|l lists IH]; intros m ds r Hm N; cbn [walk_all].
  { exists m. unfold tracers in *. cbn in *. rewrite app_nil_r, Nat.add_0_r. split; [reflexivity|exact Hm]. }
  assert (T : tracers (l :: lists) = filter tracer l ++ tracers lists) by (unfold tracers; cbn [concat]; apply filter_app).
  rewrite T in *. rewrite app_length in *.
  destruct (walk_ok l m ds (length (tracers lists) + r)) as (m1 & E1 & H1); [rewrite Nat.add_assoc; exact Hm|lia|].
  rewrite E1. cbn [bind fst snd]. destruct (IH m1 (ds ++ filter tracer l) r H1) as (m2 & E2 & H2); [rewrite app_length; lia|].
  rewrite app_length in E2. rewrite E2. exists m2. split; [f_equal; f_equal; lia|]. rewrite app_assoc. exact H2.
Qed.
Lemma fill_ok lists : length (tracers lists) <> 1 ->
  exists m, Fill lists = Some m /\ forall c, m c = got (tracers lists) c.
Proof.
  intros N. unfold fill. rewrite count_is.
  destruct (walk_all_ok lists (malloc ntypes (length (tracers lists))) [] 0) as (m & E & H).
  { intros c. rewrite Nat.add_0_r. destruct c; reflexivity. }
  { cbn [length]. lia. }
  cbn [length] in E. rewrite Nat.add_0_l in E. rewrite E. cbn [bind fst snd]. rewrite Nat.eqb_refl. exists m. split; [reflexivity|].
  intros c. rewrite H, Nat.mul_0_r. cbn [repeat app]. rewrite app_nil_r. reflexivity.
Qed.
(** columns that do come out right *)
Definition good_col (c : col) : bool := match c with Cx | Cy | Cz | Cbcov => false | _ => true end.
Lemma columns lists c : length (tracers lists) <> 1 -> good_col c = true ->
  exists m, Fill lists = Some m /\ m c = map Some (flat_map (Row c) (tracers lists)).
Proof.
  intros N G. destruct (fill_ok lists N) as (m & E & H). exists m. split; [exact E|]. rewrite H. destruct c; (discriminate || reflexivity).
Qed.
Lemma xyz p q l lists : tracers lists = p :: q :: l ->
  exists m, Fill lists = Some m /\ forall n, n < length (tracers lists) ->
    nth_error (m Cx) n = Some (Some (D (cart (X2 p) 2))) /\
    nth_error (m Cy) n = Some (Some (D (cart (X2 p) 3))) /\
    nth_error (m Cz) n = Some (match n with O => None | _ => Some (D (cart (X2 q) 1)) end).
Proof.
  intros T. destruct (fill_ok lists) as (m & E & H); [rewrite T; cbn [length]; lia|].
  exists m. split; [exact E|]. intros n L. rewrite !H, T in *. cbn [got]. 
  assert (K : forall {A} (v : A) (x : list particle) n, n < length x -> nth_error (map (fun _ => v) x) n = Some v).
  { intros A v x. induction x; intros [|k] K; cbn in *; try lia; [reflexivity|apply IHx; lia]. }
  rewrite !K by exact L. split; [reflexivity|]. split; [reflexivity|].
  destruct n as [|n]; [reflexivity|]. cbn [nth_error]. rewrite K by (cbn [length] in *; lia). reflexivity.
Qed.
Lemma bcov_wrong lists : length (tracers lists) <> 1 -> exists m, Fill lists = Some m /\ m Cbcov = m Cbcon.
Proof. intros N. destruct (fill_ok lists N) as (m & E & H). exists m. split; [exact E|]. rewrite !H. reflexivity. Qed.
(** a single tracer: Xcart[3] lies beyond the array *)
Lemma record_single m p : held m [] 1 -> Record' m 0 p = None.
Proof.
  intros Hm. unfold record.
  assert (O1 : forall c, Width c = 1 -> m c = [] ++ None :: repeat None 0). { intros c W. rewrite Hm, W. destruct c; reflexivity. }
  assert (O : forall c k, Width c = k -> m c = [] ++ repeat None k ++ repeat None 0).
  { intros c k W. rewrite Hm, W, Nat.mul_1_r. cbn [repeat]. rewrite app_nil_r. destruct c; reflexivity. }
  assert (N1 : forall c, Width c = 1 -> 0 = @length (option val) []) by reflexivity.
  assert (N : forall c k, Width c = k -> 0 * k = @length (option val) []) by reflexivity.
  one O1 N1 Cid (Some (I (nscatt p))). one O1 N1 Cactive (Some (I 1)). one O1 N1 Cit (Some (I nstep)).
  one O1 N1 Ctime (num t). one O1 N1 Cmass (num (w p)).
  many O N CXharm 3 (vec (X2 p) 1 3). many O N CXcart 3 (vec (cart (X2 p)) 1 3).
  unfold load at 1. rewrite F5. cbn [col_eqb vec map seq app repeat nth_error bind].
  one O1 N1 Cx (num (cart (X2 p) 2)).
  unfold load at 1. rewrite F6. cbn [col_eqb]. rewrite F5. cbn [col_eqb vec map seq app repeat nth_error bind].
  one O1 N1 Cy (num (cart (X2 p) 3)).
  unfold load at 1. rewrite F7. cbn [col_eqb]. rewrite F6. cbn [col_eqb]. rewrite F5. reflexivity.
Qed.
Lemma walk_single l : forall m p, held m [] 1 -> filter tracer l = [p] -> Walk m 0 l = None.
Proof.
  induction l as [|q l IH]; intros m p Hm E; cbn [filter walk] in *; [discriminate|].
  destruct (tracer q); [|eapply IH; eassumption]. injection E as -> _. rewrite record_single by exact Hm. reflexivity.
Qed.
Lemma walk_none l : forall m n, filter tracer l = [] -> Walk m n l = Some (m, n).
Proof. induction l as [|q l IH]; intros m n E; cbn [filter walk] in *; [reflexivity|]. destruct (tracer q); [discriminate|apply IH, E]. Qed.
Lemma single lists p : tracers lists = [p] -> Fill lists = None.
Proof.
  intros T. unfold fill. rewrite count_is, T. cbn [length].
  enough (W : Walk_all (malloc ntypes 1) 0 lists = None) by (rewrite W; reflexivity).
  assert (Hm : held (malloc ntypes 1) [] 1) by (intros c; destruct c; reflexivity).
  revert T. generalize dependent (malloc ntypes 1).
  induction lists as [|l lists IH]; intros m Hm T; [discriminate|].
  assert (E : tracers (l :: lists) = filter tracer l ++ tracers lists) by (unfold tracers; cbn [concat]; apply filter_app).
  rewrite E in T. cbn [walk_all]. destruct (filter tracer l) as [|q [|q' k]] eqn:F.
  - rewrite walk_none by exact F. cbn [bind fst snd]. apply IH; [exact Hm|exact T].
  - rewrite (walk_single l m q Hm F). reflexivity.
  - discriminate.
Qed.

(** The file *)
Lemma nth_slab c start a file i : write_slab c start a file i =
  if (start <=? i) && (i <? start + length a) then nth_error a (i - start) else file i.
Proof. reflexivity. Qed.
Notation Write := (write_procs nstep t ntypes cart fluid em ab ucon ucov bcon).
Lemma before_S procs lists rest pre : procs = pre ++ lists :: rest ->
  before procs (S (length pre)) = before procs (length pre) + length (tracers lists).
Proof.
  intros ->. unfold before.
  rewrite firstn_app, (firstn_all2 (n := S (length pre)) pre) by lia. replace (S (length pre) - length pre) with 1 by lia.
  rewrite firstn_app, (firstn_all2 (n := length pre) pre) by lia. rewrite Nat.sub_diag. cbn [firstn].
  rewrite app_nil_r, map_app. cbn [map]. rewrite count_is.
  induction pre as [|x pre IH]; cbn; lia.
Qed.
Lemma write_ok c (f : col -> list particle -> list (option val)) (OK : forall ds, length (f c ds) = Width c * length ds)
    (FI : forall lists m, Fill lists = Some m -> m c = f c (tracers lists)) procs : forall rest pre file,
  procs = pre ++ rest -> Forall (fun lists => length (tracers lists) <> 1) rest ->
  exists file', Write c procs rest (length pre) file = Some file' /\
    forall i, file' i = let s := before procs (length pre) * Width c in
      if (s <=? i) && (i <? s + length (flat_map (fun l => f c (tracers l)) rest))
      then nth_error (flat_map (fun l => f c (tracers l)) rest) (i - s) else file i.
Proof.
  induction rest as [|lists rest IH]; intros pre file P N; cbn [write_procs].
  { exists file. split; [reflexivity|]. intros i. cbn [flat_map length]. cbv zeta.
    destruct (_ <=? i) eqn:A; [|reflexivity]. destruct (i <? _) eqn:B; [|reflexivity].
    apply Nat.leb_le in A. apply Nat.ltb_lt in B. lia. }
  apply Forall_cons_iff in N. destruct N as (N & Ns).
  destruct (fill_ok lists N) as (m & E & _). rewrite E. cbn [bind].
  edestruct (IH (pre ++ [lists])) as (file' & W & F).
  { rewrite <- app_assoc. exact P. }
  { exact Ns. }
  rewrite app_length in W, F. cbn [length] in W, F. rewrite Nat.add_1_r in W, F. rewrite W. exists file'. split; [reflexivity|].
  intros i. rewrite F, (before_S procs lists rest pre P), nth_slab, (FI lists m E). cbv zeta. cbn [flat_map].
  rewrite app_length. set (s := before procs (length pre)). rewrite OK.
  set (a := Width c * length (tracers lists)). set (b := length (flat_map _ rest)).
  replace ((s + length (tracers lists)) * Width c) with (s * Width c + a) by (unfold a; lia).
  assert (LA : length (f c (tracers lists)) = a) by apply OK.
  destruct (s * Width c + a <=? i) eqn:A; destruct (i <? s * Width c + a + b) eqn:B; destruct (s * Width c <=? i) eqn:C;
    destruct (i <? s * Width c + a) eqn:D'; destruct (i <? s * Width c + (a + b)) eqn:G; cbn [andb];
    rewrite ?Nat.leb_le, ?Nat.leb_gt, ?Nat.ltb_lt, ?Nat.ltb_ge in *; try lia; try reflexivity.
  - rewrite nth_error_app2 by lia. f_equal. lia.
  - rewrite nth_error_app1 by lia. reflexivity.
Qed.
Lemma file_ok c procs : good_col c = true -> Forall (fun lists => length (tracers lists) <> 1) procs ->
  exists file, dump_tracers nstep t ntypes cart fluid em ab ucon ucov bcon c procs = Some file /\
    forall i, file i = nth_error (map Some (flat_map (Row c) (all_tracers procs))) i.
Proof.
  intros G N. unfold dump_tracers.
  edestruct (write_ok c (fun c ds => map Some (flat_map (Row c) ds))) with (pre := @nil (list (list particle))) (procs := procs)
    as (file & W & F).
  { intros ds. rewrite map_length, flat_rows. reflexivity. }
  { intros lists m E. destruct (Nat.eq_dec (length (tracers lists)) 1) as [L|L].
    - destruct (tracers lists) as [|p [|q l]] eqn:T; try discriminate. rewrite (single lists p T) in E. discriminate.
    - destruct (columns lists c L G) as (m' & E' & M). congruence. }
  { reflexivity. }
  { exact N. }
  exists file. split; [exact W|]. intros i. rewrite F. cbn [before length firstn map fold_right]. cbv zeta.
  assert (S' : flat_map (fun l => map Some (flat_map (Row c) (tracers l))) procs = map Some (flat_map (Row c) (all_tracers procs))).
  { unfold all_tracers. clear. induction procs as [|l procs IH]; [reflexivity|]. cbn [flat_map map concat].
    rewrite flat_map_app, map_app, IH. reflexivity. }
  rewrite S'. cbn [before]. unfold before. cbn [firstn map fold_right]. rewrite Nat.mul_0_l, Nat.sub_0_r, Nat.add_0_l. cbn [Nat.leb andb].
  destruct (i <? _) eqn:B; [reflexivity|]. apply Nat.ltb_ge in B. symmetry. apply nth_error_None, B.
Qed.
End Dump.

(** Witnesses: two tracers on the axes. *)
Definition wit_cart (X : nat -> R) : nat -> R := X.
Definition wp (i : Z) (x y z : R) : particle := mkpart true i 1 (fun n => match n with 1 => x | 2 => y | _ => z end).
Definition wph : particle := mkpart false 3 1 (fun _ => 7%R).
Lemma xyz_refuted : exists nstep t ntypes fluid em ab ucon ucov bcon lists m,
  fill nstep t ntypes (fun X => X) fluid em ab ucon ucov bcon lists = Some m /\
  length (tracers lists) = 2 /\
  m Cx <> map (fun p => Some (D (X2 p 1))) (tracers lists) /\
  m Cy <> map (fun p => Some (D (X2 p 2))) (tracers lists) /\
  m Cz <> map (fun p => Some (D (X2 p 3))) (tracers lists).
Proof.
  set (lists := [[wph; wp 5 1 2 3]; [wp 6 4 5 6]]).
  destruct (xyz 0 0%R 1 (fun X => X) (fun X => X) (fun X => X) (fun X => X) (fun X => X) (fun X => X) (fun X => X) (fun X => X) (wp 5 1 2 3) (wp 6 4 5 6) [] lists
    eq_refl) as (m & E & H).
  do 9 eexists. exists lists, m. split; [exact E|]. split; [reflexivity|].
  destruct (H 0) as (A & B & C); [cbn; lia|].
  repeat split; intros K; [rewrite K in A; cbn in A; injection A as A'; revert A'|rewrite K in B; cbn in B; injection B as B'; revert B'|
    rewrite K in C; cbn in C; discriminate]; intros A'; apply eq_IZR in A'; discriminate.
Qed.

Lemma single_refuted : exists p, tracer p = true /\
  forall nstep t ntypes cart fluid em ab ucon ucov bcon, fill nstep t ntypes cart fluid em ab ucon ucov bcon [[p]] = None.
Proof. exists (wp 5 1 2 3). split; [reflexivity|]. intros. eapply (single _ _ _ _ _ _ _ _ _ _ (fun X => X)). reflexivity. Qed.
Lemma bcov_refuted : exists nstep t ntypes cart fluid em ab ucon ucov bcon bcov lists m,
  fill nstep t ntypes cart fluid em ab ucon ucov bcon lists = Some m /\
  (forall X, bcov X 0 = Ropp (bcon X 0) /\ forall k, 0 < k -> bcov X k = bcon X k) /\
  m Cbcov <> map Some (flat_map (row nstep t ntypes cart fluid em ab ucon ucov bcon bcov Cbcov) (tracers lists)).
Proof.
  set (bcon := fun (_ : nat -> R) (_ : nat) => 1%R). set (bcov := fun (_ : nat -> R) (k : nat) => match k with O => (-1)%R | _ => 1%R end).
  destruct (columns 0 0%R 1 (fun X => X) (fun X => X) (fun X => X) (fun X => X) (fun X => X) (fun X => X) bcon bcov [[wp 5 1 2 3; wp 6 4 5 6]] Cbcon)
    as (m & E & H); [cbn; lia|reflexivity|].
  destruct (bcov_wrong 0 0%R 1 (fun X => X) (fun X => X) (fun X => X) (fun X => X) (fun X => X) (fun X => X) bcon bcov [[wp 5 1 2 3; wp 6 4 5 6]])
    as (m' & E' & H'); [cbn; lia|]. rewrite E in E'. injection E' as <-.
  do 9 eexists. exists bcon, bcov, [[wp 5 1 2 3; wp 6 4 5 6]], m. split; [exact E|]. split.
  { intros X. split; [reflexivity|]. intros [|k] K; [lia|reflexivity]. }
  rewrite H', H. cbn. intros K. injection K as K _. apply eq_IZR in K. discriminate.
Qed.

Lemma file_columns nstep t ntypes cart fluid em ab ucon ucov bcon bcov c procs :
  match c with Cx | Cy | Cz | Cbcov => False | _ => True end ->
  Forall (fun lists => length (tracers lists) <> 1) procs ->
  exists file, dump_tracers nstep t ntypes cart fluid em ab ucon ucov bcon c procs = Some file /\
    forall i, file i = nth_error (map Some (flat_map (row nstep t ntypes cart fluid em ab ucon ucov bcon bcov c) (all_tracers procs))) i.
Proof. intros C. apply file_ok. destruct c; (contradiction || reflexivity). Qed.
Lemma columns_xyz nstep t ntypes cart fluid em ab ucon ucov bcon p q l lists : tracers lists = p :: q :: l ->
  exists m, fill nstep t ntypes cart fluid em ab ucon ucov bcon lists = Some m /\
  forall n, n < length (tracers lists) ->
    nth_error (m Cx) n = Some (Some (D (cart (X2 p) 2))) /\
    nth_error (m Cy) n = Some (Some (D (cart (X2 p) 3))) /\
    nth_error (m Cz) n = Some (match n with O => None | _ => Some (D (cart (X2 q) 1)) end).
Proof. exact (xyz nstep t ntypes cart fluid em ab ucon ucov bcon bcon p q l lists). Qed.
