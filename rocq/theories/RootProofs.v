From Coq Require Import Reals Bool Lia Lra.
From Verif Require Import RLib RootModel RootSpec.
Open Scope R_scope.

Section F.
Variables (f : R -> R) (y xmin xmax xtol ytol : R).
Hypothesis Ht : 0 < xtol.
Hypothesis Hx : xmin < xmax.
Notation widen := (widen f y xmin xmax).
Notation bracket := (bracket f y xmin xmax).
Notation bisect := (bisect f y xtol).
Notation root_bisect := (root_bisect f y xmin xmax xtol).
Notation root_secant := (root_secant f y xtol ytol).
Notation find := (find_root f y xmin xmax xtol ytol).

(** ** Bisection *)
Lemma halve a b : 5 / 10 * (a + b) - a = (b - a) / 2. Proof. lra. Qed.
Lemma bisect_ok n : forall xl xr a b, crosses f y xl xr -> Rabs (xr - xl) <= 2 * xtol \/ xl <= xr ->
  bisect n xl xr = Some (a, b) ->
  crosses f y a b /\ Rabs (b - a) <= xtol /\ Rmin xl xr <= a <= Rmax xl xr /\ Rmin xl xr <= b <= Rmax xl xr.
Proof.
  induction n as [|n IH]; intros xl xr a b C O; cbn [RootModel.bisect]; [discriminate|].
  set (xm := 5 / 10 * (xl + xr)). fold (Rleb ((f xl - y) * (f xm - y)) 0).
  assert (Hm : Rmin xl xr <= xm <= Rmax xl xr).
  { unfold xm, Rmin, Rmax. destruct (Rle_dec xl xr); lra. }
  assert (Hl : Rmin xl xr <= xl <= Rmax xl xr) by (split; [apply Rmin_l|apply Rmax_l]).
  assert (Hr : Rmin xl xr <= xr <= Rmax xl xr) by (split; [apply Rmin_r|apply Rmax_r]).
  assert (G : forall p q, crosses f y p q -> q - p = (xr - xl) / 2 -> Rmin xl xr <= p <= Rmax xl xr -> Rmin xl xr <= q <= Rmax xl xr ->
    (if Rltb xtol (q - p) then bisect n p q else Some (p, q)) = Some (a, b) ->
    crosses f y a b /\ Rabs (b - a) <= xtol /\ Rmin xl xr <= a <= Rmax xl xr /\ Rmin xl xr <= b <= Rmax xl xr).
  { intros p q Cpq D Bp Bq. destruct (Rltb_spec xtol (q - p)).
    - intros E. apply IH in E; [|exact Cpq|right; lra]. destruct E as (E1 & E2 & E3 & E4).
      assert (T1 : Rmin xl xr <= Rmin p q) by (apply Rmin_glb; lra).
      assert (T2 : Rmax p q <= Rmax xl xr) by (apply Rmax_lub; lra).
      split; [exact E1|]. split; [exact E2|]. split; lra.
    - intros [= <- <-]. split; [exact Cpq|]. split; [|split; assumption].
      destruct O as [O|O].
      + rewrite D. unfold Rdiv. rewrite Rabs_mult. rewrite (Rabs_right (/ 2)) by lra. lra.
      + rewrite Rabs_right; lra. }
  destruct (Rleb_spec ((f xl - y) * (f xm - y)) 0) as [L|L].
  - apply G; try assumption. unfold xm. lra.
  - apply G; try assumption; [|unfold xm; lra].
    unfold crosses in *. destruct (Rle_lt_dec ((f xm - y) * (f xr - y)) 0) as [|Q]; [assumption|exfalso].
    set (p := f xl - y) in *. set (q := f xm - y) in *. set (s := f xr - y) in *. clearbody p q s.
    assert (0 < (p * q) * (q * s)) by (apply Rmult_lt_0_compat; lra).
    assert (0 <= q * q) by nra. nra.
Qed.
Lemma bisect_more n : forall xl xr r, bisect n xl xr = Some r -> forall k, bisect (n + k) xl xr = Some r.
Proof.
  induction n as [|n IH]; intros xl xr r E k; cbn [RootModel.bisect Nat.add] in *; [discriminate|].
  destruct (if Rleb _ 0 then _ else _) as [p q]. destruct (Rltb xtol (q - p)); [now apply IH|exact E].
Qed.
Lemma bisect_ends n : forall xl xr, xr - xl <= 2 ^ n * xtol -> exists r, bisect (S n) xl xr = Some r.
Proof.
  assert (D : forall xl xr p q, (let xm := 5 / 10 * (xl + xr) in if Rleb ((f xl - y) * (f xm - y)) 0 then (xl, xm) else (xm, xr)) = (p, q) -> q - p = (xr - xl) / 2).
  { intros xl xr p q P. cbv zeta in P. destruct (Rleb _ 0) in P; injection P as <- <-; lra. }
  induction n as [|n IH]; intros xl xr E.
  - cbn [RootModel.bisect]. cbv zeta in *. destruct (if Rleb _ 0 then _ else _) as [p q] eqn:P. apply D in P.
    cbn [pow] in E. rewrite Rltb_false by lra. eauto.
  - remember (S n) as k eqn:Hk; cbn [RootModel.bisect]. cbv zeta in *. destruct (if Rleb _ 0 then _ else _) as [p q] eqn:P. apply D in P.
    destruct (Rltb_spec xtol (q - p)); [|eauto]. subst k. apply IH. cbn [pow] in E. lra.
Qed.

(** ** Widening *)
Lemma widen_more n : forall g x r, widen n g x = Some r -> forall k, widen (n + k) g x = Some r.
Proof.
  induction n as [|n IH]; intros g x r E k; cbn [RootModel.widen Nat.add] in *; [discriminate|].
  destruct (_ && _ && _); [now apply IH|exact E].
Qed.
Lemma widen_ends n : forall g x, 0 < g -> x <> 0 -> xmax - xmin < (11 / 10) ^ n * g * Rabs x -> exists r, widen (S n) g x = Some r.
Proof.
  assert (K : forall g x, 0 < g -> x <> 0 -> xmax - xmin < g * Rabs x -> Rleb xmin (x - Rabs (g * x)) && Rleb (x + Rabs (g * x)) xmax = false).
  { intros g x Hg N L. rewrite Rabs_mult, (Rabs_right g) by lra. destruct (Rleb_spec xmin (x - g * Rabs x)); [|reflexivity].
    destruct (Rleb_spec (x + g * Rabs x) xmax); [lra|reflexivity]. }
  induction n as [|n IH]; intros g x Hg N L.
  - cbn [RootModel.widen]. rewrite <- andb_assoc.
    rewrite K; [|assumption|assumption|cbn [pow] in L; lra]. rewrite andb_false_r. eauto.
  - remember (S n) as k eqn:Hk. cbn [RootModel.widen].
    destruct (_ && _ && _); [|eauto]. subst k. apply IH; [lra|exact N|]. cbn [pow] in L. lra.
Qed.
Lemma widen_spec n : forall g x a b, 0 < g -> widen n g x = Some (a, b) -> a <= x <= b.
Proof.
  induction n as [|n IH]; intros g x a b Hg; cbn [RootModel.widen]; [discriminate|].
  destruct (_ && _ && _); [apply IH; lra|]. intros [= <- <-]. pose proof (Rabs_pos (g * x)). lra.
Qed.

(** ** Bracket *)
Lemma bracket_ok x a b p q : a <= x <= b -> xmin <= x <= xmax + 2 * xtol -> bracket a b = Some (p, q) ->
  crosses f y p q /\ (Rabs (q - p) <= 2 * xtol \/ p <= q) /\ (x <= xmax -> xmin <= p <= xmax /\ xmin <= q <= xmax).
Proof.
  intros A X. unfold RootModel.bracket. cbv zeta.
  set (b' := if Rltb xmax b then xmax else b). set (a' := if Rltb a xmin then xmin else a).
  assert (B : Rmin x xmax <= b' <= xmax) by (unfold b', Rmin; destruct (Rltb_spec xmax b), (Rle_dec x xmax); lra).
  assert (A' : xmin <= a' <= x) by (unfold a'; destruct (Rltb_spec a xmin); lra).
  assert (O : Rabs (b' - a') <= 2 * xtol \/ a' <= b').
  { destruct (Rle_lt_dec a' b'); [now right|left]. rewrite Rabs_left by lra. unfold Rmin in B. destruct (Rle_dec x xmax); lra. }
  assert (XM : xmin <= Rmin x xmax) by (apply Rmin_glb; lra).
  unfold crosses. destruct (Rltb_spec 0 ((f a' - y) * (f b' - y))) as [|N1].
  - destruct (Rltb_spec 0 ((f xmin - y) * (f b' - y))) as [|N2].
    + destruct (Rltb_spec 0 ((f xmin - y) * (f xmax - y))) as [|N3]; [discriminate|].
      intros [= <- <-]. split; [lra|]. split; [right; lra|]. intros; lra.
    + intros [= <- <-]. split; [lra|]. split; [right; lra|]. intros; lra.
  - intros [= <- <-]. split; [lra|]. split; [exact O|]. intros Q. unfold Rmin in B. destruct (Rle_dec x xmax); lra.
Qed.
Lemma bracket_some a b : crosses f y xmin xmax -> exists p, bracket a b = Some p.
Proof.
  intros C. unfold RootModel.bracket. cbv zeta. destruct (Rltb 0 _); [|eauto]. destruct (Rltb 0 _); [|eauto].
  unfold crosses in C. rewrite Rltb_false by exact C. eauto.
Qed.

(** ** root_bisect *)
Lemma nudge g : xmin <= g < xmax -> let x := if Rltb (Rabs g) xtol then g + 2 * xtol else g in
  xmin <= x <= xmax + 2 * xtol /\ x <> 0 /\ (3 * xtol <= xmax \/ xmax <= - xtol -> x <= xmax).
Proof.
  intros G x. unfold x. destruct (Rltb_spec (Rabs g) xtol) as [L|L].
  - apply Rabs_def2 in L. split; [lra|]. split; [lra|]. intros [?|?]; lra.
  - split; [lra|]. split; [intros ->; rewrite Rabs_R0 in L; lra|]. lra.
Qed.
Lemma root_bisect_ok n g x : xmin <= g < xmax -> root_bisect n g = Success x ->
  exists a b, crosses f y a b /\ Rabs (b - a) <= xtol /\ x = (a + b) / 2 /\
    (3 * xtol <= xmax \/ xmax <= - xtol -> xmin <= a <= xmax /\ xmin <= b <= xmax).
Proof.
  intros G. pose proof (nudge g G) as NU. cbv zeta in NU. unfold RootModel.root_bisect. cbv zeta.
  set (z := if Rltb (Rabs g) xtol then g + 2 * xtol else g) in *. clearbody z. destruct NU as (Z1 & _ & Z3).
  destruct (widen n (1 / 100) z) as [[a b]|] eqn:W; [|discriminate]. apply widen_spec in W; [|lra].
  destruct (bracket a b) as [[p q]|] eqn:B; [|discriminate]. apply (bracket_ok z) in B; [|exact W|exact Z1].
  destruct B as (C & O & I). destruct (bisect n p q) as [[s t]|] eqn:SE; [|discriminate].
  apply bisect_ok in SE; [|exact C|exact O]. destruct SE as (S1 & S2 & S3 & S4). intros [= <-].
  exists s, t. split; [exact S1|]. split; [exact S2|]. split; [lra|]. intros Q. specialize (I (Z3 Q)).
  assert (xmin <= Rmin p q) by (apply Rmin_glb; lra). assert (Rmax p q <= xmax) by (apply Rmax_lub; lra). lra.
Qed.
Lemma root_bisect_ends g : xmin <= g < xmax -> exists n o, o <> Diverge /\ forall k, root_bisect (n + k) g = o.
Proof.
  intros G. pose proof (nudge g G) as NU. cbv zeta in NU. unfold RootModel.root_bisect. cbv zeta.
  set (z := if Rltb (Rabs g) xtol then g + 2 * xtol else g) in *. clearbody z. destruct NU as (Z1 & Z2 & Z3).
  assert (PZ : 0 < Rabs z) by now apply Rabs_pos_lt.
  destruct (Pow_x_infinity (11 / 10) ltac:(rewrite Rabs_right; lra) ((xmax - xmin + 1) / (1 / 100 * Rabs z))) as (N1 & H1).
  specialize (H1 N1 (le_n N1)). rewrite Rabs_right in H1 by (apply Rle_ge, pow_le; lra). apply Rge_le in H1.
  destruct (widen_ends N1 (1 / 100) z ltac:(lra) Z2) as ([a b] & W).
  { apply Rmult_le_compat_r with (r := 1 / 100 * Rabs z) in H1; [|nra].
    replace ((xmax - xmin + 1) / (1 / 100 * Rabs z) * (1 / 100 * Rabs z)) with (xmax - xmin + 1) in H1 by (field; lra). lra. }
  destruct (bracket a b) as [[p q]|] eqn:B.
  2:{ exists (S N1), Fail. split; [discriminate|]. intros k. rewrite (widen_more _ _ _ _ W), B. reflexivity. }
  destruct (Pow_x_infinity 2 ltac:(rewrite Rabs_right; lra) ((q - p) / xtol)) as (N2 & H2).
  specialize (H2 N2 (le_n N2)). rewrite Rabs_right in H2 by (apply Rle_ge, pow_le; lra). apply Rge_le in H2.
  destruct (bisect_ends N2 p q) as ([s t] & SE).
  { apply Rmult_le_compat_r with (r := xtol) in H2; [|lra]. replace ((q - p) / xtol * xtol) with (q - p) in H2 by (field; lra). exact H2. }
  exists (S N1 + S N2)%nat, (Success (5 / 10 * (s + t))). split; [discriminate|]. intros k.
  rewrite <- Nat.add_assoc, (widen_more _ _ _ _ W), B. replace (S N1 + (S N2 + k))%nat with (S N2 + (S N1 + k))%nat by lia.
  rewrite (bisect_more _ _ _ _ SE). reflexivity.
Qed.

(** ** Secant *)
Lemma secant_loop_ok k : forall x a b, secant_loop f y xtol k x = Some (a, b) ->
  let q := quotient f (Rabs (/ 10 ^ 7 * a) + xtol) a in q <> 0 /\ b = a - (f a - y) / q.
Proof.
  induction k as [|k IH]; intros x a b; cbn [secant_loop]; unfold secant_step; cbv zeta;
    (destruct (Reqb_spec ((f (x + (Rabs (/ 10 ^ 7 * x) + xtol)) - f (x - (Rabs (/ 10 ^ 7 * x) + xtol))) / (2 * (Rabs (/ 10 ^ 7 * x) + xtol))) 0) as [|N]; [discriminate|]).
  - intros [= <- <-]. split; [exact N|reflexivity].
  - destruct (Rltb _ _); [apply IH|]. intros [= <- <-]. split; [exact N|reflexivity].
Qed.
Lemma root_secant_ok g x : root_secant g = Some x ->
  (rel_error f y ytol x <= ytol \/
   exists a, Rabs (x - a) <= xtol /\ let q := quotient f (Rabs (/ 10 ^ 7 * a) + xtol) a in q <> 0 /\ x = a - (f a - y) / q).
Proof.
  unfold RootModel.root_secant. destruct (secant_loop f y xtol 9 g) as [[a b]|] eqn:E; [|discriminate].
  apply secant_loop_ok in E. cbv zeta.
  destruct (Rltb_spec xtol (Rabs (b - a))) as [|L]; cbn [andb].
  - destruct (Rltb_spec ytol (Rabs (Rabs (f b - y) / (Rabs (f b) + ytol)))) as [|M]; [discriminate|].
    intros [= <-]. left. unfold rel_error. pose proof (Rle_abs (Rabs (f b - y) / (Rabs (f b) + ytol))). lra.
  - intros [= <-]. right. exists a. split; [lra|exact E].
Qed.

(** ** find_root *)
Definition start (g : R) : R :=
  let g := if Rleb xmax g then xmax - xtol else g in if Rltb g xmin then xmin else g.
Lemma start_in g : xmin <= start g < xmax.
Proof. unfold start. destruct (Rleb_spec xmax g); cbv zeta; [destruct (Rltb_spec (xmax - xtol) xmin)|destruct (Rltb_spec g xmin)]; lra. Qed.

Lemma find_ok n g x : find n g = Success x ->
  (x = xmax \/ x = xmin) /\ rel_error f y ytol x < ytol \/
  root_secant (start g) = Some x \/
  root_secant (start g) = None /\ xmin <= x <= xmax /\
    exists a b, crosses f y a b /\ Rabs (b - a) <= xtol /\ x = (a + b) / 2 /\
    (3 * xtol <= xmax \/ xmax <= - xtol -> xmin <= a <= xmax /\ xmin <= b <= xmax).
Proof.
  unfold find_root. cbv zeta. fold (rel_error f y ytol xmax). fold (rel_error f y ytol xmin).
  destruct (Rltb_spec (rel_error f y ytol xmax) ytol); [intros [= <-]; left; auto|].
  destruct (Rltb_spec (rel_error f y ytol xmin) ytol); [intros [= <-]; left; auto|].
  change (if Rltb (if Rleb xmax g then xmax - xtol else g) xmin then xmin else if Rleb xmax g then xmax - xtol else g) with (start g).
  destruct (root_secant (start g)) as [s|]; [intros [= <-]; right; left; reflexivity|].
  destruct (root_bisect n (start g)) as [z| |] eqn:B; try discriminate.
  apply root_bisect_ok in B; [|apply start_in].
  destruct (Rltb_spec z xmin); [discriminate|]. destruct (Rltb_spec xmax z); [discriminate|].
  intros [= <-]. right. right. split; [reflexivity|]. split; [lra|exact B].
Qed.
Lemma find_ends g : exists n o, o <> Diverge /\ forall k, find (n + k) g = o.
Proof.
  destruct (root_bisect_ends (start g) (start_in g)) as (n & o & N & E).
  exists n. unfold find_root. cbv zeta.
  change (if Rltb (if Rleb xmax g then xmax - xtol else g) xmin then xmin else if Rleb xmax g then xmax - xtol else g) with (start g).
  destruct (Rltb _ ytol); [eexists; split; [|reflexivity]; discriminate|].
  destruct (Rltb _ ytol); [eexists; split; [|reflexivity]; discriminate|].
  destruct (root_secant (start g)); [eexists; split; [|reflexivity]; discriminate|].
  destruct o as [z| |]; [|exists Fail; split; [discriminate|]; intros k; now rewrite E|congruence].
  exists (if Rltb z xmin then Fail else if Rltb xmax z then Fail else Success z).
  split; [destruct (Rltb z xmin), (Rltb xmax z); discriminate|]. intros k. now rewrite E.
Qed.
(** A sign change over the interval is always turned into a root. *)
Lemma find_complete g : crosses f y xmin xmax -> 3 * xtol <= xmax \/ xmax <= - xtol ->
  exists n x, forall k, find (n + k) g = Success x.
Proof.
  intros C Q. destruct (find_ends g) as (n & o & N & E). destruct o as [x| |]; [eauto| |congruence].
  exfalso. specialize (E 0%nat). rewrite Nat.add_0_r in E. revert E. unfold find_root. cbv zeta.
  change (if Rltb (if Rleb xmax g then xmax - xtol else g) xmin then xmin else if Rleb xmax g then xmax - xtol else g) with (start g).
  destruct (Rltb _ ytol); [discriminate|]. destruct (Rltb _ ytol); [discriminate|].
  destruct (root_secant (start g)); [discriminate|].
  destruct (root_bisect n (start g)) as [z| |] eqn:B.
  - destruct (root_bisect_ok n (start g) z (start_in g) B) as (a & b & _ & _ & -> & I). specialize (I Q).
    rewrite Rltb_false by lra. rewrite Rltb_false by lra. discriminate.
  - intros _. revert B. unfold RootModel.root_bisect. cbv zeta.
    destruct (widen n _ _) as [[a b]|]; [|discriminate]. destruct (bracket_some a b C) as ([p q] & ->).
    destruct (bisect n p q) as [[s t]|]; discriminate.
  - discriminate.
Qed.
(** For continuous functions a true root is within tolerance. *)
Lemma crosses_root a b : continuity f -> crosses f y a b -> exists z, Rmin a b <= z <= Rmax a b /\ f z = y.
Proof.
  intros CF C.
  assert (CG : continuity (fun x => f x - y)).
  { apply (continuity_minus f (fun _ => y)); [exact CF|]. apply continuity_const. intros ? ?. reflexivity. }
  unfold crosses in C. destruct (Rle_lt_dec a b) as [L|L].
  - destruct (IVT_cor (fun x => f x - y) a b CG L C) as (z & Z1 & Z2). exists z. rewrite Rmin_left, Rmax_right by lra. split; [exact Z1|lra].
  - destruct (IVT_cor (fun x => f x - y) b a CG ltac:(lra) ltac:(lra)) as (z & Z1 & Z2). exists z. rewrite Rmin_right, Rmax_left by lra. split; [exact Z1|lra].
Qed.
Lemma find_continuous n g x : continuity f -> root_secant (start g) = None -> find n g = Success x ->
  rel_error f y ytol x < ytol \/ exists z, f z = y /\ Rabs (x - z) <= xtol.
Proof.
  intros CF NS E. apply find_ok in E. destruct E as [[_ E]|[E|(_ & _ & a & b & C & D & -> & _)]]; [now left|congruence|].
  right. destruct (crosses_root a b CF C) as (z & Z & E). exists z. split; [exact E|].
  unfold Rmin, Rmax in Z. destruct (Rle_dec a b).
  - rewrite Rabs_right in D by lra. apply Rabs_le. lra.
  - rewrite Rabs_left in D by lra. apply Rabs_le. lra.
Qed.
End F.

(** ** Witnesses *)
Lemma id_secant : root_secant (fun x => x) 5 (/ 10) (/ 10) (1 / 2) = Some 5.
Proof.
  unfold root_secant. cbn [secant_loop]. unfold secant_step. cbv zeta.
  assert (Q : forall x, (x + (Rabs (/ 10 ^ 7 * x) + / 10) - (x - (Rabs (/ 10 ^ 7 * x) + / 10))) / (2 * (Rabs (/ 10 ^ 7 * x) + / 10)) = 1).
  { intros x. pose proof (Rabs_pos (/ 10 ^ 7 * x)). field. lra. }
  rewrite Q. destruct (Reqb_spec 1 0); [lra|].
  replace (1 / 2 - (1 / 2 - 5) / 1) with 5 by lra.
  rewrite (Rabs_right (5 - 1 / 2)), (Rabs_right 5) by lra. rewrite Rltb_true by lra.
  rewrite Q. destruct (Reqb_spec 1 0); [lra|]. replace (5 - (5 - 5) / 1) with 5 by lra.
  replace (5 - 5) with 0 by ring. rewrite !Rabs_R0, (Rabs_right 5) by lra.
  replace (0 / (5 + / 10)) with 0 by lra. rewrite (Rltb_false (/ 10) 0) by lra.
  replace (5 - 5) with 0 by ring. rewrite !Rabs_R0, (Rltb_false (/ 10) 0) by lra. reflexivity.
Qed.
Lemma outside n : find_root (fun x => x) 5 0 1 (/ 10) (/ 10) n (1 / 2) = Success 5.
Proof.
  unfold find_root. cbv zeta. rewrite (Rabs_left (1 - 5)), (Rabs_right 1) by lra. rewrite Rltb_false by lra.
  rewrite (Rabs_left (0 - 5)), Rabs_R0 by lra. rewrite Rltb_false by lra.
  rewrite Rleb_false by lra. rewrite Rltb_false by lra. now rewrite id_secant.
Qed.
(** a steep function: a tiny step is accepted although the value is far off *)
Definition steep (x : R) : R := if Rltb x (- (1 / 20)) then - 10 else if Rltb (1 / 20) x then 10 else 1.
Lemma steep_found n : find_root steep 0 (-1) 1 (/ 10) (/ 10) n 0 = Success (- (/ 100)) /\ rel_error steep 0 (/ 10) (- (/ 100)) > 9 / 10.
Proof.
  assert (S1 : steep 1 = 10) by (unfold steep; rewrite Rltb_false, Rltb_true by lra; reflexivity).
  assert (S2 : steep (-1) = - 10) by (unfold steep; rewrite Rltb_true by lra; reflexivity).
  assert (S3 : steep 0 = 1) by (unfold steep; rewrite Rltb_false, Rltb_false by lra; reflexivity).
  assert (S4 : steep (- (/ 100)) = 1) by (unfold steep; rewrite Rltb_false, Rltb_false by lra; reflexivity).
  assert (S5 : steep (0 + / 10) = 10) by (unfold steep; rewrite Rltb_false, Rltb_true by lra; reflexivity).
  assert (S6 : steep (0 - / 10) = - 10) by (unfold steep; rewrite Rltb_true by lra; reflexivity).
  split.
  - unfold find_root. cbv zeta. rewrite S1, S2. rewrite (Rabs_right (10 - 0)), (Rabs_right 10), Rltb_false by lra.
    rewrite (Rabs_left (-10 - 0)) by lra. rewrite (Rabs_left (-10)) by lra. replace (- (-10)) with 10 by lra. rewrite (Rltb_false (_ / _)) by lra. rewrite Rleb_false by lra. rewrite Rltb_false by lra.
    unfold root_secant. cbn [secant_loop]. unfold secant_step. cbv zeta.
    rewrite Rmult_0_r, Rabs_R0, (Rplus_0_l (/ 10)), S5, S6, S3.
    destruct (Reqb_spec ((10 - - 10) / (2 * / 10)) 0); [lra|].
    replace (0 - (1 - 0) / ((10 - - 10) / (2 * / 10))) with (- (/ 100)) by lra.
    rewrite (Rabs_left (- / 100 - 0)), (Rabs_left (- / 100)) by lra. replace (- - / 100 + / 10) with (11 / 100) by lra. rewrite Rltb_false by lra.
    rewrite (Rabs_left (- / 100 - 0)) by lra. rewrite (Rltb_false (/ 10)) by lra. reflexivity.
  - unfold rel_error. rewrite S4. rewrite !Rabs_right by lra. lra.
Qed.
(** a bracket nudged past the end of the interval *)
Definition bump (x : R) : R := if Rltb x (-1) then -1 else if Rltb (/ 10) x then -1 else 1.
Lemma bump_lost n : find_root bump 0 (-10) 0 (/ 10) (/ 10) (S (S n)) (- (1 / 20)) = Fail /\ crosses bump 0 (-10) 0.
Proof.
  assert (B0 : forall x, -1 <= x <= / 10 -> bump x = 1) by (intros x H; unfold bump; rewrite !Rltb_false by lra; reflexivity).
  assert (B1 : forall x, / 10 < x -> bump x = -1) by (intros x H; unfold bump; rewrite Rltb_false, Rltb_true by lra; reflexivity).
  assert (B2 : bump (-10) = -1) by (unfold bump; rewrite Rltb_true by lra; reflexivity).
  split; [|unfold crosses; rewrite B2, (B0 0) by lra; lra].
  unfold find_root. cbv zeta. rewrite (B0 0), B2 by lra.
  rewrite (Rabs_right (1 - 0)), (Rabs_right 1), Rltb_false by lra.
  rewrite (Rabs_left (-1 - 0)) by lra. rewrite (Rabs_left (-1)) by lra. replace (- (-1)) with 1 by lra. rewrite (Rltb_false (_ / _)) by lra. rewrite Rleb_false by lra. rewrite Rltb_false by lra.
  assert (SN : root_secant bump 0 (/ 10) (/ 10) (- (1 / 20)) = None).
  { unfold root_secant. cbn [secant_loop]. unfold secant_step. cbv zeta. rewrite Rabs_left by lra.
    rewrite !B0 by lra. replace ((1 - 1) / (2 * (- (/ 10 ^ 7 * - (1 / 20)) + / 10))) with 0 by (field; lra).
    destruct (Reqb_spec 0 0); [reflexivity|lra]. }
  rewrite SN. unfold root_bisect. cbv zeta. rewrite Rabs_left by lra. rewrite Rltb_true by lra.
  cbn [widen]. replace (- (1 / 20) + 2 * / 10) with (15 / 100) by lra.
  rewrite (Rabs_right (1 / 100 * (15 / 100))) by lra. rewrite (Rleb_false (15 / 100 + 1 / 100 * (15 / 100)) 0) by lra.
  rewrite andb_false_r. unfold bracket. cbv zeta. rewrite (Rltb_true 0 (15 / 100 + _)) by lra. rewrite (Rltb_false _ (-10)) by lra.
  rewrite (B1 (15 / 100 - 1 / 100 * (15 / 100))), (B0 0) by lra. rewrite Rltb_false by lra.
  cbn [bisect]. rewrite (B1 (15 / 100 - 1 / 100 * (15 / 100))), (B0 (5 / 10 * _)) by lra. rewrite Rleb_true by lra.
  rewrite Rltb_false by lra. rewrite Rltb_false by lra. rewrite Rltb_true by lra. reflexivity.
Qed.
Lemma find_result : forall f y xmin xmax xtol ytol, 0 < xtol -> xmin < xmax -> forall n guess x,
  find_root f y xmin xmax xtol ytol n guess = Success x ->
  (x = xmax \/ x = xmin) /\ rel_error f y ytol x < ytol \/
  rel_error f y ytol x <= ytol \/
  (exists a, Rabs (x - a) <= xtol /\ quotient f (Rabs (/ 10 ^ 7 * a) + xtol) a <> 0 /\
     x = a - (f a - y) / quotient f (Rabs (/ 10 ^ 7 * a) + xtol) a) \/
  xmin <= x <= xmax /\ exists a b, crosses f y a b /\ Rabs (b - a) <= xtol /\ x = (a + b) / 2 /\
    (3 * xtol <= xmax \/ xmax <= - xtol -> xmin <= a <= xmax /\ xmin <= b <= xmax).
Proof.
  intros f y xmin xmax xtol ytol Ht Hx n g x E. apply find_ok in E; [|assumption|assumption].
  destruct E as [E|[E|[_ E]]]; [now left| |now (right; right; right)].
  apply root_secant_ok in E. destruct E as [E|E]; [now (right; left)|now (right; right; left)].
Qed.
Lemma find_continuous_all : forall f y xmin xmax xtol ytol, 0 < xtol -> xmin < xmax -> forall n guess x,
  continuity f -> (forall s, xmin <= s < xmax -> root_secant f y xtol ytol s = None) ->
  find_root f y xmin xmax xtol ytol n guess = Success x ->
  rel_error f y ytol x < ytol \/ exists z, f z = y /\ Rabs (x - z) <= xtol.
Proof.
  intros f y xmin xmax xtol ytol Ht Hx n g x CF NS. apply find_continuous; [assumption|assumption|assumption|]. apply NS, start_in; assumption.
Qed.
Lemma complete_refuted : exists f y xmin xmax xtol ytol guess, 0 < xtol /\ xmin < guess < xmax /\
  crosses f y xmin xmax /\ forall n, find_root f y xmin xmax xtol ytol (S (S n)) guess = Fail.
Proof.
  exists bump, 0, (-10), 0, (/ 10), (/ 10), (- (1 / 20)). split; [lra|]. split; [lra|].
  split; [apply (bump_lost 0)|]. intros n. apply (bump_lost n).
Qed.
Lemma in_range_refuted : exists f y xmin xmax xtol ytol guess x, 0 < xtol /\ 0 < ytol /\ xmin < guess < xmax /\
  (forall n, find_root f y xmin xmax xtol ytol n guess = Success x) /\ xmax < x.
Proof. exists (fun x => x), 5, 0, 1, (/ 10), (/ 10), (1 / 2), 5. repeat (split; [lra|]). split; [exact outside|lra]. Qed.
Lemma tolerance_refuted : exists f y xmin xmax xtol ytol guess x, 0 < xtol /\ 0 < ytol /\ xmin < guess < xmax /\
  (forall n, find_root f y xmin xmax xtol ytol n guess = Success x) /\ rel_error f y ytol x > 9 * ytol.
Proof.
  exists steep, 0, (-1), 1, (/ 10), (/ 10), 0, (- (/ 100)). repeat (split; [lra|]). split; [intros n; apply steep_found|].
  pose proof (proj2 (steep_found 0)). lra.
Qed.
