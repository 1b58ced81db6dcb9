(** Control flow of the inversion: codes, what is written, the limited step. *)
From Coq Require Import Reals ZArith List Bool Lia Lra.
From Verif Require Import RLib XLib FluxModel GeomModel UtopModel.
Import ListNotations.
Open Scope R_scope.

Lemma set_same p i x : set p i x i = x.
Proof. unfold set. now rewrite Nat.eqb_refl. Qed.
Lemma set_other p i x j : j <> i -> set p i x j = p j.
Proof. intros H. unfold set. apply Nat.eqb_neq in H. now rewrite H. Qed.

(** ** Limited step *)
Definition dist_ok (w w' : R) : Prop := w / 2 <= w' <= 3 * w.
Lemma limited_pos w dW : 0 < w -> exists w', limited (Fin w) dW = Fin w' /\ dist_ok w w'.
Proof.
  intros H. unfold limited, xmax, xmin, dist_ok. destruct dW as [d| | |]; cbn.
  - destruct (Rltb_spec d (2 * w)); cbn; destruct (Rltb_spec (- (5/10) * w) d); cbn;
    try destruct (Rltb_spec (- (5/10) * w) (2 * w)); cbn; eexists; (split; [reflexivity|lra]).
  - destruct (Rltb_spec (- (5/10) * w) (2 * w)); cbn; eexists; (split; [reflexivity|lra]).
  - eexists; (split; [reflexivity|lra]).
  - destruct (Rltb_spec (- (5/10) * w) (2 * w)); cbn; eexists; (split; [reflexivity|lra]).
Qed.

Lemma pow_pos3 k : 0 < 3 ^ k. Proof. apply pow_lt; lra. Qed.
Lemma pow_pos2 k : 0 < (1 / 2) ^ k. Proof. apply pow_lt; lra. Qed.
Lemma pow_3 k : 1 <= 3 ^ k. Proof. apply pow_R1_Rle; lra. Qed.
Lemma pow_2 k : (1 / 2) ^ k <= 1.
Proof. pose proof (pow_incr (1 / 2) 1 k) as H. rewrite pow1 in H. apply H. lra. Qed.

Lemma secant_range e k : forall w Wp1 err err1 W, 0 < w -> secant e k (Fin w) Wp1 err err1 = Some W ->
  exists w', W = Fin w' /\ (1 / 2) ^ k * w <= w' <= 3 ^ k * w.
Proof.
  induction k as [|k IH]; intros w Wp1 err err1 W P; cbn [secant]; [discriminate|].
  set (dW := ((Wp1 - Fin w) * err / (err - err1))%X). clearbody dW.
  destruct (xltb (Fin ERRTOL) (xabs (err / Fin w))).
  - destruct (limited_pos w dW P) as (w' & E & D). rewrite E. unfold dist_ok in D. cbn [pow].
    pose proof (pow_pos2 k). pose proof (pow_pos3 k). pose proof (pow_3 k). pose proof (pow_2 k).
    destruct (xltb (xabs (dW / Fin w')) (Fin ERRTOL)).
    + intros [= <-]. exists w'. split; [reflexivity|]. split; nra.
    + intros Q. apply IH in Q; [|lra]. destruct Q as (w2 & -> & L & U). exists w2. split; [reflexivity|]. split; nra.
  - intros [= <-]. exists w. split; [reflexivity|]. pose proof (pow_3 (S k)). pose proof (pow_2 (S k)). split; nra.
Qed.
Lemma solve_range e w W : 0 < w -> solve e (Fin w) = Some W ->
  exists w', W = Fin w' /\ (1 / 2) ^ 9 * w <= w' <= 3 ^ 9 * w.
Proof.
  intros P. unfold solve. cbv zeta. match goal with |- context [limited (Fin w) ?d] => destruct (limited_pos w d P) as (w' & E & D) end.
  rewrite E. intros H. unfold dist_ok in D. apply secant_range in H; [|lra].
  destruct H as (w2 & -> & L & U). exists w2. split; [reflexivity|]. unfold ITERMAX in *. cbn [pow] in *. lra.
Qed.

(** Two error functions that agree on positive numbers in range are
    indistinguishable. *)
Lemma secant_agree e1 e2 k : forall w Wp1 err err1, 0 < w ->
  (forall x, (1 / 2) ^ k * w <= x <= 3 ^ k * w -> e1 (Fin x) = e2 (Fin x)) ->
  secant e1 k (Fin w) Wp1 err err1 = secant e2 k (Fin w) Wp1 err err1.
Proof.
  induction k as [|k IH]; intros w Wp1 err err1 P H; cbn [secant]; [reflexivity|].
  set (dW := ((Wp1 - Fin w) * err / (err - err1))%X). clearbody dW.
  destruct (limited_pos w dW P) as (w' & E & D). rewrite E. unfold dist_ok in D.
  pose proof (pow_pos2 k). pose proof (pow_pos3 k). pose proof (pow_3 k). pose proof (pow_2 k). cbn [pow] in H.
  rewrite <- (H w') by (split; nra).
  rewrite IH; [reflexivity|lra|]. intros x Hx. apply H. split; nra.
Qed.
Lemma solve_agree e1 e2 w : 0 < w ->
  (forall x, (1 / 2) ^ 9 * w <= x <= 3 ^ 9 * w -> e1 (Fin x) = e2 (Fin x)) ->
  solve e1 (Fin w) = solve e2 (Fin w).
Proof.
  intros P H. unfold solve. cbv zeta.
  assert (D1 : 0 < DEL < 1 / 100) by (unfold DEL; lra).
  assert (E1 : ((Fin 1 - Fin DEL) * Fin w)%X = Fin ((1 - DEL) * w)) by reflexivity.
  assert (E2 : (Fin w + (Fin w - (Fin 1 - Fin DEL) * Fin w))%X = Fin (w + (w + - ((1 - DEL) * w)))) by reflexivity.
  rewrite E2, E1.
  assert (B : (1 / 2) ^ 9 < 1 / 100) by lra. assert (T : 100 < 3 ^ 9) by lra.
  set (lo := (1 / 2) ^ 9) in *. set (hi := 3 ^ 9) in *.
  rewrite <- !H by (split; nra).
  match goal with |- context [limited (Fin w) ?d] => destruct (limited_pos w d P) as (w' & E & D) end.
  rewrite E. unfold dist_ok in D. rewrite <- (H w') by (split; nra).
  apply secant_agree; [lra|]. intros x Hx. apply H. unfold lo, hi, ITERMAX in *. cbn [pow] in *. lra.
Qed.
(** The starting guess is positive. *)
Lemma no_more_than_positive : forall w, 0 < w -> 0 < (1 / 2) ^ 9 * w.
Proof. intros. pose proof (pow_pos2 9). nra. Qed.

(** ** Codes *)
Lemma gamma_not_lt1 a b c d e : xltb (gamma_func a b c d e) (Fin 1) = false.
Proof.
  unfold gamma_func. cbv zeta. match goal with |- context [xabs ?u] => set (x := u); clearbody x end.
  destruct x as [r| | |]; cbn; try reflexivity.
  pose proof (Rabs_pos r). rewrite Rltb_false by lra. cbn. apply Rltb_false.
  rewrite <- sqrt_1 at 1. apply sqrt_le_1_alt. lra.
Qed.

Section Codes.
Variables (press_w press_u : X -> X -> X) (check_u : bool) (scalars : list (nat * bool)) (bad_cs : vars -> bool).
Notation Uto := (Utoprim press_w press_u check_u scalars bad_cs).
Notation fin := (finish press_w check_u scalars bad_cs).

Definition late : Prop := forall s, In s scalars -> (8 <= fst s)%nat.
Definition put_scalars (U : vars) (ge : geom) (gamma : X) (l : list (nat * bool)) (p : vars) : vars :=
  fold_left (fun p (s : nat * bool) => let '(i, per_mass) := s in
      set p i (if per_mass then U i / U 0%nat else Fin (galpha ge) * U i / (gamma * Fin (gg ge)))%X) l p.
Lemma put_scalars_low U ge gamma l : (forall s, In s l -> (8 <= fst s)%nat) -> forall p j, (j < 8)%nat ->
  put_scalars U ge gamma l p j = p j.
Proof.
  induction l as [|[i m] l IH]; intros L p j Hj; [reflexivity|].
  unfold put_scalars in *. cbn [fold_left]. rewrite IH; [|intros s Hs; apply L; now right|exact Hj].
  apply set_other. specialize (L (i, m) (or_introl eq_refl)). cbn in L. lia.
Qed.

Lemma set_B_in U g prim i : (5 <= i < 8)%nat -> set_B U g prim i = (U i / Fin g)%X.
Proof.
  intros H. unfold set_B, set.
  destruct (Nat.eqb_spec i 7) as [->|]; [reflexivity|]. destruct (Nat.eqb_spec i 6) as [->|]; [reflexivity|].
  destruct (Nat.eqb_spec i 5) as [->|]; [reflexivity|]. lia.
Qed.
Lemma set_B_out U g prim i : ~ (5 <= i < 8)%nat -> set_B U g prim i = prim i.
Proof. intros H. unfold set_B. now rewrite !set_other by lia. Qed.

(** What finish returns. *)
Lemma finish_cases U ge inp Wp prim :
  let gamma := gamma_func (i_Bsq inp) (i_D inp) (i_QdB inp) (i_Qtsq inp) Wp in
  let rho0 := (i_D inp / gamma)%X in
  let W := (Wp + i_D inp)%X in
  let w := (W / (gamma * gamma))%X in
  let u := (w - (rho0 + press_w rho0 w))%X in
  (fin U ge inp Wp prim = Some (5%Z, prim) /\ (xltb rho0 (Fin 0) = true \/ check_u = true /\ xltb u (Fin 0) = true)) \/
  (xltb rho0 (Fin 0) = false /\ (check_u = true -> xltb u (Fin 0) = false) /\
   exists p, (fin U ge inp Wp prim = Some (0%Z, p) /\ bad_cs p = false \/ fin U ge inp Wp prim = Some (6%Z, p) /\ bad_cs p = true) /\
     (late -> p 0%nat = rho0 /\ p 1%nat = u /\
       (forall m, (1 <= m < 4)%nat -> p (S m) = (gamma / (W + i_Bsq inp) * (i_Qtcon inp m + i_QdB inp * i_Bcon inp m / W))%X) /\
       (forall i, (5 <= i < 8)%nat -> p i = prim i))).
Proof.
  intros gamma rho0 W w u. unfold finish. rewrite gamma_not_lt1. fold gamma. fold rho0. fold W. fold w. fold u.
  destruct (xltb rho0 (Fin 0)) eqn:ER; [left; auto|].
  destruct check_u, (xltb u (Fin 0)) eqn:EU; cbn [andb]; try (left; split; [reflexivity|auto]; fail); right;
  (split; [reflexivity|split; [solve [discriminate|trivial]|]]);
  (match goal with |- context [fold_left ?f scalars ?b] => change (fold_left f scalars b) with (put_scalars U ge gamma scalars b) end);
  (match goal with |- context [put_scalars ?a ?b ?c ?d ?e] => set (base := e); exists (put_scalars a b c d base) end);
  (split; [destruct (bad_cs _); auto|]); intros L; rewrite !put_scalars_low by (try exact L; lia); unfold base;
  (split; [reflexivity|split; [reflexivity|split]]);
  intros m Hm; rewrite put_scalars_low by (try exact L; lia);
  try (destruct m as [|[|[|[|]]]]; try lia; reflexivity);
  now rewrite !set_other by lia.
Qed.

Lemma utoprim_cases U ge prim : 
  let p0 := set_B U (gg ge) prim in
  let inp := convert U ge in
  (Uto U ge prim = Some ((-100)%Z, p0) /\ xleb (U 0%nat) (Fin 0) = true) \/
  xleb (U 0%nat) (Fin 0) = false /\
  (Uto U ge prim = Some (2%Z, p0) \/ Uto U ge prim = Some (1%Z, p0) \/
   exists Wp, Uto U ge prim = fin U ge inp Wp p0).
Proof.
  intros p0 inp. unfold Utoprim. fold p0. fold inp. destruct (xleb (U 0%nat) (Fin 0)); [left; auto|]. right. split; [reflexivity|].
  destruct (Wp_func press_u p0 (gcov ge)) as [Wp|]; [|auto].
  destruct (solve _ Wp) as [Wp'|]; eauto.
Qed.

Lemma utoprim_defined U ge prim : exists c p, Uto U ge prim = Some (c, p) /\
  (c = (-100)%Z \/ c = 0%Z \/ c = 1%Z \/ c = 2%Z \/ c = 5%Z \/ c = 6%Z /\ bad_cs p = true).
Proof.
  destruct (utoprim_cases U ge prim) as [[-> _]|[_ [->|[->|(Wp & ->)]]]]; try (do 2 eexists; split; [reflexivity|auto 10]; fail).
  destruct (finish_cases U ge (convert U ge) Wp (set_B U (gg ge) prim)) as [[-> _]|(_ & _ & p & [[-> _]|[-> B]] & _)];
    do 2 eexists; (split; [reflexivity|auto 10]).
Qed.
Lemma utoprim_B U ge prim c p : late -> Uto U ge prim = Some (c, p) ->
  forall i, (5 <= i < 8)%nat -> p i = (U i / Fin (gg ge))%X.
Proof.
  intros L. destruct (utoprim_cases U ge prim) as [[-> _]|[_ [->|[->|(Wp & ->)]]]];
    try (intros [= <- <-] i Hi; now apply set_B_in).
  destruct (finish_cases U ge (convert U ge) Wp (set_B U (gg ge) prim)) as [[-> _]|(_ & _ & q & C & Q)].
  - intros [= <- <-] i Hi. now apply set_B_in.
  - destruct (Q L) as (_ & _ & _ & QB). destruct C as [[-> _]|[-> _]]; intros [= <- <-] i Hi;
    rewrite QB by exact Hi; now apply set_B_in.
Qed.
Lemma utoprim_untouched U ge prim c p : Uto U ge prim = Some (c, p) -> c <> 0%Z -> c <> 6%Z ->
  forall i, ~ (5 <= i < 8)%nat -> p i = prim i.
Proof.
  destruct (utoprim_cases U ge prim) as [[-> _]|[_ [->|[->|(Wp & ->)]]]];
    try (intros [= <- <-] _ _ i Hi; now apply set_B_out).
  destruct (finish_cases U ge (convert U ge) Wp (set_B U (gg ge) prim)) as [[-> _]|(_ & _ & q & C & Q)].
  - intros [= <- <-] _ _ i Hi. now apply set_B_out.
  - destruct C as [[-> _]|[-> _]]; intros [= <- <-]; lia.
Qed.
Lemma utoprim_negative U ge prim : (U 0%nat = NInf \/ exists d, U 0%nat = Fin d /\ d <= 0) ->
  exists p, Uto U ge prim = Some ((-100)%Z, p) /\ forall i, ~ (5 <= i < 8)%nat -> p i = prim i.
Proof.
  intros H. exists (set_B U (gg ge) prim). split; [|intros; now apply set_B_out].
  assert (E : xleb (U 0%nat) (Fin 0) = true).
  { destruct H as [-> |(d & -> & Hd)]; [reflexivity|]. now apply Rleb_true. }
  unfold Utoprim. rewrite E. reflexivity.
Qed.

(** Success with finite values. *)
Lemma fin_or_not (x : X) : (exists r, x = Fin r) \/ forall r, x <> Fin r.
Proof. destruct x; eauto; right; discriminate. Qed.
Lemma utoprim_success U ge prim c p rho u v : 0 < gg ge -> 0 < galpha ge -> late ->
  Uto U ge prim = Some (c, p) -> c = 0%Z \/ c = 6%Z ->
  p 0%nat = Fin rho -> p 1%nat = Fin u -> p 2%nat = Fin v -> 0 < rho /\ (check_u = true -> 0 <= u).
Proof.
  intros Hg Ha L. destruct (utoprim_cases U ge prim) as [[-> _]|[ED [->|[->|(Wp & ->)]]]];
    try (intros [= <- <-] [?|?]; discriminate).
  destruct (finish_cases U ge (convert U ge) Wp (set_B U (gg ge) prim)) as [[-> _]|(ER & EU & q & C & Q)];
    [intros [= <- <-] [?|?]; discriminate|].
  destruct (Q L) as (Q0 & Q1 & QV & _). clear Q. intros E _.
  assert (EQ : q = p) by (destruct C as [[E' _]|[E' _]]; rewrite E' in E; now inversion E).
  subst q. clear E C. intros R0 R1 R2. rewrite Q0 in R0. rewrite Q1 in R1. rewrite (QV 1%nat) in R2 by lia. clear Q0 Q1 QV.
  rewrite R1 in EU. split.
  2:{ intros Hc. specialize (EU Hc). cbn in EU. destruct (Rltb_spec u 0); [discriminate|lra]. }
  set (inp := convert U ge) in *.
  assert (ND : forall d, i_D inp = Fin d -> 0 < d).
  { intros d. unfold inp, convert. cbn [i_D]. destruct (U 0%nat) as [d0| | |]; cbn; try discriminate.
    - destruct (Reqb_spec (gg ge) 0); [lra|]. intros [= <-]. cbn in ED. destruct (Rleb_spec d0 0); [discriminate|].
      apply Rdiv_lt_0_compat; [nra|lra].
    - unfold inf_by. rewrite Rltb_true by lra. cbn. rewrite Rltb_false by lra. discriminate. }
  set (gamma := gamma_func (i_Bsq inp) (i_D inp) (i_QdB inp) (i_Qtsq inp) Wp) in *.
  assert (GC : gamma = NaN \/ gamma = PInf \/ exists g, gamma = Fin g /\ 1 <= g).
  { unfold gamma, gamma_func. cbv zeta. match goal with |- context [xabs ?u] => set (x := u); clearbody x end.
    destruct x as [r| | |]; cbn; auto. pose proof (Rabs_pos r). rewrite Rltb_false by lra. right. right.
    eexists. split; [reflexivity|]. rewrite <- sqrt_1 at 1. apply sqrt_le_1_alt. lra. }
  clearbody gamma. destruct GC as [-> |[-> |(g & -> & G1)]].
  - destruct (i_D inp); discriminate R0.
  - exfalso. revert R2. set (a := (Wp + i_D inp + i_Bsq inp)%X).
    set (b := (i_Qtcon inp 1 + i_QdB inp * i_Bcon inp 1 / (Wp + i_D inp))%X). clearbody a b.
    destruct a as [a| | |]; cbn; try discriminate.
    destruct (Rltb a 0); cbn; destruct b as [b| | |]; cbn; try discriminate;
    unfold inf_by; destruct (Rltb 0 _); try discriminate; destruct (Rltb _ 0); discriminate.
  - destruct (i_D inp) as [d| | |] eqn:E; cbn in R0; try discriminate R0.
    + destruct (Reqb_spec g 0); [lra|]. injection R0 as <-. apply Rdiv_lt_0_compat; [now apply ND|lra].
    + destruct (Rltb g 0); discriminate R0.
    + destruct (Rltb g 0); discriminate R0.
Qed.
End Codes.

(** ** A NaN anywhere in the error is accepted as convergence *)
Lemma secant_nan e k w Wp1 err1 : secant e (S k) (Fin w) Wp1 NaN err1 = Some (Fin w).
Proof. reflexivity. Qed.
