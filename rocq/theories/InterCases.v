(** Concrete runs. *)
From Coq Require Import Reals Bool Arith List Lia Lra.
From Verif Require Import RLib GeomModel InterModel InterSpec InterProofs.
Import ListNotations.
Open Scope R_scope.

Lemma SMALL_1 : SMALL < 1.
Proof. unfold SMALL. rewrite <- Rinv_1. apply Rinv_lt_contravar; [rewrite Rmult_1_l; apply pow_lt; lra|]. apply Rlt_pow_R1; [lra|lia]. Qed.

(** a scattering half way through the rest of the step with bias 2 *)
Definition c2 : chan := mkch (1 / 2 * (1 + SMALL)) 1 2.
Definition half (sc pu : bool) : sample := mks Good 1 0 [c2] true (3, 3, 3)%nat (fun _ => 1) sc pu.
Lemma c2_frac : frac c2 = 1 / 2.
Proof. unfold frac, c2. cbn. pose proof SMALL_pos. field. lra. Qed.
Lemma half_decide ABS sc pu : decide ABS (xabs (half sc pu)) (dabs (half sc pu)) (chans (half sc pu)) = Scatter 0 (1 / 2).
Proof.
  unfold decide, half. cbn [xabs dabs chans]. destruct (Rleb_spec 1 0); [lra|]. cbn [andb orb forallb first_min].
  destruct (Rleb_spec (xs c2) (ds c2)) as [_|N].
  - cbn [andb negb]. destruct (Rltb_spec (frac c2) (frac c2)); [lra|]. rewrite c2_frac. reflexivity.
  - exfalso. apply N. unfold c2. cbn. pose proof SMALL_1. lra.
Qed.
Lemma half_sound sc pu : sound (half sc pu).
Proof.
  pose proof SMALL_pos. split; [cbn; lra|]. split; [cbn; lra|]. constructor; [|constructor]. cbn. lra.
Qed.
Lemma half_smooth : smooth (half true true).
Proof. split; [discriminate|split; reflexivity]. Qed.

Definition Kflat : packet -> sample -> vec := fun ph _ => K ph.
Definition p0 (wt : R) : packet := mkp 0 wt (fun _ => 2) 0 false.
Notation step1 := (step false 1 1 1 0 1 1 1 Kflat).
Notation run1 := (run false 1 1 1 0 1 1 1 Kflat).

Lemma start_p0 wt : SMALL <= wt -> start 0 [p0 wt] = mkst [] [p0 wt] 0 0 [] [].
Proof.
  intros H. unfold start. cbn [settle]. destruct (Rltb_spec (w (p0 wt)) SMALL) as [L|_]; [cbn in L; lra|].
  cbn [tracer p0 orb t0]. f_equal. unfold MY_MAX. rcases; lra.
Qed.
Lemma run_app l1 : forall l2 nid s, run1 nid s (l1 ++ l2) = run1 (nid + length l1)%nat (run1 nid s l1) l2.
Proof.
  induction l1 as [|m l1 IH]; intros l2 nid s; cbn [app length run]; [f_equal; lia|].
  rewrite IH. f_equal. lia.
Qed.
Lemma step_half nid s ph rest : todo s = ph :: rest ->
  step1 nid s (half true true) =
  let tsc := tmin s + 1 / 2 * (1 - tmin s) in
  let ph' := mkp (id ph) ((1 - 1 / 2) * w ph) (K ph) (t0 ph) (tracer ph) in
  let phs := mkp nid (w ph / 2) (fun _ => 1) tsc (tracer ph) in
  let g := ((3, 3, 3)%nat, fun mu => 1 / (1 * 1) * (w ph / 2) * 1 * (K ph mu - 1)) :: radG s in
  let e := EScat (id ph) tsc (w ph / 2) :: events s in
  if Nat.ltb (S (nint s)) 100 then mkst (done s) (ph' :: phs :: rest) (S (nint s)) tsc g e
  else settle 0 (done s) (ph' :: phs :: rest) g e.
Proof.
  intros T. unfold step. rewrite T, half_decide. cbn [half at_ interp_ok scatter_ok push_ok negb chans nth c2 bs sz K'].
  unfold Kflat, fold_zone, MAX_INTERACTIONS, NG. cbn [Nat.eqb].
  replace (0 + 1 - tmin s) with (1 - tmin s) by lra. reflexivity.
Qed.
Lemma cap_run n : (n <= 99)%nat -> exists ph rest g e,
  run1 1 (mkst [] [p0 (2 ^ 100)] 0 0 [] []) (repeat (half true true) n) = mkst [] (ph :: rest) n (1 - / 2 ^ n) g e /\
  id ph = 0%nat /\ w ph = 2 ^ (100 - n) /\ t0 ph = 0 /\ tracer ph = false /\ length e = n /\ Forall (fun x => of 0 x = true) e /\
  match e with [] => True | x :: _ => when x = 1 - / 2 ^ n end.
Proof.
  induction n as [|n IH]; intros L.
  - exists (p0 (2 ^ 100)), [], [], []. cbn [repeat run]. split; [f_equal; cbn; lra|]. repeat split; auto.
  - destruct IH as (ph & rest & g & e & R & I & W & T0 & Tr & Le & F & H); [lia|].
    change (repeat (half true true) (S n)) with (half true true :: repeat (half true true) n). rewrite repeat_cons, run_app, R. cbn [run].
    erewrite step_half by reflexivity. cbn [todo tmin nint done radG events].
    destruct (Nat.ltb_spec (S n) 100); [|lia]. cbv zeta.
    assert (P : 2 ^ n <> 0) by (apply pow_nonzero; lra).
    assert (Q : 1 - / 2 ^ n + 1 / 2 * (1 - (1 - / 2 ^ n)) = 1 - / 2 ^ S n) by (cbn [pow]; field; exact P).
    rewrite Q. do 4 eexists. split; [reflexivity|]. cbn [id w t0 tracer length]. repeat split; auto.
    + rewrite W. replace (100 - n)%nat with (S (100 - S n)) by lia. cbn [pow]. lra.
    + rewrite <- I. constructor; [cbn; apply Nat.eqb_eq; lia|]. rewrite I. exact F.
Qed.
(** One packet scatters 101 times in a step, the 101st time earlier than the 100th. *)
Lemma cap_refuted : exists ps l, NoDup (map id ps) /\ (forall p, In p ps -> (id p < 1)%nat /\ t0 p <= 0 + 1) /\
  Forall (fun m => sound m /\ smooth m) l /\
  let s := run1 1 (start 0 ps) l in
  (length (history 0 s) = 101)%nat /\ exists a b r, history 0 s = a :: b :: r /\ when a < when b.
Proof.
  exists [p0 (2 ^ 100)], (repeat (half true true) 99 ++ [half true true; half true true]).
  split; [constructor; [cbn; tauto|constructor]|]. split; [intros p [<-|[]]; cbn; split; [lia|lra]|]. split.
  { apply Forall_app. split.
    - apply Forall_forall. intros x X. apply repeat_spec in X. subst x. split; [apply half_sound|apply half_smooth].
    - do 2 (constructor; [split; [apply half_sound|apply half_smooth]|]). constructor. }
  cbv zeta. rewrite start_p0.
  2:{ pose proof SMALL_1. assert (1 < 2 ^ 100) by (apply Rlt_pow_R1; [lra|lia]). lra. }
  rewrite run_app, repeat_length.
  destruct (cap_run 99 ltac:(lia)) as (ph & rest & g & e & R & I & W & T0 & Tr & Le & F & H). rewrite R.
  cbn [run]. change (2 ^ (100 - 99)) with (2 * 1) in W.
  rewrite (step_half _ (mkst [] (ph :: rest) 99 (1 - / 2 ^ 99) g e) ph rest eq_refl). cbn [todo tmin nint done radG events].
  destruct (Nat.ltb_spec 100 100); [lia|]. cbv zeta. cbn [settle w].
  destruct (Rltb_spec ((1 - 1 / 2) * w ph) SMALL) as [Q|_]; [pose proof SMALL_1; lra|].
  cbn [tracer]. rewrite Tr. cbn [orb t0]. rewrite T0.
  erewrite step_half by reflexivity. cbn [todo tmin nint done radG events id]. rewrite I.
  destruct (Nat.ltb_spec 1 100); [|lia]. unfold history. cbn [events].
  assert (Fe : filter (of 0) e = e).
  { clear - F. induction F as [|x l X F IH]; cbn; auto. rewrite X, IH. reflexivity. }
  cbn [filter of Nat.eqb]. rewrite Fe. split; [cbn [length]; lia|].
  do 3 eexists. split; [reflexivity|]. cbn [when].
  assert (P : 0 < / 2 ^ 99 < 1 / 2).
  { split; [apply Rinv_0_lt_compat, pow_lt; lra|]. unfold Rdiv. rewrite Rmult_1_l. apply Rinv_lt_contravar.
    - apply Rmult_lt_0_compat; [lra|apply pow_lt; lra].
    - rewrite <- (pow_1 2) at 1. apply Rlt_pow; [lra|lia]. }
  unfold MY_MAX. rcases; lra.
Qed.

(** Failures. *)
Definition s0 : state := mkst [] [p0 1] 0 0 [] [].
Lemma s0_start : start 0 [p0 1] = s0.
Proof. apply start_p0. pose proof SMALL_1. lra. Qed.
Lemma s0_failed sc pu : sc && pu = false -> weight (step1 1 s0 (half sc pu)) = 1 / 2 /\ absorbed (step1 1 s0 (half sc pu)) = 0.
Proof.
  intros H. destruct (step_weight_failed false 1 1 1 0 1 1 1 Kflat 1 s0 (half sc pu) (p0 1) [] 0 (1 / 2)) as (A & B); auto.
  - apply half_sound.
  - apply half_decide.
  - rewrite A. split; [cbn; lra|]. unfold absorbed. rewrite B. reflexivity.
Qed.
Lemma weight_refuted : exists m, sound m /\ at_ m = Good /\ scatter_ok m = false /\
  weight (step1 1 (start 0 [p0 1]) m) + absorbed (step1 1 (start 0 [p0 1]) m) < weight (start 0 [p0 1]) + absorbed (start 0 [p0 1]).
Proof.
  exists (half false true). split; [apply half_sound|]. split; [reflexivity|]. split; [reflexivity|].
  rewrite s0_start. destruct (s0_failed false true eq_refl) as (-> & ->). cbn. lra.
Qed.
Lemma momentum_refuted : exists m, sound m /\ at_ m = Good /\ scatter_ok m = true /\ push_ok m = false /\
  momentum (step1 1 (start 0 [p0 1]) m) 0 + impulse (step1 1 (start 0 [p0 1]) m) 0 <> momentum (start 0 [p0 1]) 0 + impulse (start 0 [p0 1]) 0.
Proof.
  exists (half true false). split; [apply half_sound|]. repeat (split; [reflexivity|]). rewrite s0_start.
  pose proof (step_push_failed false 1 1 1 0 1 1 1 Kflat ltac:(lra) 1 s0 (half true false) (p0 1) [] 0 (1 / 2) 0 eq_refl (fun _ => eq_refl)
    (half_sound _ _) eq_refl eq_refl (half_decide _ _ _) eq_refl eq_refl) as E.
  cbn [half chans nth c2 bs K' p0 w] in E. intros Q. assert (Z : 1 / 2 = 0) by lra. lra.
Qed.
(** Two scatterings and an absorption that go well. *)
Definition absorbs : sample := mks Good (1 / 2) 1 [] true (3, 3, 3)%nat (fun _ => 0) true true.
Lemma absorbs_ok : sound absorbs /\ smooth absorbs /\ decide true (xabs absorbs) (dabs absorbs) (chans absorbs) = Absorb.
Proof.
  split; [|split].
  - repeat split; cbn; try lra. constructor.
  - split; [discriminate|split; reflexivity].
  - apply decide_absorb; cbn; try lra; [constructor|]. repeat split; try lra. constructor.
Qed.
Lemma two_ok : Forall (fun m => sound m /\ smooth m) [half true true; half true true; absorbs].
Proof. do 2 (constructor; [split; [apply half_sound|apply half_smooth]|]). constructor; [split; apply absorbs_ok|constructor]. Qed.
Lemma two_events : exists a b, events (run1 1 (start 0 [p0 1]) [half true true; half true true]) = [a; b] /\ when a = 3 / 4 /\ when b = 1 / 2.
Proof.
  rewrite s0_start. cbn [run]. erewrite (step_half 1 s0) by reflexivity.
  cbn [s0 todo tmin nint done radG events]. replace (Nat.ltb 1 100) with true by reflexivity. cbv zeta.
  erewrite step_half by reflexivity. cbn [todo tmin nint done radG events]. replace (Nat.ltb 2 100) with true by reflexivity. cbv zeta.
  cbn [events]. do 2 eexists. split; [reflexivity|]. cbn [when]. lra.
Qed.
