(** The push is a second-order step of its equations of motion. *)
From Coq Require Import Reals Bool Arith Lia Lra.
From Verif Require Import RLib GeomModel PushModel PushSpec PushForce.
Open Scope R_scope.

Lemma grow f g f' g' h : 0 <= h -> f 0 = 0 -> g 0 = 0 ->
  (forall t, 0 <= t <= h -> derivable_pt_lim f t (f' t) /\ derivable_pt_lim g t (g' t) /\ Rabs (f' t) <= g' t) -> Rabs (f h) <= g h.
Proof.
  intros H F G D. destruct (Req_dec h 0) as [->|N]; [rewrite F, G, Rabs_R0; lra|].
  destruct (MVT_cor2 (fun t => g t - f t) (fun t => g' t - f' t) 0 h ltac:(lra)) as (c & E & C).
  { intros c C. destruct (D c C) as (A & B & _). exact (derivable_pt_lim_minus g f c _ _ B A). }
  destruct (MVT_cor2 (fun t => g t + f t) (fun t => g' t + f' t) 0 h ltac:(lra)) as (d & E' & C').
  { intros d C'. destruct (D d C') as (A & B & _). exact (derivable_pt_lim_plus g f d _ _ B A). }
  destruct (D c ltac:(lra)) as (_ & _ & B1), (D d ltac:(lra)) as (_ & _ & B2).
  pose proof (Rle_abs (f' c)). pose proof (Rle_abs (- f' d)) as Q. rewrite Rabs_Ropp in Q.
  rewrite F, G in E, E'.
  assert (0 <= (g' c - f' c) * (h - 0)) by (apply Rmult_le_pos; lra).
  assert (0 <= (g' d + f' d) * (h - 0)) by (apply Rmult_le_pos; lra).
  apply Rabs_le. lra.
Qed.
Lemma d_lin a t : derivable_pt_lim (fun t => a * t) t a.
Proof. pose proof (derivable_pt_lim_scal id a t 1 (derivable_pt_lim_id t)) as H. rewrite Rmult_1_r in H. exact H. Qed.
Lemma d_sq a t : derivable_pt_lim (fun t => a * t ^ 2 / 2) t (a * t).
Proof.
  pose proof (derivable_pt_lim_scal (fun t => t ^ 2) (a / 2) t _ (derivable_pt_lim_pow t 2)) as H.
  intros e E. destruct (H e E) as (d & D). exists d. intros k K L. specialize (D k K L). unfold mult_real_fct in D. cbn [INR Nat.pred] in D.
  match goal with |- Rabs ?u < e => match type of D with Rabs ?v < e => replace u with v; [exact D|] end end. simpl. field. exact K.
Qed.
Lemma d_cube a t : derivable_pt_lim (fun t => a * t ^ 3 / 12) t (a * t ^ 2 / 4).
Proof.
  pose proof (derivable_pt_lim_scal (fun t => t ^ 3) (a / 12) t _ (derivable_pt_lim_pow t 3)) as H.
  intros e E. destruct (H e E) as (d & D). exists d. intros k K L. specialize (D k K L). unfold mult_real_fct in D. cbn [INR Nat.pred] in D.
  match goal with |- Rabs ?u < e => match type of D with Rabs ?v < e => replace u with v; [exact D|] end end. simpl. field. exact K.
Qed.
Lemma d_minus_const f a t l : derivable_pt_lim f t l -> derivable_pt_lim (fun t => f t - a) t l.
Proof. intros H. pose proof (derivable_pt_lim_minus f (fct_cte a) t _ _ H (derivable_pt_lim_const a t)) as Q. rewrite Rminus_0_r in Q. exact Q. Qed.
Lemma lipschitz y y1 M h : 0 <= h -> (forall t, 0 <= t <= h -> derivable_pt_lim y t (y1 t) /\ Rabs (y1 t) <= M) -> Rabs (y h - y 0) <= M * h.
Proof.
  intros H D. apply (grow (fun t => y t - y 0) (fun t => M * t) y1 (fun _ => M)); [exact H|ring|ring|].
  intros t T. destruct (D t T) as [A B]. split; [now apply d_minus_const|]. split; [apply d_lin|exact B].
Qed.
Lemma taylor1 h M2 M3 y y1 : 0 <= h -> thrice h M2 M3 y y1 -> Rabs (y h - y 0 - h * y1 0) <= M2 * h ^ 2 / 2.
Proof.
  intros H (y2 & y3 & D). replace (y h - y 0 - h * y1 0) with ((y h - y 0) - y1 0 * h) by ring.
  apply (grow (fun t => (y t - y 0) - y1 0 * t) (fun t => M2 * t ^ 2 / 2) (fun t => y1 t - y1 0) (fun t => M2 * t)); [exact H|ring|field|].
  intros t T. destruct (D t T) as (A & B & _). split; [|split; [apply d_sq|]].
  - apply (derivable_pt_lim_minus (fun t => y t - y 0) (fun t => y1 0 * t)); [now apply d_minus_const|apply d_lin].
  - apply (lipschitz y1 y2); [lra|]. intros u U. destruct (D u ltac:(lra)) as (_ & B' & _ & C & _). split; assumption.
Qed.
Lemma trapezoid h M2 M3 y y1 : 0 <= h -> thrice h M2 M3 y y1 -> Rabs (y h - y 0 - h / 2 * (y1 0 + y1 h)) <= M3 * h ^ 3 / 12.
Proof.
  intros H (y2 & y3 & D).
  replace (y h - y 0 - h / 2 * (y1 0 + y1 h)) with ((y h - y 0) - ((y1 0 / 2) * h + (/ 2) * (h * y1 h))) by field.
  apply (grow (fun t => (y t - y 0) - ((y1 0 / 2) * t + / 2 * (t * y1 t))) (fun t => M3 * t ^ 3 / 12)
    (fun t => y1 t - (y1 0 / 2 + / 2 * (1 * y1 t + t * y2 t))) (fun t => M3 * t ^ 2 / 4)); [exact H|field|field|].
  intros t T. destruct (D t T) as (A & B & C & _). split; [|split; [apply d_cube|]].
  - apply (derivable_pt_lim_minus (fun t => y t - y 0) (fun t => (y1 0 / 2) * t + / 2 * (t * y1 t))); [now apply d_minus_const|].
    apply (derivable_pt_lim_plus (fun t => y1 0 / 2 * t) (fun t => / 2 * (t * y1 t))); [apply d_lin|].
    apply (derivable_pt_lim_scal (fun t => t * y1 t) (/ 2)). apply (derivable_pt_lim_mult id y1); [apply derivable_pt_lim_id|exact B].
  - assert (Q : Rabs ((y1 t - y1 0) - t * y2 t) <= M3 * t ^ 2 / 2).
    { (* mean value form at the far end: s -> y1 s - y1 0 - s y2 s *)
      replace ((y1 t - y1 0) - t * y2 t) with (- (t * y2 t - (y1 t - y1 0))) by ring. rewrite Rabs_Ropp.
      apply (grow (fun s => s * y2 s - (y1 s - y1 0)) (fun s => M3 * s ^ 2 / 2) (fun s => 1 * y2 s + s * y3 s - y2 s) (fun s => M3 * s)); [lra|ring|field|].
      intros s S. destruct (D s ltac:(lra)) as (_ & B' & C' & _ & E). split; [|split; [apply d_sq|]].
      - apply (derivable_pt_lim_minus (fun s => s * y2 s) (fun s => y1 s - y1 0)); [|now apply d_minus_const].
        apply (derivable_pt_lim_mult id y2); [apply derivable_pt_lim_id|exact C'].
      - replace (1 * y2 s + s * y3 s - y2 s) with (y3 s * s) by ring. rewrite Rabs_mult, (Rabs_pos_eq s) by lra. apply Rmult_le_compat_r; lra. }
    replace (y1 t - (y1 0 / 2 + / 2 * (1 * y1 t + t * y2 t))) with (/ 2 * ((y1 t - y1 0) - t * y2 t)) by field.
    rewrite Rabs_mult, (Rabs_pos_eq (/ 2)) by lra. lra.
Qed.
(** one component: the second slope is that of a point near the end *)
Lemma heun h M2 M3 e y y1 c2 : 0 <= h -> thrice h M2 M3 y y1 -> Rabs (y1 h - c2) <= e ->
  Rabs (y 0 + 1 / 2 * h * (y1 0 + c2) - y h) <= M3 * h ^ 3 / 12 + h / 2 * e.
Proof.
  intros H T E. pose proof (trapezoid h M2 M3 y y1 H T) as Q.
  replace (y 0 + 1 / 2 * h * (y1 0 + c2) - y h) with (- ((y h - y 0 - h / 2 * (y1 0 + y1 h)) + h / 2 * (y1 h - c2))) by field.
  rewrite Rabs_Ropp. eapply Rle_trans; [apply Rabs_triang|]. apply Rplus_le_compat; [exact Q|].
  rewrite Rabs_mult, (Rabs_pos_eq (h / 2)) by lra. apply Rmult_le_compat_l; lra.
Qed.

Lemma push_second_order gcon_at killing s h M2 M3 L (U : vec -> vec -> Prop) (x k : R -> vec) :
  0 <= h -> killing 0%nat = true -> x 0 = X s -> k 0 = Kcov s ->
  (forall mu, (mu < 4)%nat -> thrice h M2 M3 (fun t => x t mu) (fun t => velocity gcon_at (x t) (k t) mu)) ->
  (forall mu, (mu < 4)%nat -> thrice h M2 M3 (fun t => k t mu) (fun t => force_at gcon_at killing (x t) (k t) mu)) ->
  (forall t, 0 <= t <= h -> velocity gcon_at (x t) (k t) 0%nat = 1) ->
  smooth_in U gcon_at killing L -> U (x h) (k h) ->
  U (fun mu => X s mu + h * velocity gcon_at (X s) (Kcov s) mu) (fun mu => Kcov s mu + h * force_at gcon_at killing (X s) (Kcov s) mu) ->
  forall mu, (mu < 4)%nat ->
  Rabs (X (push gcon_at killing h s) mu - x h mu) <= (M3 / 12 + L * M2 / 4) * h ^ 3 /\
  Rabs (Kcov (push gcon_at killing h s) mu - k h mu) <= (M3 / 12 + L * M2 / 4) * h ^ 3.
Proof.
  intros H K0 X0 K0' TX TK V0 LU U1 U2 mu MU.
  set (xt := fun mu => X s mu + h * velocity gcon_at (X s) (Kcov s) mu) in *.
  set (kt := fun mu => Kcov s mu + h * force_at gcon_at killing (X s) (Kcov s) mu) in *.
  assert (P : forall nu, (nu < 4)%nat -> Rabs (x h nu - xt nu) <= M2 * h ^ 2 / 2 /\ Rabs (k h nu - kt nu) <= M2 * h ^ 2 / 2).
  { intros nu N. pose proof (taylor1 h M2 M3 _ _ H (TX nu N)) as A. pose proof (taylor1 h M2 M3 _ _ H (TK nu N)) as B.
    cbv beta in A, B. rewrite X0, K0' in A, B. unfold xt, kt.
    split; [replace (x h nu - (X s nu + h * velocity gcon_at (X s) (Kcov s) nu)) with (x h nu - X s nu - h * velocity gcon_at (X s) (Kcov s) nu) by ring; exact A|].
    replace (k h nu - (Kcov s nu + h * force_at gcon_at killing (X s) (Kcov s) nu)) with (k h nu - Kcov s nu - h * force_at gcon_at killing (X s) (Kcov s) nu) by ring. exact B. }
  destruct (LU (x h) (k h) xt kt (M2 * h ^ 2 / 2) U1 U2 P mu MU) as [EX EK].
  pose proof (heun h M2 M3 _ _ _ _ H (TX mu MU) EX) as HX. pose proof (heun h M2 M3 _ _ _ _ H (TK mu MU) EK) as HK.
  cbv beta in HX, HK. rewrite X0, K0' in HX, HK.
  assert (BB : M3 * h ^ 3 / 12 + h / 2 * (L * (M2 * h ^ 2 / 2)) = (M3 / 12 + L * M2 / 4) * h ^ 3) by field.
  rewrite BB in HX, HK. clear BB.
  unfold push. cbv zeta. cbn [X Kcov].
  change (get_X_source (raise (Kcov s) (gcon_at (X s)))) with (velocity gcon_at (X s) (Kcov s)).
  change (get_K_source gcon_at killing (X s) (Kcov s) (raise (Kcov s) (gcon_at (X s)))) with (force_at gcon_at killing (X s) (Kcov s)).
  fold xt kt.
  change (get_X_source (raise kt (gcon_at xt))) with (velocity gcon_at xt kt).
  change (get_K_source gcon_at killing xt kt (raise kt (gcon_at xt))) with (force_at gcon_at killing xt kt).
  destruct (Nat.eqb_spec mu 0) as [E|E]; [|split; assumption]. subst mu.
  assert (B0 : 0 <= (M3 / 12 + L * M2 / 4) * h ^ 3) by (pose proof (Rabs_pos (X s 0%nat + 1 / 2 * h * (velocity gcon_at (X s) (Kcov s) 0%nat + velocity gcon_at xt kt 0%nat) - x h 0%nat)); lra).
  split.
  - assert (Q : x h 0%nat = X s 0%nat + h).
    { assert (R0 : Rabs ((x h 0%nat - X s 0%nat) - 1 * h) <= 0 * h).
      { replace (0 * h) with ((fun t => 0 * t) h) by reflexivity.
        apply (grow (fun t => (x t 0%nat - X s 0%nat) - 1 * t) (fun t => 0 * t) (fun t => velocity gcon_at (x t) (k t) 0%nat - 1) (fun _ => 0)); [exact H|rewrite X0; ring|ring|].
        intros t T. destruct (TX 0%nat ltac:(lia)) as (y2 & y3 & D). destruct (D t T) as (A & _). split; [|split; [apply d_lin|]].
        - apply (derivable_pt_lim_minus (fun t => x t 0%nat - X s 0%nat) (fun t => 1 * t)); [now apply d_minus_const|apply d_lin].
        - rewrite V0 by exact T. rewrite Rminus_diag_eq, Rabs_R0 by reflexivity. lra. }
      rewrite Rmult_0_l in R0. pose proof (Rabs_pos ((x h 0%nat - X s 0%nat) - 1 * h)). assert (Z : Rabs ((x h 0%nat - X s 0%nat) - 1 * h) = 0) by lra.
      destruct (Req_dec ((x h 0%nat - X s 0%nat) - 1 * h) 0) as [|NZ]; [lra|]. apply Rabs_no_R0 in NZ. contradiction. }
    rewrite Q, Rminus_diag_eq, Rabs_R0 by reflexivity. exact B0.
  - assert (F0 : forall a b, force_at gcon_at killing a b 0%nat = 0) by (intros; unfold force_at, get_K_source; rewrite K0; reflexivity).
    rewrite !F0 in HK. replace (Kcov s 0%nat + 1 / 2 * h * (0 + 0)) with (Kcov s 0%nat) in HK by ring. exact HK.
Qed.

(** ** Kcon is the raised Kcov *)
Lemma times_last n f s : times (S n) f s = f (times n f s).
Proof. revert s. induction n as [|n IH]; intros s; [reflexivity|]. cbn [times] in *. now rewrite <- IH. Qed.
Lemma subdivide_attempt p good s dt fuel : forall n s' m, subdivide p good s dt n fuel = (s', m) -> exists n', s' = attempt p s dt n'.
Proof.
  induction fuel as [|f IH]; intros n s' m; cbn [subdivide]; [intros E; injection E as <- _; eauto|].
  destruct (good _); [intros E; injection E as <- _; eauto|apply IH].
Qed.
Lemma raised gcon_at killing tol tracer s prev dt s' st : push_X_K tol (push gcon_at killing) tracer s prev dt = (s', st) ->
  forall mu, Kcon s' mu = raise (Kcov s') (gcon_at (X s')) mu.
Proof.
  unfold push_X_K. destruct (subdivide _ _ _ _ _ _) as (a, m) eqn:E. intros Q. injection Q as <- _. intros mu.
  destruct (subdivide_attempt _ _ _ _ _ _ _ _ E) as (n & ->). unfold attempt.
  assert (P : (0 < 2 ^ n)%nat) by (apply Nat.neq_0_lt_0, Nat.pow_nonzero; lia). destruct (2 ^ n)%nat as [|j]; [lia|].
  rewrite times_last. reflexivity.
Qed.

(** ** An example: the inverse metric diag(-1, 1, x, 1) *)
Definition gbent : vec -> mat := fun x i j => if Nat.eqb i j then (if Nat.eqb i 0 then -1 else if Nat.eqb i 2 then x 1%nat else 1) else 0.
Definition kbent (mu : nat) : bool := negb (Nat.eqb mu 1).
Definition xb (t : R) : vec := fun mu => match mu with 0%nat => t | 1%nat => 16 + 3 / 5 * t - t ^ 2 / 100 | 2%nat => 16 / 5 * t + 3 / 50 * t ^ 2 - t ^ 3 / 1500 | _ => 0 end.
Definition kb (t : R) : vec := fun mu => match mu with 0%nat => -5 | 1%nat => 3 - t / 10 | 2%nat => 1 | _ => 0 end.
Definition sb : state := mkst (xb 0) (kb 0) (raise (kb 0) (gbent (xb 0))).
Definition Ub (x k : vec) : Prop := k 0%nat = -5 /\ k 2%nat = 1.
Lemma vel_bent x k mu : Ub x k -> (mu < 4)%nat -> velocity gbent x k mu = match mu with 0%nat => 1 | 1%nat => k 1%nat / 5 | 2%nat => x 1%nat / 5 | _ => k 3%nat / 5 end.
Proof.
  intros [A B] M. unfold velocity, raise, gbent. destruct mu as [|[|[|[|mu]]]]; try lia; cbn [Nat.eqb]; rewrite A, ?B; field.
Qed.
Lemma force_bent x k mu : Ub x k -> (mu < 4)%nat -> force_at gbent kbent x k mu = if Nat.eqb mu 1 then - (1 / 10) else 0.
Proof.
  intros [A B] M. unfold force_at, get_K_source, kbent. destruct mu as [|[|[|[|mu]]]]; try lia; cbn [Nat.eqb negb]; try reflexivity.
  cbv zeta. unfold sum4, raise, gbent, bump. cbn [Nat.eqb]. rewrite A, B. assert (DELTAK <> 0) by (pose proof DELTAK_pos; lra). field. lra.
Qed.
Lemma Ub_sol t : Ub (xb t) (kb t). Proof. split; reflexivity. Qed.
Lemma lim_eq f g t l m : (forall t, g t = f t) -> l = m -> derivable_pt_lim f t l -> derivable_pt_lim g t m.
Proof.
  intros E <- H e P. destruct (H e P) as (d & D). exists d. intros h N L. rewrite !E. now apply D.
Qed.
(** cubic polynomials *)
Lemma d_poly a b c d t : derivable_pt_lim (fun t => a + b * t + c * t ^ 2 + d * t ^ 3) t (b + 2 * c * t + 3 * d * t ^ 2).
Proof.
  eapply (lim_eq (fun t => (a + b * t) + (2 * c) * t ^ 2 / 2 + (12 * d) * t ^ 3 / 12) _ t ((0 + b) + (2 * c) * t + (12 * d) * t ^ 2 / 4)); [intros; field|field|].
  apply (derivable_pt_lim_plus (fun t => (a + b * t) + (2 * c) * t ^ 2 / 2) (fun t => (12 * d) * t ^ 3 / 12)); [|apply d_cube].
  apply (derivable_pt_lim_plus (fun t => a + b * t) (fun t => (2 * c) * t ^ 2 / 2)); [|apply d_sq].
  apply (derivable_pt_lim_plus (fct_cte a) (fun t => b * t)); [apply derivable_pt_lim_const|apply d_lin].
Qed.
Lemma thrice_poly h M2 M3 a b c d y y1 : (forall t, y t = a + b * t + c * t ^ 2 + d * t ^ 3) -> (forall t, y1 t = b + 2 * c * t + 3 * d * t ^ 2) ->
  (forall t, 0 <= t <= h -> Rabs (2 * c + 6 * d * t) <= M2) -> Rabs (6 * d) <= M3 -> thrice h M2 M3 y y1.
Proof.
  intros Y Y1 B2 B3. exists (fun t => 2 * c + 6 * d * t), (fun _ => 6 * d). intros t T.
  split; [eapply lim_eq; [exact Y|symmetry; apply Y1|apply d_poly]|].
  split; [eapply (lim_eq (fun t => b + 2 * c * t + 3 * d * t ^ 2 + 0 * t ^ 3)); [intros; rewrite Y1; ring| |apply d_poly]; ring|].
  split; [eapply (lim_eq (fun t => 2 * c + 6 * d * t + 0 * t ^ 2 + 0 * t ^ 3)); [intros; ring| |apply d_poly]; ring|].
  split; [now apply B2|exact B3].
Qed.
Lemma bent_pushed : dot (Kcov sb) (Kcon sb) = 0 /\
  forall mu, (mu < 4)%nat ->
  Rabs (X (push gbent kbent 1 sb) mu - xb 1 mu) <= (/ 250 / 12 + / 5 * (3 / 25) / 4) * 1 ^ 3 /\
  Rabs (Kcov (push gbent kbent 1 sb) mu - kb 1 mu) <= (/ 250 / 12 + / 5 * (3 / 25) / 4) * 1 ^ 3.
Proof.
  split.
  { unfold dot, sum4, sb, raise, gbent. cbn [Kcov Kcon xb kb Nat.eqb X]. field. }
  apply (push_second_order gbent kbent sb 1 (3 / 25) (/ 250) (/ 5) Ub xb kb); [lra|reflexivity|reflexivity|reflexivity| | | | | | ].
  - intros mu M. assert (V : forall t, velocity gbent (xb t) (kb t) mu = match mu with 0%nat => 1 | 1%nat => (3 - t / 10) / 5 | 2%nat => (16 + 3 / 5 * t - t ^ 2 / 100) / 5 | _ => 0 / 5 end).
    { intros t. rewrite vel_bent; [|apply Ub_sol|exact M]. destruct mu as [|[|[|[|mu]]]]; try lia; reflexivity. }
    destruct mu as [|[|[|[|mu]]]]; try lia.
    + apply thrice_poly with (a := 0) (b := 1) (c := 0) (d := 0); [intros; cbn [xb]; ring|intros; rewrite V; ring| |]; intros; apply Rabs_le; lra.
    + apply thrice_poly with (a := 16) (b := 3 / 5) (c := - / 100) (d := 0); [intros; cbn [xb]; field|intros; rewrite V; field| |]; intros; apply Rabs_le; lra.
    + apply thrice_poly with (a := 0) (b := 16 / 5) (c := 3 / 50) (d := - / 1500); [intros; cbn [xb]; field|intros; rewrite V; field| |]; intros; apply Rabs_le; lra.
    + apply thrice_poly with (a := 0) (b := 0) (c := 0) (d := 0); [intros; cbn [xb]; ring|intros; rewrite V; field| |]; intros; apply Rabs_le; lra.
  - intros mu M. assert (V : forall t, force_at gbent kbent (xb t) (kb t) mu = if Nat.eqb mu 1 then - (1 / 10) else 0).
    { intros t. apply force_bent; [apply Ub_sol|exact M]. }
    destruct mu as [|[|[|[|mu]]]]; try lia; cbn [Nat.eqb] in V.
    + apply thrice_poly with (a := -5) (b := 0) (c := 0) (d := 0); [intros; cbn [kb]; ring|intros; rewrite V; ring| |]; intros; apply Rabs_le; lra.
    + apply thrice_poly with (a := 3) (b := - / 10) (c := 0) (d := 0); [intros; cbn [kb]; field|intros; rewrite V; field| |]; intros; apply Rabs_le; lra.
    + apply thrice_poly with (a := 1) (b := 0) (c := 0) (d := 0); [intros; cbn [kb]; ring|intros; rewrite V; ring| |]; intros; apply Rabs_le; lra.
    + apply thrice_poly with (a := 0) (b := 0) (c := 0) (d := 0); [intros; cbn [kb]; ring|intros; rewrite V; ring| |]; intros; apply Rabs_le; lra.
  - intros t _. rewrite vel_bent; [reflexivity|apply Ub_sol|lia].
  - intros x k x' k' N A A' D mu M. rewrite !vel_bent, !force_bent by assumption.
    assert (N0 : 0 <= N) by (destruct (D 0%nat ltac:(lia)) as [Q _]; pose proof (Rabs_pos (x 0%nat - x' 0%nat)); lra).
    assert (Q5 : forall a b, Rabs (a - b) <= N -> Rabs (a / 5 - b / 5) <= / 5 * N).
    { intros a b Q. replace (a / 5 - b / 5) with (/ 5 * (a - b)) by field. rewrite Rabs_mult, (Rabs_pos_eq (/ 5)) by lra. lra. }
    split.
    + destruct mu as [|[|[|[|mu]]]]; try lia; [rewrite Rminus_diag_eq, Rabs_R0 by reflexivity; lra|apply Q5, D; lia..].
    + rewrite Rminus_diag_eq, Rabs_R0 by reflexivity. lra.
  - apply Ub_sol.
  - split; rewrite !force_bent by (try lia; apply Ub_sol); cbn [Nat.eqb]; cbn [Kcov sb kb]; ring.
Qed.

(** ** The history of a packet after two pushes *)
From Verif Require Import PushProofs.
Lemma complete gcon_at killing tol h prev1 dt1 h1 d1 st1 dt2 h2 d2 st2 ti :
  push_superphoton gcon_at killing tol h prev1 dt1 = (h1, d1, st1) -> push_superphoton gcon_at killing tol h1 d1 dt2 = (h2, d2, st2) ->
  0 < dt1 -> 0 < dt2 -> ti <= X (s2 h) 0%nat + dt1 + dt2 ->
  s0 h2 = s2 h /\ exists s st, get_X_K_interp gcon_at killing tol h2 ti = Some (s, st) /\ X s 0%nat = ti.
Proof.
  unfold push_superphoton. destruct (push_X_K tol _ false (s2 h) prev1 dt1) as (a, sta) eqn:E1. intros Q. injection Q as <- <- _.
  cbn [s1 s2]. destruct (push_X_K tol _ false a _ dt2) as (b, stb) eqn:E2. intros Q. injection Q as <- <- _. intros P1 P2 T.
  pose proof (push_time_full _ _ _ _ _ _ _ _ (push_time gcon_at killing) E1) as T1.
  pose proof (push_time_full _ _ _ _ _ _ _ _ (push_time gcon_at killing) E2) as T2.
  split; [reflexivity|]. destruct (get_X_K_interp gcon_at killing tol (mkhist (s2 h) a b) ti) as [[s st]|] eqn:G.
  - exists s, st. split; [reflexivity|]. eapply get_time; [| |exact G]; cbn [s0 s1 s2]; lra.
  - exfalso. apply get_exits in G; cbn [s1 s2] in *; lra.
Qed.
