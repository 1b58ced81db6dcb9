(** Conserved variables built from primitives: the inversion's inputs and its
    residual at the true unknown. *)
From Coq Require Import Reals ZArith List Bool Lia Lra.
From Verif Require Import RLib XLib FluxModel GeomModel GeomSpec GeomProofs SpaceProofs NullProofs UtopModel UtopProofs.
Import ListNotations.
Open Scope R_scope.

(** ** Scalar identities.  W: enthalpy times gamma^2, B: field squared, S: field
    dot velocity, V: velocity squared, g2 = 1 + V. *)
Lemma id_num W B S V g2 : g2 <> 0 ->
  (W + (W + B)) * (W * W * (S * S) / g2) + W * W * (((W + B) * (W + B) * V - 2 * (W + B) * (S * S) + S * S * B) / g2)
  = W * W * ((W + B) * (W + B)) * V / g2.
Proof. intros. field. assumption. Qed.
Lemma id_den W B S V g2 : g2 = 1 + V -> g2 <> 0 ->
  W * W * (S * S) / g2 * (W + (W + B)) +
    W * W * (((W + B) * (W + B) * V - 2 * (W + B) * (S * S) + S * S * B) / g2 - (W + B) * (W + B))
  = - (W * W * ((W + B) * (W + B)) / g2).
Proof. intros E N. replace V with (g2 - 1) by lra. field. assumption. Qed.

Lemma gamma_func_exact W B S V g D : 0 < W -> 0 <= B -> 0 <= V -> 0 < g -> g * g = 1 + V ->
  gamma_func (Fin B) (Fin D) (Fin (W * S / g))
    (Fin (((W + B) * (W + B) * V - 2 * (W + B) * (S * S) + S * S * B) / (g * g))) (Fin (W - D)) = Fin g.
Proof.
  intros HW HB HV Hg E. unfold gamma_func. cbv zeta.
  assert (G2 : g * g <> 0) by nra.
  cbn [xadd xmul xsub xopp].
  match goal with |- context [xdiv (Fin ?n) (Fin ?d)] =>
    assert (N : n = - (W * W * ((W + B) * (W + B)) * V / (g * g)));
    [|assert (DD : d = - (W * W * ((W + B) * (W + B)) / (g * g)))] end.
  - rewrite <- (id_num W B S V (g * g) G2). field. lra.
  - rewrite <- (id_den W B S V (g * g) E G2). field. lra.
  - rewrite N, DD. assert (P : 0 < W * W * ((W + B) * (W + B))) by (apply Rmult_lt_0_compat; nra).
    rewrite xdiv_fin.
    2:{ intros Z. assert (0 < W * W * ((W + B) * (W + B)) / (g * g)) by (apply Rdiv_lt_0_compat; nra). lra. }
    replace (- (W * W * ((W + B) * (W + B)) * V / (g * g)) / - (W * W * ((W + B) * (W + B)) / (g * g))) with V
      by (field; repeat split; nra).
    cbn [xabs xadd]. rewrite Rabs_right by lra. rewrite xsqrt_fin by lra. rewrite <- E, sqrt_square by lra. reflexivity.
Qed.

Lemma id_err W B S V g2 : g2 = 1 + V -> g2 <> 0 -> W + B <> 0 ->
  - (B / 2) + (B + S * S) / g2 / 2 +
  5 / 10 * (B * (((W + B) * (W + B) * V - 2 * (W + B) * (S * S) + S * S * B) / g2) - W * W * (S * S) / g2) /
    ((B + W) * (B + W)) = 0.
Proof. intros E N N'. replace V with (g2 - 1) by lra. field. split; lra. Qed.

Lemma err_exact press_w W B S V g D p p' w : 0 < W -> 0 <= B -> 0 <= V -> 0 < g -> g * g = 1 + V ->
  w = W / (g * g) -> press_w (Fin (D / g)) (Fin w) = Fin p' ->
  err_eqn press_w (Fin B) (Fin D) (Fin (W - D + B - p - (B + S * S) / (g * g) / 2)) (Fin (W * S / g))
    (Fin (((W + B) * (W + B) * V - 2 * (W + B) * (S * S) + S * S * B) / (g * g))) (Fin (W - D)) = Fin (p - p').
Proof.
  intros HW HB HV Hg E -> EP. unfold err_eqn. cbv zeta. rewrite gamma_func_exact by assumption.
  cbn [xadd xmul xsub xopp]. assert (G2 : g * g <> 0) by nra.
  rewrite (xdiv_fin D g) by lra. rewrite (xdiv_fin (W - D + D) (g * g)) by exact G2.
  replace (W - D + D) with W by ring. rewrite EP. cbn [xadd xmul xsub xopp]. rewrite xdiv_fin by nra. cbn [xadd].
  f_equal. pose proof (id_err W B S V (g * g) E G2 ltac:(lra)) as I.
  replace (W * S / g * (W * S / g)) with (W * W * (S * S) / (g * g)) by (field; lra).
  unfold Rminus in *. lra.
Qed.

(** ** Vectors *)
Section Vec.
Variables (G : mat) (alpha : R) (beta : vec).
Hypothesis ST : spacetime G alpha beta.
Notation gcon := (fst (gcon_func G)).
Variables (g : R).
Hypothesis Hg : 0 < g.
Definition geo : geom := {| gg := g; gcov := G; UtopModel.gcon := gcon; galpha := lapse gcon |}.

Variables (small : R) (press : R -> R -> R) (rho u : R) (B U : vec) (ucon : vec).
Hypothesis Hrho : 0 < rho.
Hypothesis Hsmall : 0 <= small.
Notation r := (rho + small).
Notation pres := (press r u).
Notation w := (pres + r + u).
Hypothesis Hw : 0 < w.
Hypothesis HU : ucon_calc G gcon (lapse gcon) U = Some ucon.
Let gam := sqrt (1 + spatial G U U).
Let ucov := lower ucon G.
Let b := bcon B ucon ucov.
Let bcov := lower b G.
Let Bv : vec := fun i => if Nat.eqb i 0 then 0 else B i.
Let Ba : vec := fun i => if Nat.eqb i 0 then 0 else alpha * B i.
(** field squared, field dot velocity (with the lapse) *)
Let BB := spatial G Ba Ba.
Let SB := spatial G Ba U.
Let V := spatial G U U.
Let W := w * (gam * gam).

Lemma Ha : 0 < alpha. Proof. exact (st_alpha G alpha beta ST). Qed.
Lemma u_facts : inner G ucon ucon = -1 /\ (forall i, (1 <= i < 4)%nat -> shifted beta ucon i = U i) /\ alpha * ucon 0%nat = gam /\ 0 < ucon 0%nat.
Proof.
  destruct (ucon_ok G alpha beta ST U) as (u' & E & N & P & _ & SH & GG). rewrite HU in E. injection E as <-. auto.
Qed.
Lemma gam1 : 1 <= gam. Proof. exact (gamma_ge1 G alpha beta ST U). Qed.
Lemma gamsq : gam * gam = 1 + V.
Proof. unfold gam, V. apply sqrt_sqrt. pose proof (sp_nonneg G alpha beta ST U). lra. Qed.
Lemma V0 : 0 <= V. Proof. apply (sp_nonneg G alpha beta ST). Qed.
Lemma BB0 : 0 <= BB. Proof. apply (sp_nonneg G alpha beta ST). Qed.
Lemma W0 : 0 < W. Proof. unfold W. pose proof gam1. apply Rmult_lt_0_compat; nra. Qed.

Lemma spatial_ext p p' q q' : (forall i, (1 <= i < 4)%nat -> p i = p' i) -> (forall i, (1 <= i < 4)%nat -> q i = q' i) ->
  spatial G p q = spatial G p' q'.
Proof. intros E F. unfold spatial. now rewrite !E, !F by lia. Qed.
Lemma spatial_lin c d p q v : spatial G (fun i => c * p i + d * q i) v = c * spatial G p v + d * spatial G q v.
Proof. unfold spatial. ring. Qed.

Lemma ucon0 : ucon 0%nat = gam / alpha.
Proof. pose proof Ha. destruct u_facts as (_ & _ & E & _). rewrite <- E. field. lra. Qed.
Lemma b0_eq : alpha * b 0%nat = SB.
Proof.
  destruct u_facts as (_ & SH & _ & _).
  unfold b, bcon. cbn [Nat.eqb].
  transitivity (alpha * inner G Bv ucon).
  - rewrite inner_lower. fold ucov. unfold sigma4, Bv. cbn [Nat.eqb]. ring.
  - rewrite (st_split G alpha beta ST). unfold SB, Ba, Bv, spatial, shifted. cbn [Nat.eqb].
    rewrite <- !SH by lia. unfold shifted. ring.
Qed.
Lemma b_shift i : (1 <= i < 4)%nat -> shifted beta b i = (Ba i + SB * U i) / gam.
Proof.
  intros Hi. destruct u_facts as (_ & SH & GU & PU). pose proof Ha. pose proof gam1.
  unfold shifted. rewrite <- (SH i Hi). unfold shifted.
  assert (E0 : b 0%nat = SB / alpha) by (rewrite <- b0_eq; field; lra).
  assert (Ei : b i = (B i + b 0%nat * ucon i) / ucon 0%nat).
  { unfold b. destruct i; [lia|]. reflexivity. }
  rewrite Ei, E0, ucon0. unfold Ba. destruct i; [lia|]. cbn [Nat.eqb]. field. lra.
Qed.
(** magnetic pressure *)
Lemma bsq_eq : inner G b b = (BB + SB * SB) / (gam * gam).
Proof.
  pose proof gam1. rewrite (st_split G alpha beta ST).
  replace (alpha * alpha * b 0%nat * b 0%nat) with (SB * SB) by (rewrite <- b0_eq; ring).
  rewrite (spatial_ext _ (fun i => / gam * Ba i + SB / gam * U i) _ (fun i => / gam * Ba i + SB / gam * U i)).
  2,3: intros i Hi; rewrite b_shift by exact Hi; field; lra.
  rewrite spatial_lin, (sp_sym G alpha beta ST Ba), (sp_sym G alpha beta ST U), !spatial_lin.
  rewrite (sp_sym G alpha beta ST U Ba). fold BB. fold SB. fold V. replace V with (gam * gam - 1) by (pose proof gamsq; lra).
  field. lra.
Qed.
Lemma b_dot_B : inner G b Ba = (BB + SB * SB) / gam.
Proof.
  pose proof gam1. rewrite (st_split G alpha beta ST). replace (Ba 0%nat) with 0 by reflexivity.
  rewrite (spatial_ext _ (fun i => / gam * Ba i + SB / gam * U i) _ Ba).
  2: intros i Hi; rewrite b_shift by exact Hi; field; lra.
  2: intros i Hi; unfold shifted; replace (Ba 0%nat) with 0 by reflexivity; ring.
  rewrite spatial_lin, (sp_sym G alpha beta ST U). fold BB. fold SB. field. lra.
Qed.
Lemma u_dot_B : inner G ucon Ba = SB.
Proof.
  destruct u_facts as (_ & SH & _ & _). rewrite (st_split G alpha beta ST). replace (Ba 0%nat) with 0 by reflexivity.
  rewrite (spatial_ext _ U _ Ba SH). 2: intros i Hi; unfold shifted; replace (Ba 0%nat) with 0 by reflexivity; ring.
  rewrite (sp_sym G alpha beta ST U Ba). fold SB. ring.
Qed.

(** ** The inversion's inputs *)
Variables (scalars : list (nat * bool)) (sc : nat -> R).
Notation Uc := (primtoflux small press scalars geo rho u B sc ucon 0).
Let eta0 := w + inner G b b.
Let ptot := pres + 5 / 10 * inner G b b.
Let T (mu : nat) : R := eta0 * ucon 0%nat * ucov mu + ptot * delta 0 mu - b 0%nat * bcov mu.

Lemma bsq_dot : b 0%nat * bcov 0%nat + b 1%nat * bcov 1%nat + b 2%nat * bcov 2%nat + b 3%nat * bcov 3%nat = inner G b b.
Proof. rewrite inner_lower. fold bcov. unfold sigma4. ring. Qed.
Lemma mhd_T mu : mhd_calc small press rho u ucon ucov b bcov 0 mu = T mu.
Proof.
  unfold mhd_calc, T, eta0, ptot, delta. cbv zeta. rewrite bsq_dot, (Rabs_right rho) by lra. reflexivity.
Qed.
Definition Qcov (mu : nat) : R := alpha * T mu.

Lemma U_rho : Uc 0%nat = g * (rho * ucon 0%nat). Proof. reflexivity. Qed.
Lemma U_uu : Uc 1%nat = g * (T 0%nat + rho * ucon 0%nat).
Proof. rewrite <- mhd_T. reflexivity. Qed.
Lemma U_u k : (k < 3)%nat -> Uc (2 + k)%nat = g * T (Datatypes.S k).
Proof. intros H. rewrite <- mhd_T. destruct k as [|[|[|]]]; [| | |lia]; reflexivity. Qed.
Lemma U_b k : (k < 3)%nat -> Uc (5 + k)%nat = g * B (Datatypes.S k).
Proof.
  intros H. destruct u_facts as (N & _ & _ & P).
  destruct (bcon_ok G alpha beta ST B ucon N ltac:(lra)) as (_ & _ & Q).
  rewrite <- (Q (Datatypes.S k)) by lia. destruct k as [|[|[|]]]; [| | |lia]; reflexivity.
Qed.

Lemma raise_Q m : (m < 4)%nat ->
  raise Qcov gcon m = alpha * (eta0 * ucon 0%nat * ucon m + ptot * gcon 0%nat m - b 0%nat * b m).
Proof.
  intros Hm. destruct (st_inv G alpha beta ST) as [I J]. pose proof (gcon_sym G alpha beta ST) as Sy.
  pose proof (raise_lower G gcon ucon J) as RU. pose proof (raise_lower G gcon b J) as RB.
  rewrite <- (RU m Hm) at 1. rewrite <- (RB m Hm). rewrite (Sy 0%nat m) by lia.
  unfold raise, Qcov, T, ucov, bcov, delta. cbn [Nat.eqb]. ring.
Qed.
Definition Qdotn : R := - alpha * raise Qcov gcon 0%nat.
Lemma Qdotn_eq : - Qdotn = W + BB - pres - (BB + SB * SB) / (gam * gam) / 2.
Proof.
  unfold Qdotn. rewrite raise_Q by lia. rewrite (gcon_00 G alpha beta ST). pose proof Ha. pose proof gam1.
  replace (- (- alpha * (alpha * (eta0 * ucon 0%nat * ucon 0%nat + ptot * - / (alpha * alpha) - b 0%nat * b 0%nat))))
    with (eta0 * ((alpha * ucon 0%nat) * (alpha * ucon 0%nat)) - ptot - (alpha * b 0%nat) * (alpha * b 0%nat)) by (field; lra).
  rewrite b0_eq. destruct u_facts as (_ & _ & -> & _). unfold eta0, ptot. rewrite bsq_eq. unfold W. field. lra.
Qed.
(** the part of the momentum normal to n *)
Lemma Qt_eq m : (1 <= m < 4)%nat ->
  raise Qcov gcon m + raise (fun i => match i with O => - alpha | _ => 0 end) gcon m * Qdotn
  = ((W + BB) * U m - SB * Ba m) / gam.
Proof.
  intros Hm. pose proof Ha. pose proof gam1. pose proof (gcon_sym G alpha beta ST) as Sy.
  replace (raise (fun i => match i with O => - alpha | _ => 0 end) gcon m) with (- (beta m / alpha)).
  2:{ unfold raise. rewrite (Sy m 0%nat), (gcon_0i G alpha beta ST m) by lia. field. lra. }
  unfold Qdotn. rewrite !raise_Q by lia. rewrite (gcon_0i G alpha beta ST m) by lia. rewrite (gcon_00 G alpha beta ST).
  transitivity (alpha * ucon 0%nat * eta0 * shifted beta ucon m - alpha * b 0%nat * shifted beta b m).
  { unfold shifted. field. lra. }
  rewrite b_shift by lia. rewrite b0_eq. destruct u_facts as (_ & -> & -> & _); [|lia]. unfold eta0. rewrite bsq_eq.
  unfold W. field. lra.
Qed.
Lemma Qtsq_eq : sigma4 (fun i => Qcov i * raise Qcov gcon i) + Qdotn * Qdotn =
  ((W + BB) * (W + BB) * V - 2 * (W + BB) * (SB * SB) + SB * SB * BB) / (gam * gam).
Proof.
  pose proof Ha. pose proof gam1. pose proof (gcon_sym G alpha beta ST) as Sy.
  replace (sigma4 (fun i => Qcov i * raise Qcov gcon i)) with (inner gcon Qcov Qcov)
    by (unfold inner, raise, sigma4; ring).
  rewrite <- (inner_raise G alpha beta ST), (st_split G alpha beta ST).
  rewrite (spatial_ext _ (fun i => (W + BB) / gam * U i + - (SB / gam) * Ba i) _ (fun i => (W + BB) / gam * U i + - (SB / gam) * Ba i)).
  2,3: intros i Hi; transitivity (((W + BB) * U i - SB * Ba i) / gam); [|field; lra];
       rewrite <- Qt_eq by exact Hi;
       replace (raise (fun i => match i with O => - alpha | _ => 0 end) gcon i) with (- (beta i / alpha))
         by (unfold raise; rewrite (Sy i 0%nat), (gcon_0i G alpha beta ST i) by lia; field; lra);
       unfold shifted, Qdotn; field; lra.
  rewrite spatial_lin, (sp_sym G alpha beta ST U), (sp_sym G alpha beta ST Ba), !spatial_lin.
  rewrite (sp_sym G alpha beta ST U Ba). fold BB. fold SB. fold V. unfold Qdotn. field. lra.
Qed.
Lemma QdB_eq : sigma4 (fun i => Qcov i * Ba i) = W * SB / gam.
Proof.
  pose proof gam1.
  transitivity (alpha * ucon 0%nat * eta0 * inner G ucon Ba - alpha * b 0%nat * inner G b Ba).
  { rewrite (inner_sym G ucon Ba), (inner_sym G b Ba) by apply (st_sym G alpha beta ST). rewrite !inner_lower.
    fold ucov. fold bcov. unfold sigma4, Qcov, T, delta. replace (Ba 0%nat) with 0 by reflexivity. cbn [Nat.eqb]. ring. }
  rewrite u_dot_B, b_dot_B, b0_eq. destruct u_facts as (_ & _ & -> & _). unfold eta0. rewrite bsq_eq. unfold W. field. lra.
Qed.
Lemma BB_eq : sigma4 (fun i => Ba i * lower Ba G i) = BB.
Proof.
  unfold BB, Ba, lower, sigma4, spatial. cbn [Nat.eqb]. ring.
Qed.
Lemma D_eq : rho * ucon 0%nat * alpha = rho * gam.
Proof. destruct u_facts as (_ & _ & <- & _). ring. Qed.

Notation inp := (convert (fun i => Fin (Uc i)) geo).
Lemma f_eq x : (Fin (g * x) * Fin (lapse gcon) / Fin g)%X = Fin (alpha * x).
Proof. rewrite (lapse_alpha G alpha beta ST). cbn [xmul]. rewrite xdiv_fin by lra. f_equal. field. lra. Qed.
Lemma in_D : i_D inp = Fin (rho * gam).
Proof. unfold convert. cbn [i_D geo galpha gg]. rewrite U_rho, f_eq. f_equal. rewrite <- D_eq. ring. Qed.
Lemma in_Bcon i : (i < 4)%nat -> i_Bcon inp i = Fin (Ba i).
Proof.
  intros Hi. unfold convert. cbn [i_Bcon geo galpha gg]. destruct i as [|k]; [reflexivity|].
  rewrite U_b by lia. rewrite f_eq. reflexivity.
Qed.
Definition Qx (i : nat) : X := match i with
  | O => ((Fin (Uc 1%nat) - Fin (Uc 0%nat)) * Fin (lapse gcon) / Fin g)%X
  | Datatypes.S k => (Fin (Uc (2 + k)%nat) * Fin (lapse gcon) / Fin g)%X end.
Lemma Qx_eq i : (i < 4)%nat -> Qx i = Fin (Qcov i).
Proof.
  intros Hi. unfold Qx. destruct i as [|k].
  - cbn [xsub xopp xadd]. rewrite U_uu, U_rho.
    replace (g * (T 0%nat + rho * ucon 0%nat) + - (g * (rho * ucon 0%nat))) with (g * T 0%nat) by ring. apply f_eq.
  - rewrite U_u by lia. apply f_eq.
Qed.
Lemma xlower_fin m (v : nat -> X) (v' : vec) i : (forall k, (k < 4)%nat -> v k = Fin (v' k)) -> xlower m v i = Fin (lower v' m i).
Proof. intros H. unfold xlower. rewrite !H by lia. reflexivity. Qed.
Lemma xdot4_fin (v v' : nat -> X) (x y : vec) : (forall k, (k < 4)%nat -> v k = Fin (x k)) -> (forall k, (k < 4)%nat -> v' k = Fin (y k)) ->
  xdot4 v v' = Fin (sigma4 (fun i => x i * y i)).
Proof. intros H1 H2. unfold xdot4. rewrite !H1, !H2 by lia. cbn. f_equal. unfold sigma4. ring. Qed.
Lemma in_Bsq : i_Bsq inp = Fin BB.
Proof.
  change (i_Bsq inp) with (xdot4 (i_Bcon inp) (xlower G (i_Bcon inp))). rewrite <- BB_eq. apply xdot4_fin; [exact in_Bcon|].
  intros k _. apply xlower_fin. exact in_Bcon.
Qed.
Lemma in_QdB : i_QdB inp = Fin (W * SB / gam).
Proof.
  change (i_QdB inp) with (xdot4 Qx (i_Bcon inp)). rewrite <- QdB_eq. apply xdot4_fin; [exact Qx_eq|exact in_Bcon].
Qed.
Let nv : vec := fun i => match i with O => - alpha | _ => 0 end.
Definition nx (i : nat) : X := match i with O => Fin (- lapse gcon) | Datatypes.S _ => Fin 0 end.
Lemma nx_eq k : (k < 4)%nat -> nx k = Fin (nv k).
Proof. intros _. unfold nx, nv. rewrite (lapse_alpha G alpha beta ST). destruct k; reflexivity. Qed.
Lemma raise_lower_same v m i : raise v m i = lower v m i. Proof. reflexivity. Qed.
Lemma Qdotn_x : xdot4 (xlower gcon Qx) nx = Fin Qdotn.
Proof.
  rewrite (xdot4_fin _ _ (raise Qcov gcon) nv).
  - f_equal. unfold Qdotn, sigma4, nv. ring.
  - intros k _. apply xlower_fin. exact Qx_eq.
  - exact nx_eq.
Qed.
Lemma in_Qtcon m : (1 <= m < 4)%nat -> i_Qtcon inp m = Fin (((W + BB) * U m - SB * Ba m) / gam).
Proof.
  intros Hm. change (i_Qtcon inp m) with (xlower gcon Qx m + xlower gcon nx m * xdot4 (xlower gcon Qx) nx)%X.
  rewrite Qdotn_x, (xlower_fin _ _ _ m Qx_eq), (xlower_fin _ _ _ m nx_eq). cbn [xmul xadd]. f_equal.
  rewrite <- Qt_eq by exact Hm. reflexivity.
Qed.
Lemma in_Qtsq : i_Qtsq inp = Fin (((W + BB) * (W + BB) * V - 2 * (W + BB) * (SB * SB) + SB * SB * BB) / (gam * gam)).
Proof.
  change (i_Qtsq inp) with (xdot4 Qx (xlower gcon Qx) + xdot4 (xlower gcon Qx) nx * xdot4 (xlower gcon Qx) nx)%X.
  rewrite Qdotn_x, (xdot4_fin Qx _ Qcov (raise Qcov gcon) Qx_eq). 2: intros k _; apply xlower_fin; exact Qx_eq.
  cbn [xmul xadd]. now rewrite Qtsq_eq.
Qed.
Lemma in_Ep : i_Ep inp = Fin (W - rho * gam + BB - pres - (BB + SB * SB) / (gam * gam) / 2).
Proof.
  change (i_Ep inp) with (- xdot4 (xlower gcon Qx) nx - i_D inp)%X. rewrite Qdotn_x, in_D. cbn [xopp xsub xadd].
  rewrite Qdotn_eq. f_equal. ring.
Qed.

(** ** The residual and the recovered state *)
Variables (press_w : X -> X -> X) (p' : R).
Hypothesis Hp : press_w (Fin rho) (Fin w) = Fin p'.
Definition Wtrue : R := w * (gam * gam) - rho * gam.

Lemma Dg : rho * gam / gam = rho.
Proof. pose proof gam1. field. lra. Qed.
Lemma Wg : W / (gam * gam) = w.
Proof. pose proof gam1. unfold W. field. lra. Qed.
Lemma residual_exact :
  err_eqn press_w (i_Bsq inp) (i_D inp) (i_Ep inp) (i_QdB inp) (i_Qtsq inp) (Fin Wtrue) = Fin (pres - p').
Proof.
  rewrite in_Bsq, in_D, in_Ep, in_QdB, in_Qtsq. unfold Wtrue. fold W. pose proof gam1.
  apply (err_exact press_w W BB SB V gam (rho * gam) pres p' w); try exact gamsq; try exact W0; try exact BB0; try exact V0; try lra.
  - symmetry. exact Wg.
  - rewrite Dg. exact Hp.
Qed.
Lemma gamma_exact :
  gamma_func (i_Bsq inp) (i_D inp) (i_QdB inp) (i_Qtsq inp) (Fin Wtrue) = Fin gam.
Proof.
  rewrite in_Bsq, in_D, in_QdB, in_Qtsq. unfold Wtrue. fold W. pose proof gam1.
  apply gamma_func_exact; try exact gamsq; try exact W0; try exact BB0; try exact V0; lra.
Qed.

Variables (check_u : bool) (bad_cs : vars -> bool).
Hypothesis Hs : forall s, In s scalars -> (8 <= fst s)%nat.
Hypothesis Hpos : check_u = true -> 0 <= w - (rho + p').

Lemma put_scalars_val l : (forall s, In s l -> In s scalars) -> forall p i,
  (forall s s', In s scalars -> In s' scalars -> fst s = fst s' -> s = s') ->
  In i (map fst l) -> put_scalars (fun i => Fin (Uc i)) geo (Fin gam) l p i = Fin (sc i).
Proof.
  pose proof gam1 as G1. pose proof Ha as HA.
  induction l as [|[j m] l IH]; intros Sub p i F Hi; [destruct Hi|].
  unfold put_scalars in *. cbn [fold_left].
  destruct (in_dec Nat.eq_dec i (map fst l)) as [Y|N]; [apply IH; auto; intros; apply Sub; now right|].
  destruct Hi as [E|Hi]; [|contradiction]. cbn in E. subst j.
  assert (KEEP : forall l' p', ~ In i (map fst l') -> 
    fold_left (fun p (s : nat * bool) => let '(i, per_mass) := s in
      set p i (if per_mass then Fin (Uc i) / Fin (Uc 0%nat) else Fin (galpha geo) * Fin (Uc i) / (Fin gam * Fin (gg geo)))%X) l' p' i = p' i).
  { clear. induction l' as [|[k n] l' IHl]; intros p' N; [reflexivity|]. cbn [fold_left]. rewrite IHl; [|intros H; apply N; now right].
    apply set_other. intros ->. apply N. now left. }
  rewrite KEEP by exact N. rewrite set_same.
  assert (I8 : (8 <= i)%nat) by (apply (Hs (i, m)), Sub; now left).
  assert (EU : Uc i = g * (if m then rho * ucon 0%nat * sc i else sc i * ucon 0%nat)).
  { assert (EX : existsb (fun s => Nat.eqb (fst s) i && snd s) scalars = m).
    { destruct m.
      - apply existsb_exists. exists (i, true). split; [apply Sub; now left|]. cbn. now rewrite Nat.eqb_refl.
      - apply not_true_is_false. intros T0. apply existsb_exists in T0. destruct T0 as ([k n] & I & Q).
        cbn in Q. apply andb_prop in Q. destruct Q as [Q1 ->]. apply Nat.eqb_eq in Q1. subst k.
        specialize (F (i, true) (i, false) I (Sub _ (or_introl eq_refl)) eq_refl). discriminate. }
    do 8 (destruct i as [|i]; [lia|]). unfold primtoflux. rewrite EX. destruct m; reflexivity. }
  rewrite EU. destruct u_facts as (_ & _ & _ & P0). destruct m.
  - rewrite U_rho. rewrite xdiv_fin by (apply Rgt_not_eq; apply Rmult_lt_0_compat; [lra|apply Rmult_lt_0_compat; lra]).
    f_equal. field. repeat split; lra.
  - cbn [geo galpha gg xmul]. rewrite xdiv_fin by nra. rewrite (lapse_alpha G alpha beta ST). f_equal. rewrite ucon0. field. lra.
Qed.

Lemma recovered : (forall p, bad_cs p = false) -> 
  (forall s s', In s scalars -> In s' scalars -> fst s = fst s' -> s = s') -> forall guess,
  exists p, finish press_w check_u scalars bad_cs (fun i => Fin (Uc i)) geo inp (Fin Wtrue)
      (set_B (fun i => Fin (Uc i)) g guess) = Some (0%Z, p) /\
    p 0%nat = Fin rho /\ p 1%nat = Fin (w - (rho + p')) /\
    (forall m, (1 <= m < 4)%nat -> p (Datatypes.S m) = Fin (U m)) /\
    (forall m, (1 <= m < 4)%nat -> p (4 + m)%nat = Fin (B m)) /\
    (forall i, In i (map fst scalars) -> p i = Fin (sc i)).
Proof.
  intros CS F guess. pose proof gam1 as G1. pose proof W0 as HW. pose proof BB0 as HB.
  unfold finish. rewrite gamma_exact. rewrite in_D. cbn [xltb]. rewrite (Rltb_false gam 1) by lra.
  rewrite xdiv_fin by lra. rewrite Dg. cbn [xltb xadd xmul]. rewrite (Rltb_false rho 0) by lra.
  replace (Wtrue + rho * gam) with W by (unfold Wtrue, W; ring).
  rewrite (xdiv_fin W (gam * gam)) by nra. rewrite Wg, Hp. cbn [xadd xsub xopp xltb].
  assert (CU : check_u && Rltb (w + - (rho + p')) 0 = false).
  { destruct check_u; [|reflexivity]. cbn [andb]. apply Rltb_false. specialize (Hpos eq_refl). lra. }
  rewrite CU. rewrite CS. eexists. split; [reflexivity|].
  match goal with |- context [fold_left ?f scalars ?b] => change (fold_left f scalars b) with (put_scalars (fun i => Fin (Uc i)) geo (Fin gam) scalars b); set (base := b) end.
  assert (VEL : forall m, (1 <= m < 4)%nat ->
    (Fin gam / (Fin W + i_Bsq inp) * (i_Qtcon inp m + i_QdB inp * i_Bcon inp m / Fin W))%X = Fin (U m)).
  { intros m Hm. rewrite in_Bsq, in_Qtcon, in_QdB, in_Bcon by lia. cbn [xadd xmul].
    rewrite !xdiv_fin by lra. cbn [xadd xmul]. f_equal. field. repeat split; lra. }
  rewrite !put_scalars_low by (try exact Hs; lia). split; [reflexivity|]. split; [reflexivity|].
  split; [|split].
  - intros m Hm. rewrite put_scalars_low by (try exact Hs; lia). unfold base. rewrite <- (VEL m Hm).
    destruct m as [|[|[|[|]]]]; try lia; reflexivity.
  - intros m Hm. rewrite put_scalars_low by (try exact Hs; lia). unfold base. rewrite !set_other by lia.
    rewrite set_B_in by lia. rewrite xdiv_fin by lra. f_equal.
    replace (4 + m)%nat with (5 + (m - 1))%nat by lia. rewrite U_b by lia. replace (Datatypes.S (m - 1)) with m by lia. field. lra.
  - intros i Hi. apply put_scalars_val; auto.
Qed.

(** The starting guess made from the true primitives. *)
Lemma guess_exact press_u (prim : vars) : press_u (Fin rho) (Fin u) = Fin pres -> small = 0 ->
  V <= 1000 * GAMMAMAX * GAMMAMAX ->
  prim 0%nat = Fin rho -> prim 1%nat = Fin u -> (forall m, (1 <= m < 4)%nat -> prim (Datatypes.S m) = Fin (U m)) ->
  Wp_func press_u prim G = Some (Fin Wtrue).
Proof.
  intros HP HS HV P0 P1 PV. unfold Wp_func. cbv zeta. rewrite P0, P1, HP. rewrite !PV by lia. cbn [xadd xmul xsub xopp].
  match goal with |- context [xltb (Fin ?x) (Fin 0) && _] => assert (E : x = V) end.
  { unfold V, spatial. ring. }
  rewrite E. pose proof V0. cbn [xltb]. rewrite (Rltb_false V 0) by lra. cbn [andb xltb]. rewrite (Rltb_false V 0) by lra.
  rewrite Rltb_false by exact HV. cbn [orb xabs xadd]. rewrite Rabs_right by lra. rewrite xsqrt_fin by lra.
  f_equal. cbn [xadd xmul xsub xopp]. f_equal. unfold V. fold gam. unfold Wtrue. rewrite HS. ring.
Qed.
End Vec.

(** A zero residual with a definite slope ends the iteration where it started. *)
Lemma solve_fixed e w a b : 0 < w -> e (Fin w) = Fin 0 -> e (Fin ((1 - DEL) * w)) = Fin a -> e (Fin (w + (w + - ((1 - DEL) * w)))) = Fin b ->
  a <> b -> solve e (Fin w) = Some (Fin w).
Proof.
  intros P E0 Ea Eb N. unfold solve. cbv zeta. cbn [xsub xopp xadd xmul]. 
  replace (1 + - DEL) with (1 - DEL) by ring. rewrite E0, Ea, Eb. cbn [xadd xmul xopp xsub].
  assert (D1 : 0 < DEL) by (unfold DEL; lra).
  set (h := w + - ((1 - DEL) * w)). assert (Hh : 0 < h) by (unfold h; nra).
  assert (X2 : w + h + - ((1 - DEL) * w) = 2 * h) by (unfold h; ring). rewrite X2.
  rewrite (xdiv_fin (b + - a)) by lra. rewrite (xdiv_fin _ (h * h)) by nra.
  assert (SL : (b + - a) / (2 * h) <> 0).
  { unfold Rdiv. apply Rmult_integral_contrapositive_currified; [lra|]. apply Rinv_neq_0_compat. lra. }
  set (s := (b + - a) / (2 * h)) in *. cbn [xmul].
  rewrite (xdiv_fin _ (s * s)) by (apply Rmult_integral_contrapositive_currified; assumption).
  rewrite Ropp_0. rewrite (xdiv_fin 0 s) by exact SL.
  assert (Z : forall z, 0 / z = 0) by (intros; unfold Rdiv; ring).
  assert (Z2 : 5 / 10 * 0 * ((b + - (2 * 0) + a) / (h * h)) / (s * s) = 0) by (unfold Rdiv; ring).
  assert (LIM : xmin (xmax (Fin (- (3 / 10))) (Fin (5 / 10 * 0 * ((b + - (2 * 0) + a) / (h * h)) / (s * s)))) (Fin (3 / 10)) = Fin 0).
  { rewrite Z2. unfold xmin, xmax. cbn [xltb]. rewrite (Rltb_false 0 (- (3 / 10))) by lra. cbn [xltb]. now rewrite Rltb_true by lra. }
  rewrite LIM. cbn [xopp xadd]. rewrite Z, (xdiv_fin 0) by lra. rewrite Z.
  assert (L2 : limited (Fin w) (Fin 0) = Fin w).
  { unfold limited, xmin, xmax. cbn [xmul xltb xopp]. rewrite (Rltb_true 0 (2 * w)) by lra. cbn [xltb].
    rewrite Rltb_true by lra. cbn [xadd]. f_equal. ring. }
  rewrite L2, E0. unfold ITERMAX. cbn [secant]. rewrite xdiv_fin by lra. rewrite Z. cbn [xabs xltb]. rewrite Rabs_R0, Rltb_false; [reflexivity|].
  unfold ERRTOL. lra.
Qed.
