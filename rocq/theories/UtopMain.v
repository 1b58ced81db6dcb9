(** The inversion of conserved variables built from an adiabatic gas. *)
From Coq Require Import Reals ZArith List Bool Lia Lra.
From Verif Require Import RLib XLib FluxModel GeomModel GeomSpec GeomProofs SpaceProofs NullProofs UtopModel UtopSpec UtopProofs UtopExact UtopWit.
Import ListNotations.
Open Scope R_scope.

Section Main.
Variables (G : mat) (alpha : R) (beta : vec) (g small gam rho u : R) (B U ucon : vec) (scalars : list (nat * bool)) (sc : nat -> R).
Hypothesis ST : spacetime G alpha beta.
Hypothesis Hg : 0 < g.
Hypothesis Hs : 0 <= small.
Hypothesis Hgam : 1 < gam.
Hypothesis Hrho : 0 < rho.
Hypothesis Hu : 0 <= u.
Hypothesis HU : ucon_calc G (fst (gcon_func G)) (lapse (fst (gcon_func G))) U = Some ucon.
Hypothesis EX : extra_vars scalars.
Notation Uc := (fun i => Fin (primtoflux small (ideal gam) scalars (geometry G g) rho u B sc ucon 0 i)).
Let W := (rho + small + gam * u) * (lorentz G U * lorentz G U) - rho * lorentz G U.

Lemma w_eq : ideal gam (rho + small) u + (rho + small) + u = rho + small + gam * u.
Proof. unfold ideal. ring. Qed.
Lemma w_pos : 0 < ideal gam (rho + small) u + (rho + small) + u.
Proof. rewrite w_eq. nra. Qed.
Lemma W_eq : Wtrue G small (ideal gam) rho u U = W.
Proof. unfold Wtrue, W. cbv zeta. rewrite w_eq. reflexivity. Qed.
Let p' := (gam - 1) * u + small * (gam - 1) / gam.
Lemma p_eq : gamma_press_w gam (Fin rho) (Fin (ideal gam (rho + small) u + (rho + small) + u)) = Fin p'.
Proof. rewrite gamma_press_w_fin by lra. f_equal. rewrite w_eq. unfold p'. field. lra. Qed.
Lemma main_residual : residual (gamma_press_w gam) Uc (geometry G g) (Fin W) = Fin (- (small * (gam - 1) / gam)).
Proof.
  rewrite <- W_eq. unfold residual. cbv zeta.
  etransitivity; [exact (residual_exact G alpha beta ST g Hg small (ideal gam) rho u B U ucon Hrho w_pos HU scalars sc (gamma_press_w gam) p' p_eq)|].
  f_equal. unfold ideal, p'. ring.
Qed.
Lemma main_recovered check_u bad_cs guess : (forall p, bad_cs p = false) ->
  exists p, finish (gamma_press_w gam) check_u scalars bad_cs Uc (geometry G g) (convert Uc (geometry G g)) (Fin W)
      (set_B Uc g guess) = Some (0%Z, p) /\ holds p rho (u + small / gam) U B scalars sc.
Proof.
  intros CS. destruct EX as [E1 E2].
  assert (UE : ideal gam (rho + small) u + (rho + small) + u - (rho + p') = u + small / gam).
  { rewrite w_eq. unfold p'. field. lra. }
  assert (UP : 0 <= u + small / gam).
  { assert (0 <= small / gam) by (unfold Rdiv; apply Rmult_le_pos; [lra|apply Rlt_le, Rinv_0_lt_compat; lra]). lra. }
  destruct (recovered G alpha beta ST g Hg small (ideal gam) rho u B U ucon Hrho w_pos HU scalars sc (gamma_press_w gam) p' p_eq
    check_u bad_cs E1 ltac:(intros _; rewrite UE; exact UP) CS E2 guess) as (p & E & H0 & H1 & H2 & H3 & H4).
  rewrite W_eq in E. exists p. split; [exact E|]. rewrite UE in H1. repeat split; assumption.
Qed.
Lemma main_fixed check_u bad_cs guess a b : (forall p, bad_cs p = false) -> small = 0 ->
  spatial G U U <= 1000 * GAMMAMAX * GAMMAMAX -> 0 < u -> holds guess rho u U B scalars sc ->
  residual (gamma_press_w gam) Uc (geometry G g) (Fin ((1 - DEL) * W)) = Fin a ->
  residual (gamma_press_w gam) Uc (geometry G g) (Fin (W + (W - (1 - DEL) * W))) = Fin b -> a <> b ->
  exists p, Utoprim (gamma_press_w gam) (gamma_press_u gam) check_u scalars bad_cs Uc (geometry G g) guess = Some (0%Z, p) /\
    holds p rho u U B scalars sc.
Proof.
  intros CS Z HV Hup (P0 & P1 & PV & PB & _) Ea Eb NE.
  destruct (main_recovered check_u bad_cs guess CS) as (p & E & H). exists p.
  rewrite Z in H. replace (u + 0 / gam) with u in H by (field; lra). split; [|exact H]. rewrite <- E.
  unfold Utoprim.
  assert (U0 : Uc 0%nat = Fin (g * (rho * ucon 0%nat))) by reflexivity.
  destruct (ucon_ok G alpha beta ST U) as (u' & E' & _ & UP & _). rewrite HU in E'. injection E' as <-.
  rewrite U0 at 1. change (xleb (Fin (g * (rho * ucon 0%nat))) (Fin 0)) with (Rleb (g * (rho * ucon 0%nat)) 0).
  rewrite Rleb_false by (apply Rmult_lt_0_compat; [lra|apply Rmult_lt_0_compat; lra]).
  change (gcov (geometry G g)) with G.
  rewrite (guess_exact G alpha beta ST small (ideal gam) rho u U (gamma_press_u gam)).
  - rewrite W_eq. rewrite (solve_fixed _ W a b); [reflexivity| | | | |exact NE].
    + unfold W. rewrite Z. pose proof (gamma_ge1 G alpha beta ST U) as G1. fold (lorentz G U) in G1.
      assert (lorentz G U * 1 <= lorentz G U * lorentz G U) by nra. assert (0 < gam * u) by nra. nra.
    + transitivity (Fin (- (small * (gam - 1) / gam))); [exact main_residual|]. f_equal. rewrite Z. field. lra.
    + exact Ea.
    + exact Eb.
  - unfold gamma_press_u, ideal. reflexivity.
  - exact Z.
  - exact HV.
  - rewrite set_B_out by lia. exact P0.
  - rewrite set_B_out by lia. exact P1.
  - intros m Hm. rewrite set_B_out by lia. now apply PV.
Qed.
Lemma main_ye i : In (i, true) scalars -> 0 < sc i ->
  table_ye small (geometry G g) (primtoflux small (ideal gam) scalars (geometry G g) rho u B sc ucon 0 i) (lorentz G U) rho
  = rho * sc i / (rho + small).
Proof.
  intros Hi Hy. destruct EX as [E1 E2]. pose proof (E1 _ Hi) as L. cbn in L.
  assert (EU : primtoflux small (ideal gam) scalars (geometry G g) rho u B sc ucon 0 i = g * (rho * ucon 0%nat * sc i)).
  { do 8 (destruct i as [|i]; [lia|]). unfold primtoflux.
    assert (EX' : existsb (fun s => Nat.eqb (fst s) (S (S (S (S (S (S (S (S i)))))))) && snd s) scalars = true).
    { apply existsb_exists. eexists. split; [exact Hi|]. cbn [fst snd]. now rewrite Nat.eqb_refl. }
    rewrite EX'. reflexivity. }
  unfold table_ye. cbv zeta. rewrite EU. cbn [geometry galpha gg].
  destruct (ucon_ok G alpha beta ST U) as (u' & E' & _ & UP & _ & _ & GU). rewrite HU in E'. injection E' as <-.
  pose proof (gamma_ge1 G alpha beta ST U) as G1. rewrite (lapse_alpha G alpha beta ST). unfold lorentz. rewrite <- GU in *.
  pose proof (st_alpha G alpha beta ST). 
  replace (alpha * (g * (rho * ucon 0%nat * sc i)) / (alpha * ucon 0%nat * g)) with (rho * sc i) by (field; repeat split; lra).
  rewrite !Rabs_right by (try lra; apply Rle_ge, Rlt_le, Rmult_lt_0_compat; lra). reflexivity.
Qed.
End Main.
Lemma floor_residual : exists G g gam rho u B U ucon,
  ucon_calc G (fst (gcon_func G)) (lapse (fst (gcon_func G))) U = Some ucon /\
  exists r, r < 0 /\
  residual (gamma_press_w gam)
    (fun i => Fin (primtoflux (/ 10 ^ 20) (ideal gam) [] (geometry G g) rho u B (fun _ => 0) ucon 0 i)) (geometry G g)
    (Fin ((rho + / 10 ^ 20 + gam * u) * (lorentz G U * lorentz G U) - rho * lorentz G U)) = Fin r.
Proof.
  destruct (ucon_ok (drift 2) 1 (drift_beta 2) (drift_st 2) mover) as (uc & E & _).
  exists (drift 2), 1, 2, 1, 1, mover_B, mover, uc. split; [exact E|]. exists (- (/ 10 ^ 20 * (2 - 1) / 2)). split; [lra|].
  apply (main_residual (drift 2) 1 (drift_beta 2)); try exact E; try lra. apply drift_st.
Qed.
Lemma nan_success : exists U guess p, 
  (forall i, i <> 1%nat -> exists r, U i = Fin r) /\ (forall i, exists r, guess i = Fin r) /\
  Utoprim (gamma_press_w 2) (gamma_press_u 2) true [] (fun _ => false) U flat_geo guess = Some (0%Z, p) /\
  p 0%nat = NaN /\ p 1%nat = NaN.
Proof.
  set (U := fun i => if Nat.eqb i 1 then NaN else Fin (space_U i)).
  destruct (nan_accepted (gamma_press_w 2) (gamma_press_u 2) true [] (fun _ => false) U flat_geo (fun i => Fin (space_guess i)) 3 1)
    as (p & E & H0 & H1 & _); try reflexivity; try lra; try (intros s []).
  - exact space_guess_W.
  - exists U, (fun i => Fin (space_guess i)), p. split; [|split; [eauto|split; [exact E|auto]]].
    intros i Hi. unfold U. apply Nat.eqb_neq in Hi. rewrite Hi. eauto.
Qed.

(** Gas at rest: the slope condition of the fixed point holds. *)
Definition rest : vec := fun _ => 0.
Lemma rest_slope uc : ucon_calc (drift 0) (fst (gcon_func (drift 0))) (lapse (fst (gcon_func (drift 0)))) rest = Some uc ->
  let Uc := fun i => Fin (primtoflux 0 (ideal 2) [] (geometry (drift 0) 1) 1 1 rest rest uc 0 i) in
  exists a b, residual (gamma_press_w 2) Uc (geometry (drift 0) 1) (Fin ((1 - DEL) * 2)) = Fin a /\
    residual (gamma_press_w 2) Uc (geometry (drift 0) 1) (Fin (2 + (2 - (1 - DEL) * 2))) = Fin b /\ a <> b.
Proof.
  intros HU Uc. pose proof (drift_st 0) as ST.
  assert (SP : forall p q : vec, (forall i, (1 <= i < 4)%nat -> p i = 0) -> spatial (drift 0) p q = 0).
  { intros p q Z. unfold spatial. rewrite !Z by lia. ring. }
  assert (WP : 0 < ideal 2 (1 + 0) 1 + (1 + 0) + 1) by (unfold ideal; lra).
  assert (S1 : sqrt (1 + spatial (drift 0) rest rest) = 1) by (rewrite SP by reflexivity; rewrite Rplus_0_r; apply sqrt_1).
  assert (ZB : forall i : nat, (1 <= i < 4)%nat -> (if Nat.eqb i 0 then 0 else 1 * rest i) = 0).
  { intros [|i] Hi; [lia|]. unfold rest. cbn [Nat.eqb]. ring. }
  assert (ED : i_D (convert Uc (geometry (drift 0) 1)) = Fin 1).
  { etransitivity; [exact (in_D (drift 0) 1 (drift_beta 0) ST 1 ltac:(lra) 0 (ideal 2) 1 1 rest rest uc HU [] rest)|].
    cbv zeta. rewrite S1. f_equal. ring. }
  assert (EB : i_Bsq (convert Uc (geometry (drift 0) 1)) = Fin 0).
  { etransitivity; [exact (in_Bsq (drift 0) 1 (drift_beta 0) ST 1 ltac:(lra) 0 (ideal 2) 1 1 rest rest uc HU [] rest)|].
    cbv zeta. now rewrite SP by exact ZB. }
  assert (EQ : i_QdB (convert Uc (geometry (drift 0) 1)) = Fin 0).
  { etransitivity; [exact (in_QdB (drift 0) 1 (drift_beta 0) ST 1 ltac:(lra) 0 (ideal 2) 1 1 rest rest uc ltac:(lra) HU [] rest)|].
    cbv zeta. rewrite !(SP _ rest) by first [exact ZB|reflexivity]. f_equal. unfold Rdiv. ring. }
  assert (ET : i_Qtsq (convert Uc (geometry (drift 0) 1)) = Fin 0).
  { etransitivity; [exact (in_Qtsq (drift 0) 1 (drift_beta 0) ST 1 ltac:(lra) 0 (ideal 2) 1 1 rest rest uc ltac:(lra) HU [] rest)|].
    cbv zeta. rewrite !S1. rewrite !(SP _ rest) by first [exact ZB|reflexivity]. f_equal. unfold Rdiv. ring. }
  assert (EE : i_Ep (convert Uc (geometry (drift 0) 1)) = Fin 1).
  { etransitivity; [exact (in_Ep (drift 0) 1 (drift_beta 0) ST 1 ltac:(lra) 0 (ideal 2) 1 1 rest rest uc ltac:(lra) HU [] rest)|].
    cbv zeta. rewrite !S1. rewrite !SP by first [exact ZB|reflexivity]. f_equal. unfold ideal, Rdiv. lra. }
  unfold residual. cbv zeta. rewrite ED, EB, EQ, ET, EE.
  assert (K : forall w, 0 < w -> err_eqn (gamma_press_w 2) (Fin 0) (Fin 1) (Fin 1) (Fin 0) (Fin 0) (Fin w) = Fin (-1 + w / 2)).
  { intros w Hw. unfold err_eqn. cbv zeta.
    assert (EG : gamma_func (Fin 0) (Fin 1) (Fin 0) (Fin 0) (Fin w) = Fin 1).
    { unfold gamma_func. cbv zeta. cbn [xadd xmul xopp xsub]. rewrite xdiv_fin.
      - match goal with |- context [xabs (Fin ?x)] => replace x with 0 by (unfold Rdiv; ring) end.
        cbn [xabs xadd]. rewrite Rabs_R0, Rplus_0_r, xsqrt_fin by lra. now rewrite sqrt_1.
      - assert (0 < (1 + w) * (1 + w)) by nra. intros C.
        assert (0 < (1 + w) * (1 + w) * ((1 + w) * (1 + w))) by nra. lra. }
    rewrite EG. cbn [xadd xmul]. rewrite (xdiv_fin (w + 1)), (xdiv_fin 1 1) by lra. rewrite gamma_press_w_fin by lra.
    cbn [xadd xmul xsub xopp]. rewrite xdiv_fin by nra. cbn [xadd]. f_equal. field. lra. }
  assert (0 < DEL < 1 / 2) by (unfold DEL; lra).
  do 2 eexists. split; [apply K; lra|]. split; [apply K; lra|]. lra.
Qed.
