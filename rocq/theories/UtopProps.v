(** Property theorems C15-C17, C74-C76 (conserved to primitive variables). *)
From Coq Require Import Reals ZArith List Bool Lia Lra.
From Verif Require Import RLib XLib FluxModel GeomModel GeomSpec NullProofs SpaceProofs UtopModel UtopSpec UtopProofs UtopExact UtopWit UtopMain UtopConv.
Import ListNotations.
Open Scope R_scope.

(** C15.  The inversion always returns, with one of the listed codes. *)
Theorem C15_codes : forall press_w press_u check_u scalars bad_cs U ge prim,
  exists c p, Utoprim press_w press_u check_u scalars bad_cs U ge prim = Some (c, p) /\
  (c = (-100)%Z \/ c = 0%Z \/ c = 1%Z \/ c = 2%Z \/ c = 5%Z \/ c = 6%Z /\ bad_cs p = true).
Proof. exact utoprim_defined. Qed.
Print Assumptions C15_codes.
(** The field is always the conserved one over the determinant. *)
Theorem C15_field : forall press_w press_u check_u scalars bad_cs U ge prim c p,
  (forall s, In s scalars -> (8 <= fst s)%nat) ->
  Utoprim press_w press_u check_u scalars bad_cs U ge prim = Some (c, p) ->
  forall i, (5 <= i < 8)%nat -> p i = (U i / Fin (gg ge))%X.
Proof. exact utoprim_B. Qed.
Print Assumptions C15_field.
(** Failure codes leave everything else untouched. *)
Theorem C15_untouched : forall press_w press_u check_u scalars bad_cs U ge prim c p,
  Utoprim press_w press_u check_u scalars bad_cs U ge prim = Some (c, p) -> c <> 0%Z -> c <> 6%Z ->
  forall i, ~ (5 <= i < 8)%nat -> p i = prim i.
Proof. exact utoprim_untouched. Qed.
Print Assumptions C15_untouched.
(** Conserved density not positive: code -100. *)
Theorem C15_negative : forall press_w press_u check_u scalars bad_cs U ge prim,
  (U 0%nat = NInf \/ exists d, U 0%nat = Fin d /\ d <= 0) ->
  exists p, Utoprim press_w press_u check_u scalars bad_cs U ge prim = Some ((-100)%Z, p) /\
  forall i, ~ (5 <= i < 8)%nat -> p i = prim i.
Proof. exact utoprim_negative. Qed.
Print Assumptions C15_negative.
(** Success with finite density, energy and velocity: positive density,
    non-negative energy when the equation of state checks it. *)
Theorem C15_positive : forall press_w press_u check_u scalars bad_cs U ge prim c p rho u v,
  0 < gg ge -> 0 < galpha ge -> (forall s, In s scalars -> (8 <= fst s)%nat) ->
  Utoprim press_w press_u check_u scalars bad_cs U ge prim = Some (c, p) -> c = 0%Z \/ c = 6%Z ->
  p 0%nat = Fin rho -> p 1%nat = Fin u -> p 2%nat = Fin v -> 0 < rho /\ (check_u = true -> 0 <= u).
Proof. exact utoprim_success. Qed.
Print Assumptions C15_positive.
(** Without finiteness it fails: a NaN conserved energy with positive density is
    reported as success, whatever the other conserved variables, and all five
    fluid primitives become NaN. *)
Theorem C15_nan_accepted : forall press_w press_u check_u scalars bad_cs U ge prim w d,
  U 0%nat = Fin d -> 0 < d -> U 1%nat = NaN ->
  Wp_func press_u (set_B U (gg ge) prim) (gcov ge) = Some (Fin w) -> 0 < w ->
  (forall p, bad_cs p = false) -> (forall s, In s scalars -> (8 <= fst s)%nat) ->
  exists p, Utoprim press_w press_u check_u scalars bad_cs U ge prim = Some (0%Z, p) /\
    p 0%nat = NaN /\ p 1%nat = NaN /\ p 2%nat = NaN /\ p 3%nat = NaN /\ p 4%nat = NaN.
Proof. exact nan_accepted. Qed.
Print Assumptions C15_nan_accepted.
Theorem C15_success_refuted : exists U guess p, 
  (forall i, i <> 1%nat -> exists r, U i = Fin r) /\ (forall i, exists r, guess i = Fin r) /\
  Utoprim (gamma_press_w 2) (gamma_press_u 2) true [] (fun _ => false) U flat_geo guess = Some (0%Z, p) /\
  p 0%nat = NaN /\ p 1%nat = NaN.
Proof. exact nan_success. Qed.
Print Assumptions C15_success_refuted.
Example C15_nonvacuous :
  (exists p, Utoprim (gamma_press_w 2) (gamma_press_u 2) true [] (fun _ => false) (fun i => Fin (space_U i)) flat_geo
     (fun i => Fin (space_guess i)) = Some (0%Z, p) /\ p 0%nat = Fin (1 / 2) /\ p 1%nat = Fin (1 / 4) /\ p 2%nat = Fin 2) /\
  Wp_func (gamma_press_u 2) (set_B (fun i => Fin (space_U i)) (gg flat_geo) (fun i => Fin (space_guess i))) (gcov flat_geo) = Some (Fin 3).
Proof.
  split; [|exact space_guess_W]. destruct wild_result as (p & E & H0 & H1 & H2 & _). exists p. auto.
Qed.

(** C16.  Whatever the error function returns (any extended real), a step keeps
    the unknown within a factor [1/2, 3], *)
Theorem C16_step : forall w dW, 0 < w -> exists w', limited (Fin w) dW = Fin w' /\ w / 2 <= w' <= 3 * w.
Proof. exact limited_pos. Qed.
Print Assumptions C16_step.
(** the final unknown is finite and positive, *)
Theorem C16_result : forall err_of w W, 0 < w -> solve err_of (Fin w) = Some W ->
  exists w', W = Fin w' /\ (1 / 2) ^ 9 * w <= w' <= 3 ^ 9 * w.
Proof. exact solve_range. Qed.
Print Assumptions C16_result.
(** and the error function is only ever consulted there: functions that agree on
    that range give the same answer. *)
Theorem C16_consulted : forall e1 e2 w, 0 < w ->
  (forall x, (1 / 2) ^ 9 * w <= x <= 3 ^ 9 * w -> e1 (Fin x) = e2 (Fin x)) ->
  solve e1 (Fin w) = solve e2 (Fin w).
Proof. exact solve_agree. Qed.
Print Assumptions C16_consulted.
(** Primitives with positive density and energy give a positive start. *)
Theorem C16_start : forall gam prim G rho u v1 v2 v3 W, 1 < gam -> prim 0%nat = Fin rho -> prim 1%nat = Fin u ->
  prim 2%nat = Fin v1 -> prim 3%nat = Fin v2 -> prim 4%nat = Fin v3 -> 0 < rho -> 0 < u ->
  Wp_func (gamma_press_u gam) prim G = Some W -> exists w, W = Fin w /\ 0 < w.
Proof. exact guess_pos. Qed.
Print Assumptions C16_start.
Example C16_nonvacuous : limited (Fin 2) NaN = Fin 6 /\ limited (Fin 2) NInf = Fin 1 /\ solve (fun _ => NaN) (Fin 2) = Some (Fin 6).
Proof.
  assert (A : limited (Fin 2) NaN = Fin 6).
  { unfold limited, xmin, xmax. cbn [xltb xmul xopp]. rewrite Rltb_true by lra. cbn [xadd]. f_equal. lra. }
  split; [exact A|]. split.
  - unfold limited, xmin, xmax. cbn [xltb xmul xopp]. cbn [xadd]. f_equal. lra.
  - unfold solve. cbv zeta. cbn [xsub xadd xopp xdiv]. rewrite A. reflexivity.
Qed.

(** C17.  Conserved variables built from positive density, non-negative energy, any
    velocity, field and scalars, on any metric in 3+1 form.  [small] is what
    phys.c adds to the density.  At the true unknown the residual is
    -small (gam-1)/gam ... *)
Theorem C17_residual : forall G alpha beta g small gam rho u B U ucon scalars sc,
  spacetime G alpha beta -> 0 < g -> 0 <= small -> 1 < gam -> 0 < rho -> 0 <= u ->
  ucon_calc G (fst (gcon_func G)) (lapse (fst (gcon_func G))) U = Some ucon ->
  residual (gamma_press_w gam)
    (fun i => Fin (primtoflux small (ideal gam) scalars (geometry G g) rho u B sc ucon 0 i)) (geometry G g)
    (Fin ((rho + small + gam * u) * (lorentz G U * lorentz G U) - rho * lorentz G U))
  = Fin (- (small * (gam - 1) / gam)).
Proof. exact main_residual. Qed.
Print Assumptions C17_residual.
(** ... and there the code writes back the original state, except that the
    energy is larger by small/gam. *)
Theorem C17_recovered : forall G alpha beta g small gam rho u B U ucon scalars sc,
  spacetime G alpha beta -> 0 < g -> 0 <= small -> 1 < gam -> 0 < rho -> 0 <= u ->
  ucon_calc G (fst (gcon_func G)) (lapse (fst (gcon_func G))) U = Some ucon -> extra_vars scalars ->
  forall check_u bad_cs guess, (forall p, bad_cs p = false) ->
  let Uc := fun i => Fin (primtoflux small (ideal gam) scalars (geometry G g) rho u B sc ucon 0 i) in
  exists p, finish (gamma_press_w gam) check_u scalars bad_cs Uc (geometry G g) (convert Uc (geometry G g))
      (Fin ((rho + small + gam * u) * (lorentz G U * lorentz G U) - rho * lorentz G U))
      (set_B Uc g guess) = Some (0%Z, p) /\ holds p rho (u + small / gam) U B scalars sc.
Proof. exact main_recovered. Qed.
Print Assumptions C17_recovered.
(** Without the floor, the whole inversion started from the exact primitives
    returns them, if the residual takes two different finite values at the two
    neighbouring points that give the slope. *)
Theorem C17_fixed_point_partial : forall G alpha beta g small gam rho u B U ucon scalars sc,
  spacetime G alpha beta -> 0 < g -> 0 <= small -> 1 < gam -> 0 < rho -> 0 <= u ->
  ucon_calc G (fst (gcon_func G)) (lapse (fst (gcon_func G))) U = Some ucon -> extra_vars scalars ->
  forall check_u bad_cs guess a b, (forall p, bad_cs p = false) -> small = 0 ->
  spatial G U U <= 1000 * GAMMAMAX * GAMMAMAX -> 0 < u -> holds guess rho u U B scalars sc ->
  let Uc := fun i => Fin (primtoflux small (ideal gam) scalars (geometry G g) rho u B sc ucon 0 i) in
  let W := (rho + small + gam * u) * (lorentz G U * lorentz G U) - rho * lorentz G U in
  residual (gamma_press_w gam) Uc (geometry G g) (Fin ((1 - DEL) * W)) = Fin a ->
  residual (gamma_press_w gam) Uc (geometry G g) (Fin (W + (W - (1 - DEL) * W))) = Fin b -> a <> b ->
  exists p, Utoprim (gamma_press_w gam) (gamma_press_u gam) check_u scalars bad_cs Uc (geometry G g) guess = Some (0%Z, p) /\
    holds p rho u U B scalars sc.
Proof. exact main_fixed. Qed.
Print Assumptions C17_fixed_point_partial.
(** With the code's floor 1e-20 the residual at the true unknown is not zero. *)
Theorem C17_exact_refuted : exists G g gam rho u B U ucon,
  ucon_calc G (fst (gcon_func G)) (lapse (fst (gcon_func G))) U = Some ucon /\
  exists r, r < 0 /\
  residual (gamma_press_w gam)
    (fun i => Fin (primtoflux (/ 10 ^ 20) (ideal gam) [] (geometry G g) rho u B (fun _ => 0) ucon 0 i)) (geometry G g)
    (Fin ((rho + / 10 ^ 20 + gam * u) * (lorentz G U * lorentz G U) - rho * lorentz G U)) = Fin r.
Proof. exact floor_residual. Qed.
Print Assumptions C17_exact_refuted.
Example C17_nonvacuous : spacetime (drift 2) 1 (drift_beta 2) /\ lorentz (drift 2) mover = 5 / 4 /\
  (exists uc, ucon_calc (drift 2) (fst (gcon_func (drift 2))) (lapse (fst (gcon_func (drift 2)))) mover = Some uc) /\
  extra_vars [(8%nat, true); (9%nat, false)].
Proof.
  split; [apply drift_st|]. split; [|split].
  - unfold lorentz. rewrite drift_spatial. unfold mover. cbn [nth].
    replace (1 + (3 / 4 * (3 / 4) + 0 * 0 + 0 * 0)) with (5 / 4 * (5 / 4)) by lra. apply sqrt_square. lra.
  - destruct (ucon_ok (drift 2) 1 (drift_beta 2) (drift_st 2) mover) as (uc & E & _). eauto.
  - split.
    + intros s [<-|[<-|[]]]; cbn; lia.
    + intros s s' [<-|[<-|[]]] [<-|[<-|[]]]; cbn; intros; congruence.
Qed.

Example C17_fixed_nonvacuous : exists uc,
  ucon_calc (drift 0) (fst (gcon_func (drift 0))) (lapse (fst (gcon_func (drift 0)))) rest = Some uc /\
  let Uc := fun i => Fin (primtoflux 0 (ideal 2) [] (geometry (drift 0) 1) 1 1 rest rest uc 0 i) in
  exists a b, residual (gamma_press_w 2) Uc (geometry (drift 0) 1) (Fin ((1 - DEL) * 2)) = Fin a /\
    residual (gamma_press_w 2) Uc (geometry (drift 0) 1) (Fin (2 + (2 - (1 - DEL) * 2))) = Fin b /\ a <> b.
Proof.
  destruct (ucon_ok (drift 0) 1 (drift_beta 0) (drift_st 0) rest) as (uc & E & _). exists uc. split; [exact E|]. exact (rest_slope uc E).
Qed.

(** C74.  Success does not mean that the primitives reproduce the conserved
    variables: momentum exceeding energy is accepted with finite, positive
    results whose conserved density differs. *)
Theorem C74_reproduced_refuted : exists U guess p v uc,
  (forall i, exists r, U i = Fin r) /\ (forall i, exists r, guess i = Fin r) /\
  Utoprim (gamma_press_w 2) (gamma_press_u 2) true [] (fun _ => false) U flat_geo guess = Some (0%Z, p) /\
  U 0%nat = Fin 1 /\ p 0%nat = Fin (1 / 2) /\ p 1%nat = Fin (1 / 4) /\ (forall m, (1 <= m < 4)%nat -> p (S m) = Fin (v m)) /\
  ucon_calc eta eta 1 v = Some uc /\ 1 / 2 * uc 0%nat <> 1.
Proof. exact wild_not_reproduced. Qed.
Print Assumptions C74_reproduced_refuted.

(** C75.  The composition given to a tabulated equation of state while inverting
    is the primitive one, up to the floor. *)
Theorem C75_table_composition : forall G alpha beta g small gam rho u B U ucon scalars sc,
  spacetime G alpha beta -> 0 < g -> 0 <= small -> 0 < rho ->
  ucon_calc G (fst (gcon_func G)) (lapse (fst (gcon_func G))) U = Some ucon -> extra_vars scalars ->
  forall i, In (i, true) scalars -> 0 < sc i ->
  table_ye small (geometry G g) (primtoflux small (ideal gam) scalars (geometry G g) rho u B sc ucon 0 i) (lorentz G U) rho
  = rho * sc i / (rho + small).
Proof. exact (fun G alpha beta g small gam rho u B U ucon scalars sc ST Hg _ => main_ye G alpha beta g small gam rho u B U ucon scalars sc ST Hg). Qed.
Print Assumptions C75_table_composition.
Example C75_nonvacuous : In (8%nat, true) [(8%nat, true); (9%nat, false)].
Proof. now left. Qed.

(** C76.  On a linear residual a (W - r) whose root is within reach, the iteration
    succeeds, at the root or where the residual is below tolerance; *)
Theorem C76_linear : forall a r, a <> 0 -> forall w, 0 < w -> 0 < r -> (1 / 2) ^ 8 * w <= r <= 3 ^ 8 * w ->
  exists W, solve (fun x => match x with Fin y => Fin (a * (y - r)) | _ => NaN end) (Fin w) = Some (Fin W) /\
    (W = r \/ Rabs (a * (W - r)) <= / 10 ^ 10 * W).
Proof. exact solve_affine. Qed.
Print Assumptions C76_linear.
(** with no positive root it gives up. *)
Theorem C76_gives_up : forall a r, a <> 0 -> forall w, 0 < w -> r <= 0 -> / 10 ^ 10 < Rabs a ->
  solve (fun x => match x with Fin y => Fin (a * (y - r)) | _ => NaN end) (Fin w) = None.
Proof. exact solve_out. Qed.
Print Assumptions C76_gives_up.
Example C76_nonvacuous : (1 / 2) ^ 8 * 1 <= 10 <= 3 ^ 8 * 1 /\ (1 / 2) ^ 8 * 8 <= 1 <= 3 ^ 8 * 8.
Proof. lra. Qed.
