(** Witnesses: NaN input, space-like momentum, floor added to the density. *)
From Coq Require Import Reals ZArith List Bool Lia Lra.
From Verif Require Import RLib XLib FluxModel GeomModel GeomSpec GeomProofs SpaceProofs NullProofs UtopModel UtopProofs UtopExact.
Import ListNotations.
Open Scope R_scope.

Lemma xmul_nan a : xmul a NaN = NaN. Proof. destruct a; reflexivity. Qed.
Lemma xadd_nan a : xadd a NaN = NaN. Proof. destruct a; reflexivity. Qed.
Lemma xdiv_nan a : xdiv a NaN = NaN. Proof. destruct a; reflexivity. Qed.
Lemma gamma_nan Bsq D Qtsq Wp : gamma_func Bsq D NaN Qtsq Wp = NaN.
Proof. unfold gamma_func. cbv zeta. cbn [xmul]. rewrite xmul_nan. reflexivity. Qed.

Lemma gamma_press_w_fin gam r w : gam <> 0 -> gamma_press_w gam (Fin r) (Fin w) = Fin ((w - r) * (gam - 1) / gam).
Proof. intros H. unfold gamma_press_w. cbn [xadd xsub xopp xmul]. now rewrite xdiv_fin. Qed.

(** NaN energy: every error is NaN and NaN passes the convergence test. *)
Lemma nan_accepted press_w press_u check_u scalars bad_cs U ge prim w d :
  U 0%nat = Fin d -> 0 < d -> U 1%nat = NaN ->
  Wp_func press_u (set_B U (gg ge) prim) (gcov ge) = Some (Fin w) -> 0 < w ->
  (forall p, bad_cs p = false) -> (forall s, In s scalars -> (8 <= fst s)%nat) ->
  exists p, Utoprim press_w press_u check_u scalars bad_cs U ge prim = Some (0%Z, p) /\
    p 0%nat = NaN /\ p 1%nat = NaN /\ p 2%nat = NaN /\ p 3%nat = NaN /\ p 4%nat = NaN.
Proof.
  intros E0 Hd E1 EW Hw CS L. unfold Utoprim. rewrite E0. cbn [xleb]. rewrite Rleb_false by exact Hd. rewrite EW.
  assert (EE : i_Ep (convert U ge) = NaN).
  { unfold convert. cbn [i_Ep]. rewrite E1. unfold xdot4 at 1, xlower at 1. cbn. reflexivity. }
  assert (EQ : i_QdB (convert U ge) = NaN).
  { unfold convert. cbn [i_QdB]. rewrite E1. unfold xdot4 at 1. reflexivity. }
  rewrite EE, EQ. unfold solve. cbv zeta.
  match goal with |- context [limited (Fin w) ?x] => destruct (limited_pos w x Hw) as (w' & EL & DL) end.
  rewrite EL. unfold dist_ok in DL.
  match goal with |- context [secant ?e ITERMAX (Fin w') ?a ?c ?f] => 
    assert (ES : c = NaN) by (unfold err_eqn; reflexivity); rewrite ES; 
    change (secant e ITERMAX (Fin w') a NaN f) with (Some (Fin w')) end.
  destruct (finish_cases press_w check_u scalars bad_cs U ge (convert U ge) (Fin w') (set_B U (gg ge) prim)) as [[E C]|(_ & _ & q & C & Q)].
  - exfalso. rewrite EQ, gamma_nan, !xdiv_nan in C. destruct C as [C|[_ C]]; discriminate C.
  - destruct C as [[E _]|[_ B]]; [|rewrite CS in B; discriminate].
    exists q. split; [exact E|]. destruct (Q L) as (Q0 & Q1 & QV & _). rewrite EQ, gamma_nan in *.
    rewrite xdiv_nan in Q0. rewrite xmul_nan, !xdiv_nan in Q1. 
    split; [exact Q0|]. split; [exact Q1|]. split; [|split].
    + rewrite (QV 1%nat) by lia. destruct (Fin w' + i_D (convert U ge) + i_Bsq (convert U ge))%X; reflexivity.
    + rewrite (QV 2%nat) by lia. destruct (Fin w' + i_D (convert U ge) + i_Bsq (convert U ge))%X; reflexivity.
    + rewrite (QV 3%nat) by lia. destruct (Fin w' + i_D (convert U ge) + i_Bsq (convert U ge))%X; reflexivity.
Qed.

(** ** Momentum larger than energy *)
Definition flat_geo : geom := {| gg := 1; gcov := eta; gcon := eta; galpha := 1 |}.
Definition space_U (i : nat) : R := nth i [1; - (11 / 4); 4; 2; 2] 0.
Definition space_guess (i : nat) : R := nth i [1; 3 / 2] 0.
Notation sU := (fun i => Fin (space_U i)).
Lemma x1 x : (Fin x * Fin 1 / Fin 1)%X = Fin x.
Proof. cbn [xmul]. rewrite xdiv_fin by lra. f_equal. field. Qed.
Lemma sp_D : i_D (convert sU flat_geo) = Fin 1.
Proof. unfold convert. cbn [i_D flat_geo galpha gg]. apply x1. Qed.
Lemma sp_Bcon i : (i < 4)%nat -> i_Bcon (convert sU flat_geo) i = Fin 0.
Proof.
  intros H. unfold convert. cbn [i_Bcon flat_geo galpha gg]. destruct i as [|k]; [reflexivity|].
  rewrite x1. f_equal. unfold space_U. apply nth_overflow. cbn [length]. lia.
Qed.
Definition sQ (i : nat) : R := nth i [- (15 / 4); 4; 2; 2] 0.
Definition sQx (i : nat) : X := match i with
  | O => ((Fin (space_U 1) - Fin (space_U 0)) * Fin 1 / Fin 1)%X
  | S k => (Fin (space_U (2 + k)) * Fin 1 / Fin 1)%X end.
Lemma sQ_eq i : (i < 4)%nat -> sQx i = Fin (sQ i).
Proof.
  intros H. unfold sQx. destruct i as [|k].
  - cbn [xsub xopp xadd]. rewrite x1. f_equal. unfold space_U, sQ. cbn [nth]. lra.
  - rewrite x1. reflexivity.
Qed.
Definition snx (i : nat) : X := match i with O => Fin (- (1)) | S _ => Fin 0 end.
Definition snv (i : nat) : R := match i with O => - (1) | S _ => 0 end.
Lemma sn_eq i : (i < 4)%nat -> snx i = Fin (snv i). Proof. destruct i; reflexivity. Qed.
Lemma sp_Bsq : i_Bsq (convert sU flat_geo) = Fin 0.
Proof.
  change (i_Bsq (convert sU flat_geo)) with (xdot4 (i_Bcon (convert sU flat_geo)) (xlower eta (i_Bcon (convert sU flat_geo)))).
  rewrite (xdot4_fin _ _ (fun _ => 0) (lower (fun _ => 0) eta)); [f_equal; unfold sigma4; ring|exact sp_Bcon|].
  intros k _. apply (xlower_fin _ _ (fun _ => 0)). exact sp_Bcon.
Qed.
Lemma sp_QdB : i_QdB (convert sU flat_geo) = Fin 0.
Proof.
  change (i_QdB (convert sU flat_geo)) with (xdot4 sQx (i_Bcon (convert sU flat_geo))).
  rewrite (xdot4_fin _ _ sQ (fun _ => 0) sQ_eq sp_Bcon). f_equal. unfold sigma4. ring.
Qed.
Lemma sp_Qdotn : xdot4 (xlower eta sQx) snx = Fin (- (15 / 4)).
Proof.
  rewrite (xdot4_fin _ _ (lower sQ eta) snv); [|intros k _; apply xlower_fin; exact sQ_eq|exact sn_eq].
  f_equal. unfold sigma4, snv, lower, sQ, eta. cbn [nth Nat.eqb]. lra.
Qed.
Lemma sp_Ep : i_Ep (convert sU flat_geo) = Fin (11 / 4).
Proof.
  change (i_Ep (convert sU flat_geo)) with (- xdot4 (xlower eta sQx) snx - i_D (convert sU flat_geo))%X.
  rewrite sp_Qdotn, sp_D. cbn [xopp xsub xadd]. f_equal. lra.
Qed.
Lemma sp_Qtsq : i_Qtsq (convert sU flat_geo) = Fin 24.
Proof.
  change (i_Qtsq (convert sU flat_geo)) with (xdot4 sQx (xlower eta sQx) + xdot4 (xlower eta sQx) snx * xdot4 (xlower eta sQx) snx)%X.
  rewrite sp_Qdotn, (xdot4_fin _ _ sQ (lower sQ eta) sQ_eq); [|intros k _; apply xlower_fin; exact sQ_eq].
  cbn [xmul xadd]. f_equal. unfold sigma4, lower, sQ, eta. cbn [nth Nat.eqb]. lra.
Qed.
Lemma sp_Qt m : (1 <= m < 4)%nat -> i_Qtcon (convert sU flat_geo) m = Fin (sQ m).
Proof.
  intros Hm. change (i_Qtcon (convert sU flat_geo) m) with (xlower eta sQx m + xlower eta snx m * xdot4 (xlower eta sQx) snx)%X.
  rewrite sp_Qdotn, (xlower_fin _ _ _ m sQ_eq), (xlower_fin _ _ _ m sn_eq). cbn [xmul xadd]. f_equal.
  destruct m as [|[|[|[|]]]]; try lia; unfold lower, sQ, snv, eta; cbn [nth Nat.eqb]; lra.
Qed.
(** 1 / gamma at W *)
Definition invg (W : R) : R := sqrt ((24 - W * W) / (48 - W * W)).
Lemma sp_gamma W : 0 < W -> W * W < 24 -> gamma_func (Fin 0) (Fin 1) (Fin 0) (Fin 24) (Fin (W - 1)) = Fin (/ invg W) /\ 0 < invg W.
Proof.
  intros P L. unfold gamma_func. cbv zeta. cbn [xadd xmul xopp xsub].
  replace (1 + (W - 1)) with W by ring. replace (W + 0) with W by ring.
  replace (0 * 0 * (W + W) + W * W * (24 + - (W * W))) with (W * W * (24 - W * W)) by ring.
  assert (W2 : 0 < W * W) by nra.
  rewrite xdiv_fin by (apply Rgt_not_eq, Rmult_lt_0_compat; lra).
  replace (- ((W + W) * (0 * 0) + W * W * 24) / (W * W * (24 - W * W))) with (- (24 / (24 - W * W))) by (field; split; nra).
  assert (Q : 0 < 24 / (24 - W * W)) by (apply Rdiv_lt_0_compat; lra).
  cbn [xabs xadd]. rewrite Rabs_Ropp, Rabs_right by lra. rewrite xsqrt_fin by lra.
  assert (PP : 0 < (24 - W * W) / (48 - W * W)) by (apply Rdiv_lt_0_compat; lra).
  split; [|now apply sqrt_lt_R0]. f_equal. unfold invg. rewrite <- sqrt_inv. f_equal. field. lra.
Qed.
Definition serr (W : R) : R := W - 15 / 4 - (W * (invg W * invg W) - invg W) / 2.
Lemma sp_err W : 0 < W -> W * W < 24 ->
  err_eqn (gamma_press_w 2) (Fin 0) (Fin 1) (Fin (11 / 4)) (Fin 0) (Fin 24) (Fin (W - 1)) = Fin (serr W).
Proof.
  intros P L. destruct (sp_gamma W P L) as [E I]. unfold err_eqn. cbv zeta. rewrite E. cbn [xmul xadd xopp xsub].
  pose proof (Rinv_0_lt_compat _ I) as I'. rewrite !xdiv_fin by (try nra). unfold gamma_press_w. cbn [xadd xopp xsub xmul].
  rewrite !xdiv_fin by lra. cbn [xadd xopp]. f_equal. unfold serr. field. lra.
Qed.
Lemma invg_sq W : 0 < W -> W * W < 24 -> invg W * invg W = (24 - W * W) / (48 - W * W).
Proof. intros. apply sqrt_sqrt. apply Rlt_le, Rdiv_lt_0_compat; lra. Qed.
Lemma invg4 : invg 4 = 1 / 2.
Proof. unfold invg. replace ((24 - 4 * 4) / (48 - 4 * 4)) with (1 / 2 * (1 / 2)) by lra. apply sqrt_square. lra. Qed.
Lemma serr4 : serr 4 = 0. Proof. unfold serr. rewrite invg4. lra. Qed.
Definition Wlo : R := (1 - DEL) * 3 + 1.
Definition Whi : R := 3 + (3 + - ((1 - DEL) * 3)) + 1.
Lemma slope : serr Wlo <> serr Whi.
Proof.
  assert (A1 : 3 < Wlo < 4) by (unfold Wlo, DEL; lra). assert (A2 : 4 < Whi < 401 / 100) by (unfold Whi, DEL; lra).
  pose proof (invg_sq Wlo ltac:(lra) ltac:(nra)) as S1. pose proof (invg_sq Whi ltac:(lra) ltac:(nra)) as S2.
  destruct (sp_gamma Wlo ltac:(lra) ltac:(nra)) as [_ P1]. destruct (sp_gamma Whi ltac:(lra) ltac:(nra)) as [_ P2].
  assert (L1 : Wlo = 399997 / 100000) by (unfold Wlo, DEL; lra). assert (L2 : Whi = 400003 / 100000) by (unfold Whi, DEL; lra).
  unfold serr. set (s1 := invg Wlo) in *. set (s2 := invg Whi) in *. clearbody s1 s2.
  rewrite L1 in *. rewrite L2 in *.
  assert (N1 : 24 / 100 < s1 * s1 < 26 / 100) by (rewrite S1; lra).
  assert (N2 : 24 / 100 < s2 * s2 < 26 / 100) by (rewrite S2; lra).
  assert (M1 : 4 / 10 < s1) by nra. assert (M2 : 4 / 10 < s2) by nra.
  assert (DD : s1 * s1 - s2 * s2 < 2 / 100000) by (rewrite S1, S2; lra).
  assert (D0 : s1 - s2 < 3 / 100000).
  { destruct (Rlt_le_dec (s1 - s2) (3 / 100000)) as [?|C]; [assumption|]. exfalso.
    pose proof (Rmult_le_compat (3 / 100000) (s1 - s2) (8 / 10) (s1 + s2) ltac:(lra) ltac:(lra) C ltac:(lra)) as M. lra. }
  assert (PR : (400003 / 100000) * (s2 * s2) - (399997 / 100000) * (s1 * s1) < 1 / 100000) by (rewrite S1, S2; lra).
  lra.
Qed.
Notation wild := (Utoprim (gamma_press_w 2) (gamma_press_u 2) true [] (fun _ => false) sU flat_geo (fun i => Fin (space_guess i))).
Lemma space_guess_W : Wp_func (gamma_press_u 2) (set_B sU (gg flat_geo) (fun i => Fin (space_guess i))) (gcov flat_geo) = Some (Fin 3).
Proof.
  unfold Wp_func. cbv zeta. cbn [flat_geo gg gcov].
  rewrite !set_B_out by lia. unfold space_guess. cbn [nth]. unfold gamma_press_u. cbn [xadd xmul xsub xopp].
  match goal with |- context [xltb (Fin ?x) (Fin 0) && _] => assert (E : x = 0) by ring; rewrite E end.
  cbn [xltb]. rewrite (Rltb_false 0 0) by lra. cbn [andb xltb]. rewrite (Rltb_false 0 0) by lra.
  rewrite Rltb_false by (unfold GAMMAMAX; lra). cbn [orb xabs xadd]. rewrite Rabs_R0, xsqrt_fin by lra.
  replace (1 + 0) with 1 by ring. rewrite sqrt_1. cbn [xadd xmul xopp xsub]. do 2 f_equal. lra.
Qed.
Lemma wild_result : exists p, wild = Some (0%Z, p) /\ p 0%nat = Fin (1 / 2) /\ p 1%nat = Fin (1 / 4) /\
  p 2%nat = Fin 2 /\ p 3%nat = Fin 1 /\ p 4%nat = Fin 1 /\ (forall i, (5 <= i < 8)%nat -> p i = Fin 0).
Proof.
  unfold Utoprim. change (xleb (Fin (space_U 0)) (Fin 0)) with (Rleb 1 0). rewrite Rleb_false by lra. rewrite space_guess_W.
  rewrite sp_Bsq, sp_D, sp_Ep, sp_QdB, sp_Qtsq.
  rewrite (solve_fixed _ 3 (serr Wlo) (serr Whi)); [|lra| | | |exact slope].
  - destruct (finish_cases (gamma_press_w 2) true [] (fun _ => false) sU flat_geo (convert sU flat_geo) (Fin 3)
      (set_B sU (gg flat_geo) (fun i => Fin (space_guess i)))) as [[_ C]|(_ & _ & q & C & Q)].
    + exfalso. rewrite sp_Bsq, sp_D, sp_QdB, sp_Qtsq in C. replace (Fin 3) with (Fin (4 - 1)) in C by (f_equal; lra).
      rewrite (proj1 (sp_gamma 4 ltac:(lra) ltac:(lra))), invg4 in C. cbn [xmul xadd] in C.
      rewrite (xdiv_fin 1) in C by lra. rewrite xdiv_fin in C by lra. rewrite gamma_press_w_fin in C by lra.
      cbn [xadd xmul xsub xopp xltb] in C. rewrite !Rltb_false in C by lra. destruct C as [C|[_ C]]; discriminate C.
    + destruct C as [[E _]|[_ C]]; [|discriminate C]. exists q. split; [exact E|].
      destruct Q as (Q0 & Q1 & QV & QB); [intros s []|].
      rewrite sp_Bsq, sp_D, sp_QdB, sp_Qtsq in *. replace (Fin 3) with (Fin (4 - 1)) in * by (f_equal; lra).
      rewrite (proj1 (sp_gamma 4 ltac:(lra) ltac:(lra))), invg4 in *. cbn [xmul xadd] in *.
      rewrite (xdiv_fin 1) in Q0, Q1 by lra. rewrite xdiv_fin in Q1 by lra. rewrite gamma_press_w_fin in Q1 by lra.
      cbn [xadd xmul xsub xopp] in Q1.
      split; [rewrite Q0; f_equal; lra|]. split; [rewrite Q1; f_equal; field|].
      assert (VV : forall m, (1 <= m < 4)%nat -> q (S m) = Fin (sQ m / 2)).
      { intros m Hm. rewrite QV by exact Hm. rewrite sp_Qt by exact Hm. rewrite sp_Bcon by lia. cbn [xmul xadd].
        rewrite !xdiv_fin by lra. cbn [xmul xadd]. f_equal. field. }
      rewrite (VV 1%nat), (VV 2%nat), (VV 3%nat) by lia. unfold sQ. cbn [nth].
      split; [f_equal; lra|]. split; [f_equal; lra|]. split; [f_equal; lra|].
      intros i Hi. rewrite QB by exact Hi. rewrite set_B_in by exact Hi. cbn [flat_geo gg].
      rewrite xdiv_fin by lra. unfold space_U. rewrite nth_overflow by (cbn [length]; lia). f_equal. field.
  - replace (Fin 3) with (Fin (4 - 1)) by (f_equal; lra). rewrite sp_err by lra. now rewrite serr4.
  - replace (Fin ((1 - DEL) * 3)) with (Fin (Wlo - 1)) by (f_equal; unfold Wlo; ring). apply sp_err; unfold Wlo, DEL; lra.
  - replace (Fin (3 + (3 + - ((1 - DEL) * 3)))) with (Fin (Whi - 1)) by (f_equal; unfold Whi; ring). apply sp_err; unfold Whi, DEL; lra.
Qed.

(** The guess made from primitives with positive density and energy. *)
Lemma guess_pos gam prim G rho u v1 v2 v3 W : 1 < gam -> prim 0%nat = Fin rho -> prim 1%nat = Fin u ->
  prim 2%nat = Fin v1 -> prim 3%nat = Fin v2 -> prim 4%nat = Fin v3 -> 0 < rho -> 0 < u ->
  Wp_func (gamma_press_u gam) prim G = Some W -> exists w, W = Fin w /\ 0 < w.
Proof.
  intros Hg E0 E1 E2 E3 E4 Hr Hu. unfold Wp_func. cbv zeta. rewrite E0, E1, E2, E3, E4. cbn [xadd xmul xsub xopp].
  match goal with |- context [xltb (Fin ?x) (Fin 0) && _] => set (y := x); clearbody y end.
  assert (K : forall z, 0 <= z -> exists w, 
    Fin (rho + u) = Fin (rho + u) /\ ((Fin (rho + u) + gamma_press_u gam (Fin rho) (Fin u)) * xsqrt (Fin 1 + xabs (Fin z)) * xsqrt (Fin 1 + xabs (Fin z)) -
      Fin rho * xsqrt (Fin 1 + xabs (Fin z)))%X = Fin w /\ 0 < w).
  { intros z Hz. cbn [xabs xadd]. rewrite Rabs_right by lra. rewrite xsqrt_fin by lra. unfold gamma_press_u. cbn [xadd xmul xsub xopp].
    eexists. split; [reflexivity|]. split; [reflexivity|].
    assert (S1 : 1 <= sqrt (1 + z)) by (rewrite <- sqrt_1 at 1; apply sqrt_le_1_alt; lra).
    set (s := sqrt (1 + z)) in *. clearbody s. assert (0 < (gam - 1) * u) by nra.
    assert (s * 1 <= s * s) by nra. nra. }
  cbn [xltb xabs].
  destruct (Rltb_spec y 0) as [L|L]; cbn [andb].
  - destruct (Rltb_spec (Rabs y) (/ 10 ^ 13)); cbn [xltb].
    + rewrite (Rltb_false (Rabs y) 0) by apply Rabs_pos. cbn [orb].
      destruct (Rltb_spec (1000 * GAMMAMAX * GAMMAMAX) (Rabs y)); [discriminate|]. intros [= <-].
      destruct (K (Rabs y) (Rabs_pos y)) as (w & _ & E & P). exists w. split; [exact E|exact P].
    + rewrite (Rltb_true y 0) by exact L. cbn [orb]. discriminate.
  - cbn [xltb]. rewrite (Rltb_false y 0) by lra. cbn [orb].
    destruct (Rltb_spec (1000 * GAMMAMAX * GAMMAMAX) y); [discriminate|]. intros [= <-].
    destruct (K y ltac:(lra)) as (w & _ & E & P). exists w. split; [exact E|exact P].
Qed.

(** A state in a moving frame with a field. *)
Definition mover : vec := fun i => nth i [0; 3 / 4; 0; 0] 0.
Definition mover_B : vec := fun i => nth i [0; 1; 2; 0] 0.
Lemma wild_not_reproduced : exists U guess p v uc,
  (forall i, exists r, U i = Fin r) /\ (forall i, exists r, guess i = Fin r) /\
  Utoprim (gamma_press_w 2) (gamma_press_u 2) true [] (fun _ => false) U flat_geo guess = Some (0%Z, p) /\
  U 0%nat = Fin 1 /\ p 0%nat = Fin (1 / 2) /\ p 1%nat = Fin (1 / 4) /\ (forall m, (1 <= m < 4)%nat -> p (S m) = Fin (v m)) /\
  ucon_calc eta eta 1 v = Some uc /\ 1 / 2 * uc 0%nat <> 1.
Proof.
  destruct wild_result as (p & E & H0 & H1 & H2 & H3 & H4 & _).
  exists sU, (fun i => Fin (space_guess i)), p, (fun i => nth i [0; 2; 1; 1] 0).
  assert (UC : exists uc, ucon_calc eta eta 1 (fun i => nth i [0; 2; 1; 1] 0) = Some uc /\ uc 0%nat = sqrt 7).
  { unfold ucon_calc, mhd_gamma_calc.
    assert (Q : qsq_of eta (fun i => nth i [0; 2; 1; 1] 0) = 6) by (unfold qsq_of, eta; cbn [nth Nat.eqb]; lra).
    rewrite Q. rewrite Rltb_false by lra. eexists. split; [reflexivity|]. cbn [Nat.eqb]. replace (1 + 6) with 7 by lra. field. }
  destruct UC as (uc & EU & E0). exists uc.
  split; [eauto|]. split; [eauto|]. split; [exact E|]. split; [reflexivity|]. split; [exact H0|]. split; [exact H1|]. split.
  - intros [|[|[|[|m]]]] Hm; try lia; cbn [nth]; assumption.
  - split; [exact EU|]. rewrite E0. intros C. assert (S7 : sqrt 7 * sqrt 7 = 7) by (apply sqrt_sqrt; lra).
    replace (sqrt 7) with 2 in S7 by lra. lra.
Qed.
