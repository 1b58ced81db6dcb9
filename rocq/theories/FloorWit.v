(** Witnesses in flat space. *)
From Coq Require Import Reals Lra Lia Bool.
From Verif Require Import RLib FluxModel GeomModel GeomSpec GeomProofs SpaceProofs NullProofs EosGModel EosGProofs FloorModel FloorSpec FloorProofs.
Open Scope R_scope.

Notation M := (drift 0).
Notation Mi := (fst (gcon_func M)).
Notation St := (drift_st 0).
Lemma mink_state p q g : get_state M Mi (lapse Mi) p = Some q -> 0 < g -> g * g = 1 + (vel p 1%nat * vel p 1%nat + vel p 2%nat * vel p 2%nat + vel p 3%nat * vel p 3%nat) ->
  ucon q 0%nat = g /\ (forall i, (1 <= i < 4)%nat -> ucon q i = vel p i) /\ ucov q 0%nat = - g /\ (forall i, (1 <= i < 4)%nat -> ucov q i = vel p i) /\
  b_con q = bcon (mag p) (ucon q) (ucov q) /\ b_cov q 0%nat = - b_con q 0%nat /\ (forall i, (1 <= i < 4)%nat -> b_cov q i = b_con q i).
Proof.
  intros E G0 GG. destruct (state_good M 1 (drift_beta 0) St p q E) as (_ & _ & _ & P & Ev & Eb & Ec & Eg & SH).
  rewrite drift_spatial, <- GG, sqrt_square in Eg by lra. rewrite Rmult_1_l in Eg.
  assert (UI : forall i, (1 <= i < 4)%nat -> ucon q i = vel p i).
  { intros i Hi. rewrite <- (SH i Hi). unfold shifted, drift_beta. destruct i as [|[|i]]; [lia|ring|ring]. }
  assert (L : forall w, lower w M 0%nat = - w 0%nat /\ (forall i, (1 <= i < 4)%nat -> lower w M i = w i)).
  { intros w. split; [unfold lower, drift; ring|]. intros [|[|[|[|i]]]] Hi; try lia; unfold lower, drift; ring. }
  destruct (L (ucon q)) as [L0 LI]. destruct (L (b_con q)) as [K0 KI]. rewrite <- Ev in L0, LI. rewrite <- Ec in K0, KI.
  split; [exact Eg|]. split; [exact UI|]. split; [lra|]. split; [intros i Hi; rewrite LI, UI by exact Hi; reflexivity|].
  split; [exact Eb|]. split; [exact K0|exact KI].
Qed.
Lemma mink_flux p q g : (forall i, mag p i = 0) -> get_state M Mi (lapse Mi) p = Some q -> 0 < g ->
  g * g = 1 + (vel p 1%nat * vel p 1%nat + vel p 2%nat * vel p 2%nat + vel p 3%nat * vel p 3%nat) -> 0 <= rho p ->
  let c := primtoflux 1 2 p q in let w := uu p + (rho p + FluxModel.SMALL) + uu p in
  dot (b_con q) (b_cov q) = 0 /\
  D c = rho p * g /\ Q c 0%nat = - w * (g * g) + uu p + rho p * g /\ (forall i, (1 <= i < 4)%nat -> Q c i = w * g * vel p i /\ Bc c i = 0).
Proof.
  intros B E G0 GG R. destruct (mink_state p q g E G0 GG) as (U0 & UI & V0 & VI & Eb & Eb0 & Ebi). cbv zeta.
  assert (BZ : forall i, b_con q i = 0). { intros i. rewrite Eb. unfold bcon. rewrite !B. destruct (Nat.eqb i 0); [ring|]. field. lra. }
  assert (BS : dot (b_con q) (b_cov q) = 0) by (unfold dot, sum4; rewrite !BZ; ring).
  split; [exact BS|]. unfold primtoflux. cbn [D Q Bc]. rewrite U0. split; [ring|]. unfold mhd_calc, pressure_rho0_u. cbv zeta. rewrite BS, (Rabs_pos_eq _ R), !BZ.
  split; [cbn [Nat.eqb]; rewrite U0, V0; field|]. intros i Hi. split.
  - destruct i; [lia|]. cbn [Nat.eqb]. rewrite U0, VI by exact Hi. ring.
  - unfold primtoflux_B. rewrite <- Eb, !BZ. ring.
Qed.

(** *** matter added to a fast flow *)
Definition wr : R := 12625600000000000020367 / 1913380000000000000000000.
Definition wp : prims := mkp wr 1 (vec4 0 (63 / 16) 0 0) (fun _ => 0).
Definition wr' : R := 1230936000000000000997983 / 109336000000000000000000000.
Definition wu' : R := 28537320000000000000085733 / 21867200000000000000000000.
Definition wp' : prims := mkp wr' wu' (vec4 0 (24 / 7) 0 0) (fun _ => 0).
Lemma wfloors : fst (set_floors 2 (/ 100) 1 0) = 1 / 50 /\ snd (set_floors 2 (/ 100) 1 0) < 1.
Proof.
  assert (P : Rpower (/ 100) 2 = / 10000) by (replace 2 with (INR 2) by (cbn; lra); rewrite Rpower_pow by lra; cbn; lra).
  unfold set_floors, rho_floor, u_floor, MY_MAX. cbn [fst snd]. rewrite P. unfold RHOMIN, RHOMINLIMIT, UUMIN, UUMINLIMIT, RHOMIN, RHOMINLIMIT, BSQORHOMAX, BSQOUMAX, UORHOMAX.
  split; rcases; lra.
Qed.
Lemma weak_short : exists p p' q qa q' r,
  get_state M Mi (lapse Mi) p = Some q /\
  (let '(rf, uf) := set_floors 2 (/ 100) (uu p) (dot (b_con q) (b_cov q)) in
   let a := padd p rf uf in
   0 < rho p < rf /\ uf < uu p /\
   get_state M Mi (lapse Mi) a = Some qa /\ get_state M Mi (lapse Mi) p' = Some q' /\ 0 < rho p' /\ 0 < uu p' /\
   same_cons (primtoflux 1 2 p' q') (cadd (primtoflux 1 2 p q) (primtoflux 1 2 a qa)) /\
   fixup1zone M Mi (lapse Mi) 1 2 (fun _ _ => p') (/ 100) p = Some (r, true, true) /\ rho r < rf).
Proof.
  destruct (state_ok M 1 (drift_beta 0) St wp) as [q Hq]. destruct (state_ok M 1 (drift_beta 0) St wp') as [q' Hq'].
  pose proof (proj1 Hq) as Eq. pose proof (proj1 Hq') as Eq'.
  assert (R0 : 0 < wr < 1 / 50) by (unfold wr; lra). assert (R1 : 0 < wr' < 1 / 50) by (unfold wr'; lra). assert (R2 : 0 < wu') by (unfold wu'; lra).
  destruct (mink_flux wp q (65 / 16)) as (B0 & D0 & Q0 & QI); [reflexivity|exact Eq|lra|cbn [vel wp vec4]; lra|cbn [rho wp]; lra|].
  destruct (mink_flux wp' q' (25 / 7)) as (B1 & D1 & Q1 & QI'); [reflexivity|exact Eq'|lra|cbn [vel wp' vec4]; lra|cbn [rho wp']; lra|].
  cbn [rho uu wp wp' vel] in D0, Q0, QI, D1, Q1, QI'.
  destruct wfloors as [F1 F2].
  set (a := padd wp (fst (set_floors 2 (/ 100) 1 0)) (snd (set_floors 2 (/ 100) 1 0))).
  destruct (state_ok M 1 (drift_beta 0) St a) as [qa Ha]. pose proof (proj1 Ha) as Ea.
  assert (AR : rho a = 1 / 50 - wr). { unfold a. cbn [padd rho wp]. rewrite F1. unfold MY_MAX. rcases; lra. }
  assert (AU : uu a = 0). { unfold a. cbn [padd uu wp]. unfold MY_MAX. rcases; lra. }
  destruct (mink_flux a qa 1) as (_ & D2 & Q2 & QI2); [reflexivity|exact Ea|lra|unfold a; cbn [vel padd]; lra|lra|]. rewrite AR, AU in *.
  destruct (run_stage M 1 (drift_beta 0) St 1 2 (/ 100) (fun _ _ => wp') wp) as (q0 & p1 & ap & V & GQ & SG & L & RUN).
  assert (q0 = q) by (apply (state_fun M 1 (drift_beta 0) wp q q0); [exact (proj1 GQ)|exact Hq]). subst q0.
  exists wp, wp', q, qa, q', (mkp (rho p1) (uu p1) V (mag p1)). split; [exact Eq|].
  unfold stage in SG. cbn [uu wp] in *. rewrite B0 in *. fold a.
  destruct (set_floors 2 (/ 100) 1 0) as [rf uf] eqn:EF. cbn [fst snd] in *. fold a.
  split; [cbn [rho wp]; lra|]. split; [lra|]. split; [exact Ea|]. split; [exact Eq'|]. split; [cbn [rho wp']; lra|]. split; [cbn [uu wp']; lra|].
  split; [|].
  - unfold same_cons. cbn [cadd D Q Bc]. rewrite D0, D1, D2. split; [unfold wr, wr'; lra|]. split.
    + apply four_cases; [rewrite Q0, Q1, Q2; unfold wr, wr', wu', FluxModel.SMALL; lra| | |].
      * rewrite (proj1 (QI 1%nat ltac:(lia))), (proj1 (QI' 1%nat ltac:(lia))), (proj1 (QI2 1%nat ltac:(lia))). unfold a. cbn [vec4 padd vel]. unfold wr, wr', wu', FluxModel.SMALL. lra.
      * rewrite (proj1 (QI 2%nat ltac:(lia))), (proj1 (QI' 2%nat ltac:(lia))), (proj1 (QI2 2%nat ltac:(lia))). unfold a. cbn [vec4 padd vel]. lra.
      * rewrite (proj1 (QI 3%nat ltac:(lia))), (proj1 (QI' 3%nat ltac:(lia))), (proj1 (QI2 3%nat ltac:(lia))). unfold a. cbn [vec4 padd vel]. lra.
    + intros m Hm. rewrite (proj2 (QI m Hm)), (proj2 (QI' m Hm)), (proj2 (QI2 m Hm)). lra.
  - destruct SG as [(_ & C & _)|(-> & _ & [[T _]|[T W]])].
    + cbn [rho wp] in C. lra.
    + unfold trans_of in T. replace (10 * 0) with 0 in T by ring. unfold Rdiv in T. rewrite Rmult_0_l in T. lra.
    + split; [exact RUN|]. cbn [rho]. unfold weak in W. fold a in W. rewrite Ea, Eq in W. assert (p1 = wp') by congruence. subst p1. cbn [rho wp']. lra.
Qed.

(** *** flow across a strong field *)
Definition xp : prims := mkp (/ 1000) (/ 100000) (vec4 0 (3 / 4) 0 0) (vec4 0 0 1 0).
Lemma strong_slow : exists p q r, get_state M Mi (lapse Mi) p = Some q /\
  inner M (Bcon p) (fun i => if Nat.eqb i 0 then 0 else vel p i) = 0 /\ 1 < trans_of p (dot (b_con q) (b_cov q)) /\
  (forall Utoprim, fixup1zone M Mi (lapse Mi) 1 2 Utoprim (/ 100) p = Some (r, true, true)) /\
  vel p 1%nat = 3 / 4 /\ vel r 1%nat = 3 / 5.
Proof.
  destruct (state_ok M 1 (drift_beta 0) St xp) as [q Hq]. pose proof (proj1 Hq) as Eq.
  destruct (mink_state xp q (5 / 4) Eq) as (U0 & UI & V0 & VI & Eb & Eb0 & Ebi); [lra|cbn [vel xp vec4]; lra|]. cbn [vel xp] in UI, VI.
  assert (B0 : b_con q 0%nat = 0). { rewrite Eb. unfold bcon. cbn [Nat.eqb mag xp vec4]. rewrite !VI by lia. cbn [vec4]. ring. }
  assert (B2 : b_con q 1%nat = 0 /\ b_con q 2%nat = 4 / 5 /\ b_con q 3%nat = 0).
  { rewrite Eb in B0 |- *. unfold bcon in *. cbn [Nat.eqb] in *. rewrite B0, U0. cbn [mag xp vec4]. repeat split; lra. }
  destruct B2 as (B1 & B2 & B3).
  assert (BS : dot (b_con q) (b_cov q) = 16 / 25). { unfold dot, sum4. rewrite Eb0, !Ebi by lia. rewrite B0, B1, B2, B3. lra. }
  assert (T : 1 < trans_of xp (16 / 25)).
  { unfold trans_of, xp. cbn [rho uu]. rewrite !Rabs_pos_eq by lra. unfold MY_MIN, FluxModel.SMALL. rewrite Rltb_false by lra.
    assert (2 < 10 * (16 / 25) / (/ 100000 + / 10 ^ 20)); [|lra]. apply (Rmult_lt_reg_r (/ 100000 + / 10 ^ 20)); [lra|]. set (e := / 100000 + / 10 ^ 20). assert (0 < e < 1 / 10) by (unfold e; lra). clearbody e. replace (10 * (16 / 25) / e * e) with (32 / 5) by (field; lra). lra. }
  assert (BP : betapar q = 0). { unfold betapar. cbv zeta. rewrite B0. unfold Rdiv. ring. }
  assert (DR : forall mu, ucondr q mu = ucon q mu).
  { intros mu. unfold ucondr. cbv zeta. rewrite BP, BS. unfold MY_MIN, GAMMAMAX. rewrite Rltb_true by lra. replace (1 - 0 * 0 * (16 / 25)) with 1 by lra. rewrite sqrt_1. field. }
  assert (VP : forall p', vpar M 2 xp p' q = 0).
  { intros p'. unfold vpar. cbv zeta. assert (E : dot (ucon q) (lower (Bcon xp) M) = 0).
    { rewrite dot_inner. unfold inner, sigma4, drift, Bcon. cbn [Nat.eqb mag xp vec4]. rewrite (UI 1%nat), (UI 2%nat), (UI 3%nat) by lia. cbn [vec4]. ring. }
    rewrite E. rewrite !Rmult_0_l, Rmult_0_r. unfold Rdiv. rewrite !Rmult_0_l. reflexivity. }
  assert (VC : forall p', vcon M 2 xp p' q 0%nat = 1 /\ vcon M 2 xp p' q 1%nat = 3 / 5 /\ vcon M 2 xp p' q 2%nat = 0 /\ vcon M 2 xp p' q 3%nat = 0).
  { intros p'. unfold vcon. cbn [Nat.eqb]. rewrite VP, !DR, U0, !UI by lia. cbn [vec4]. unfold Rdiv. rewrite !Rmult_0_l. repeat split; lra. }
  assert (F : rho xp < fst (set_floors 2 (/ 100) (/ 100000) (16 / 25))).
  { unfold set_floors. cbn [fst]. unfold rho_floor.
    pose proof (max_r (MY_MAX (MY_MAX (RHOMIN * / 100) RHOMINLIMIT) (16 / 25 / BSQORHOMAX)) (/ 100000 / UORHOMAX)).
    pose proof (max_r (MY_MAX (RHOMIN * / 100) RHOMINLIMIT) (16 / 25 / BSQORHOMAX)). unfold BSQORHOMAX in *. cbn [rho xp]. lra. }
  set (rf := fst (set_floors 2 (/ 100) (/ 100000) (16 / 25))) in *. set (uf := snd (set_floors 2 (/ 100) (/ 100000) (16 / 25))).
  set (s := strong M Mi 2 xp q rf uf (trans_of xp (16 / 25))).
  assert (SV : forall i, (1 <= i < 4)%nat -> vel s i = vec4 0 (3 / 5) 0 0 i).
  { intros i Hi. unfold s, strong. cbv zeta. cbn [vel]. set (p' := mkp _ _ _ _). destruct (VC p') as (C0 & C1 & C2 & C3). clearbody p'. set (v := vcon M 2 xp p' q) in *. clearbody v.
    assert (TL : inner M v v < 0). { unfold inner, sigma4, drift. rewrite C0, C1, C2, C3. lra. }
    rewrite (stored_velocity M 1 (drift_beta 0) St _ C0 TL i Hi).
    assert (MY_MIN (trans_of xp (16 / 25)) 1 = 1) as -> by (unfold MY_MIN; rewrite Rltb_false; lra).
    destruct i as [|[|[|[|i]]]]; try lia; rewrite ?C1, ?C2, ?C3; unfold drift_beta; cbn [vec4]; lra. }
  assert (LG : limit_gamma M (vel s) = (vel s, true)).
  { unfold limit_gamma. rewrite (gamma_defined M 1 (drift_beta 0) St), drift_spatial, !SV by lia. cbn [vec4]. unfold GAMMAMAX. rewrite Rltb_false; [reflexivity|].
    rewrite <- (sqrt_square 50) by lra. apply sqrt_le_1_alt. lra. }
  exists xp, q, (mkp (rho s) (uu s) (vel s) (mag s)). split; [exact Eq|]. rewrite BS. split.
  { unfold inner, sigma4, drift, Bcon. cbn [Nat.eqb mag vel xp vec4]. ring. }
  split; [exact T|]. split; [|split; [reflexivity|cbn [vel]; rewrite SV by lia; reflexivity]].
  intros Utoprim. unfold fixup1zone. rewrite Eq, BS. change (uu xp) with (/ 100000) at 1.
  assert (SF : set_floors 2 (/ 100) (/ 100000) (16 / 25) = (rf, uf)) by reflexivity. rewrite SF. cbv zeta. rewrite (Rltb_true _ _ F). cbn [orb]. rewrite Rltb_true by lra. fold s. rewrite LG. reflexivity.
Qed.
