(** Cases of passive scalars. *)
From Coq Require Import Reals Bool ZArith List Lia Lra.
From Verif Require Import RLib FluxModel TabModel InvModel PasModel PasSpec PasProofs PasMore.
Import ListNotations.
Open Scope R_scope.

Definition tab_ye : axis := [0; 1]%R.
Lemma tab_ends : ax_min tab_ye = 0 /\ ax_max tab_ye = 1.
Proof. split; reflexivity. Qed.
(** gas of density 1, Ye 1/2 *)
Definition thin : prims := fun ip => match ip with 0%nat => 1 | 8%nat => 1 / 2 | 9%nat => 1 / 2 | 10%nat => 2 | _ => 0 end.
Definition doubled : prims := fun ip => match ip with 0%nat => 2 | _ => 0 end.
Definition adding : floors := Normal 1 0 1 1 (Some (doubled, 1)).
Definition thin_zone : prims := fix_zone 3 (init_types true (fun _ => false)) (init_passives tab_ye true) 1 1 2 (fun rho ye => rho * ye) adding thin.
Lemma thin_numbers : thin_zone 0%nat = 2 /\ thin_zone 8%nat = 1 / 2 /\ thin_zone 10%nat = 1 /\ thin_zone 1%nat = 1 / 2.
Proof.
  assert (Z : thin_zone 0%nat = 2) by (unfold thin_zone; rewrite zone_basics by lia; reflexivity).
  split; [exact Z|].
  pose proof (zone_numbers tab_ye true 3 (fun _ => false) 1 1 2 (fun rho ye => rho * ye) adding thin ltac:(destruct tab_ends as [-> ->]; lra) ltac:(lia) ltac:(lia)) as H.
  cbv zeta in H. fold thin_zone in H. destruct H as ((_ & A & _) & _ & B & _). destruct tab_ends as [E1 E2]. rewrite E1, E2 in A.
  specialize (B eq_refl). destruct B as (_ & _ & B). cbn [thin] in A, B.
  split; [apply A; lra|]. split; [apply B; lra|].
  pose proof (zone_cold tab_ye true 3 (fun _ => false) 1 1 2 (fun rho ye => rho * ye) adding thin ltac:(lra) ltac:(cbn; lra) ltac:(cbn; lra)) as C. cbv zeta in C. fold thin_zone in C.
  rewrite C, Z. unfold adding, diluted, thin. lra.
Qed.
Theorem cold_refuted : exists yes n set g lapse thresh minu f p, ax_min yes < ax_max yes /\ (3 <= n)%nat /\ 0 < p 0%nat < thresh /\ ax_min yes <= p 8%nat < ax_max yes /\
  let p' := fix_zone n (init_types true set) (init_passives yes true) g lapse thresh minu f p in p' 8%nat = p 8%nat /\ p' 1%nat < minu (p' 0%nat) (p' 8%nat).
Proof.
  exists tab_ye, 3%nat, (fun _ => false), 1, 1, 2, (fun rho ye => rho * ye), adding, thin. destruct tab_ends as [-> ->]. split; [lra|]. split; [lia|]. split; [cbn; lra|]. split; [cbn; lra|].
  cbv zeta. fold thin_zone. destruct thin_numbers as (A & B & _ & C). rewrite A, B, C. cbn [thin]. split; lra.
Qed.
Theorem leptons_refuted : exists yes n set g lapse thresh minu f p, ax_min yes < ax_max yes /\ (3 <= n)%nat /\ 0 < p 0%nat /\ ax_min yes <= p 8%nat < ax_max yes /\
  let p' := fix_zone n (init_types true set) (init_passives yes true) g lapse thresh minu f p in p 0%nat * p 8%nat < p' 0%nat * p' 8%nat.
Proof.
  exists tab_ye, 3%nat, (fun _ => false), 1, 1, 2, (fun rho ye => rho * ye), adding, thin. destruct tab_ends as [-> ->]. split; [lra|]. split; [lia|]. split; [cbn; lra|]. split; [cbn; lra|].
  cbv zeta. fold thin_zone. destruct thin_numbers as (A & B & _ & C). rewrite A, B. cbn [thin]. lra.
Qed.

(** ** Transport: gas of density 1 moving along the first direction at the speed 1 *)
Definition gas (y : R) : point := mkpt 1 (fun mu => match mu with 0%nat => 1 | 1%nat => 1 | _ => 0 end) (fun _ => y) (fun _ => 0).
Definition speed (dir : nat) (P : point) : R * R := (1, -1).
Definition one (i j k : Z) : R := 1.
Lemma top_1 : MY_MAX (Rabs (MY_MAX (MY_MAX 0 1) 1)) (Rabs (MY_MAX (MY_MAX 0 (- -1)) (- -1))) = 1.
Proof.
  unfold MY_MAX. rewrite (Rltb_false 1 0) by lra. rewrite (Rltb_false 1 1) by lra. rewrite (Rltb_false (- -1) 0) by lra. rewrite (Rltb_false (- -1) (- -1)) by lra.
  rewrite !Rabs_right by lra. destruct (Rltb_spec (- -1) 1); lra.
Qed.
Lemma gas_flux dir y y' : let f := lr_to_flux point (primtoflux (fun _ => true) 1) (speed dir) 1 dir (gas y) (gas y') in
  snd f = 1 /\ (forall ip, (ip = 0 \/ 8 <= ip)%nat -> fst f ip = 5 / 10 * (primtoflux (fun _ => true) 1 dir (gas y) ip + primtoflux (fun _ => true) 1 dir (gas y') ip - (primtoflux (fun _ => true) 1 0 (gas y') ip - primtoflux (fun _ => true) 1 0 (gas y) ip))).
Proof.
  intros f. unfold f, lr_to_flux. rewrite (Rltb_false 1 FluxModel.SMALL) by (unfold FluxModel.SMALL; cbn; lra). unfold speed. cbv zeta iota beta. cbn [fst snd]. rewrite top_1. split; [reflexivity|]. intros ip _. lra.
Qed.
Lemma gas_mass dir y : primtoflux (fun _ => true) 1 dir (gas y) 0%nat = p_ucon (gas y) dir.
Proof. unfold primtoflux. cbn. ring. Qed.
Lemma gas_scalar dir y : primtoflux (fun _ => true) 1 dir (gas y) 8%nat = p_ucon (gas y) dir * y.
Proof. unfold primtoflux, scalar_flux. cbn. ring. Qed.
(** rises to the right: 0 before the zone at the origin, from [a] to [b] in it, 1 after it *)
Definition low (a : R) (i j k : Z) : point := if Z.ltb i 0 then gas 0 else if Z.ltb 0 i then gas 1 else gas a.
Definition flat (c : R) (i j k : Z) : point := gas c.
Definition S0 (mu : nat) : R := 0.
Lemma moved a b c Dt d : 0 < d -> let U := advanced (fun _ => true) speed 1 d d Dt 1 one one one (low a) (low b) (flat c) (flat c) (flat c) (flat c) S0 (gas c) 0 0 0 in
  U 0%nat = 1 /\ U 8%nat = c - Dt * b.
Proof.
  intros D U. unfold U, advanced, update, F1, F2, F3, face_flux, one. unfold low, flat. cbn [Z.ltb Z.compare Z.add Z.sub Z.opp Pos.sub Z.pos_sub].
  rewrite !(fun dir y y' => proj2 (gas_flux dir y y')) by lia. rewrite !gas_mass, !gas_scalar. unfold source, S0. cbn. split; field; lra.
Qed.
Lemma bound_speed dir lo' hi' i j k y y' : hi' i j k = gas y -> lo' i j k = gas y' -> face_speed (fun _ => true) speed dir one hi' lo' i j k <= 1.
Proof. intros A B. unfold face_speed, one. rewrite A, B. right. apply gas_flux. Qed.
Lemma gas_moves dir y : moves speed dir (gas y).
Proof. split; [cbn; lra|]. unfold slower_than. destruct dir as [|[|dir]]; cbn; repeat split; lra. Qed.
Theorem courant_refuted : exists number vchar dx1 dx2 dx3 cour g g1 g2 g3 lo1 hi1 lo2 hi2 lo3 hi3 S Pi c1 c2 c3, number 0%nat = true /\ cour = 9 / 10 /\ 0 < dx1 /\ 0 < dx2 /\ 0 < dx3 /\
  faces (fun _ dir P => moves vchar dir P) lo1 hi1 lo2 hi2 lo3 hi3 0 0 0 /\ speeds_below number vchar g1 g2 g3 lo1 hi1 lo2 hi2 lo3 hi3 c1 c2 c3 0 0 0 /\
  faces (fun _ _ P => inside_range 0 1 (p_scalar P 8%nat)) lo1 hi1 lo2 hi2 lo3 hi3 0 0 0 /\
  p_scalar (lo1 0%Z 0%Z 0%Z) 8%nat + p_scalar (hi1 0%Z 0%Z 0%Z) 8%nat = 2 * p_scalar Pi 8%nat /\
  p_scalar (lo2 0%Z 0%Z 0%Z) 8%nat + p_scalar (hi2 0%Z 0%Z 0%Z) 8%nat = 2 * p_scalar Pi 8%nat /\
  p_scalar (lo3 0%Z 0%Z 0%Z) 8%nat + p_scalar (hi3 0%Z 0%Z 0%Z) 8%nat = 2 * p_scalar Pi 8%nat /\
  scalar_after number vchar dx1 dx2 dx3 (fluxcalc_dt cour dx1 dx2 dx3 c1 c2 c3) g 1 1 g1 g2 g3 lo1 hi1 lo2 hi2 lo3 hi3 S Pi 0 0 0 8 < 0.
Proof.
  exists (fun _ => true), speed, 1, 100, 100, (9 / 10), 1, one, one, one, (low (1 / 4)), (low (3 / 4)), (flat (1 / 2)), (flat (1 / 2)), (flat (1 / 2)), (flat (1 / 2)), S0, (gas (1 / 2)), 1, 1, 1.
  split; [reflexivity|]. split; [reflexivity|]. split; [lra|]. split; [lra|]. split; [lra|].
  split; [unfold faces, low, flat; cbn [Z.ltb Z.compare Z.add Z.sub Z.opp Pos.sub Z.pos_sub]; repeat match goal with |- _ /\ _ => split end; apply gas_moves|].
  split; [unfold speeds_below; repeat apply conj; (eapply bound_speed; reflexivity)|].
  split; [unfold faces, low, flat, inside_range; cbn; repeat apply conj; lra|].
  split; [cbn; lra|]. split; [cbn; lra|]. split; [cbn; lra|].
  change (8%nat) with (8 + 0)%nat. rewrite after_U by reflexivity. cbn [Nat.add].
  destruct (moved (1 / 4) (3 / 4) (1 / 2) (fluxcalc_dt (9 / 10) 1 100 100 1 1 1) 100 ltac:(lra)) as [A B]. cbv zeta in A, B. rewrite A, B. unfold fluxcalc_dt. lra.
Qed.
(** a step of a tenth of that: both conditions hold *)
Lemma case_linear : faces (fun _ dir P => moves speed dir P) (low (1 / 4)) (low (3 / 4)) (flat (1 / 2)) (flat (1 / 2)) (flat (1 / 2)) (flat (1 / 2)) 0 0 0 /\
  speeds_below (fun _ => true) speed one one one (low (1 / 4)) (low (3 / 4)) (flat (1 / 2)) (flat (1 / 2)) (flat (1 / 2)) (flat (1 / 2)) 1 1 1 0 0 0 /\
  faces (fun _ _ P => inside_range 0 1 (p_scalar P 8%nat)) (low (1 / 4)) (low (3 / 4)) (flat (1 / 2)) (flat (1 / 2)) (flat (1 / 2)) (flat (1 / 2)) 0 0 0 /\
  at_most_out (1 / 10) 1 1 1 (gas (3 / 4)) <= 1 / 6.
Proof.
  split; [unfold faces, low, flat; cbn [Z.ltb Z.compare Z.add Z.sub Z.opp Pos.sub Z.pos_sub]; repeat match goal with |- _ /\ _ => split end; apply gas_moves|].
  split; [unfold speeds_below; repeat apply conj; (eapply bound_speed; reflexivity)|].
  split; [unfold faces, low, flat, inside_range; cbn; repeat apply conj; lra|]. unfold at_most_out. cbn. lra.
Qed.
