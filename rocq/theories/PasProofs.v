(** Proofs about passive scalars: the floors. *)
From Coq Require Import Reals Bool ZArith List Lia Lra.
From Verif Require Import RLib FluxModel TabModel TabSpec TabProofs InvModel PasModel PasSpec.
Import ListNotations.
Open Scope R_scope.

Lemma put_same p i x : put p i x i = x.
Proof. unfold put. now rewrite Nat.eqb_refl. Qed.
Lemma put_other p i x j : j <> i -> put p i x j = p j.
Proof. intros N. unfold put. now rewrite (proj2 (Nat.eqb_neq j i) N). Qed.

(** ** Back and forth *)
Lemma round_trip number g lapse gamma rho P : 0 < g -> 0 < lapse -> 0 < gamma -> 0 < rho ->
  let ut := gamma / lapse in scalar_prim number g lapse gamma (scalar_flux number g (rho * ut) ut P) (rho * ut * g) = P.
Proof. intros G L A D ut. unfold scalar_prim, scalar_flux, ut. destruct number; field; repeat split; lra. Qed.

(** ** fixup_passive *)
Section Fix.
Variables (yes : axis) (mks : bool) (number : nat -> bool) (pre : prims).
Definition fin (e : nat) (x : R) : R :=
  match e with
  | 0%nat => catch_in yes x
  | 1%nat => catch_in yes x
  | 2%nat => if mks then (let x := if Rltb x 0 then 0 else x in if Rltb 1 x then 1 else x) else x
  | _ => x
  end.
Let step := fun (pv : prims) (e : nat) =>
    let ip := (PASSIVE_START + e)%nat in
    let pv := if number e then put pv ip (pre ip) else pv in
    match init_passives yes mks e with Some f => f pv pre | None => pv end.
Lemma step_own pv e : step pv e (8 + e)%nat = fin e (if number e then pre (8 + e)%nat else pv (8 + e)%nat).
Proof.
  unfold step. cbv zeta. unfold PASSIVE_START.
  assert (A : (if number e then put pv (8 + e) (pre (8 + e)%nat) else pv) (8 + e)%nat = if number e then pre (8 + e)%nat else pv (8 + e)%nat) by (destruct (number e); [apply put_same|reflexivity]).
  revert A. generalize (if number e then put pv (8 + e) (pre (8 + e)%nat) else pv). generalize (if number e then pre (8 + e)%nat else pv (8 + e)%nat). intros x q A.
  destruct e as [|[|[|e]]]; cbn [init_passives fin].
  - unfold do_ye_fixup, YE. change (8 + 0)%nat with 8%nat in *. rewrite put_same. now f_equal.
  - unfold do_ye_em_fixup, YE_EM. change (8 + 1)%nat with 9%nat in *. rewrite put_same. now f_equal.
  - destruct mks; [|exact A]. unfold do_atm_fixup, ATM. change (8 + 2)%nat with 10%nat in *. cbv zeta. rewrite A.
    destruct (Rltb_spec x 0).
    + rewrite !put_same. rewrite (Rltb_false 1 0) by lra. now rewrite put_same.
    + rewrite A. destruct (Rltb 1 x); [apply put_same|exact A].
  - exact A.
Qed.
Lemma step_other pv e ip : ip <> (8 + e)%nat -> step pv e ip = pv ip.
Proof.
  intros N. unfold step. cbv zeta. unfold PASSIVE_START.
  assert (A : (if number e then put pv (8 + e) (pre (8 + e)%nat) else pv) ip = pv ip) by (destruct (number e); [now apply put_other|reflexivity]).
  revert A. generalize (if number e then put pv (8 + e) (pre (8 + e)%nat) else pv). intros q A.
  destruct e as [|[|[|e]]]; cbn [init_passives].
  - unfold do_ye_fixup, YE. rewrite put_other by lia. exact A.
  - unfold do_ye_em_fixup, YE_EM. rewrite put_other by lia. exact A.
  - destruct mks; [|exact A]. unfold do_atm_fixup. cbv zeta.
    match goal with |- context [Rltb 1 ?z] => destruct (Rltb 1 z) end; [rewrite put_other by (unfold ATM; lia)|];
      (destruct (Rltb (q ATM) 0); [rewrite put_other by (unfold ATM; lia)|]; exact A).
  - exact A.
Qed.
Lemma fold_other l : forall pv ip, (forall e, In e l -> ip <> (8 + e)%nat) -> fold_left step l pv ip = pv ip.
Proof.
  induction l as [|e l IH]; intros pv ip N; [reflexivity|]. cbn [fold_left]. rewrite IH by (intros a A; apply N; now right). apply step_other, N. now left.
Qed.
Lemma fold_own l : NoDup l -> forall pv e, In e l -> fold_left step l pv (8 + e)%nat = fin e (if number e then pre (8 + e)%nat else pv (8 + e)%nat).
Proof.
  induction 1 as [|a l NI ND IH]; intros pv e I; [destruct I|]. cbn [fold_left]. destruct (Nat.eq_dec e a) as [-> | NE].
  - rewrite fold_other by (intros b B; intros C; apply NI; replace a with b by lia; exact B). apply step_own.
  - destruct I as [E | I]; [congruence|]. rewrite IH by exact I. now rewrite step_other by lia.
Qed.
Lemma fixup_own n pv e : (e < n)%nat -> fixup_passive n number (init_passives yes mks) pv pre (8 + e)%nat = fin e (if number e then pre (8 + e)%nat else pv (8 + e)%nat).
Proof. intros L. apply fold_own; [apply seq_NoDup|]. apply in_seq. lia. Qed.
Lemma fixup_other n pv ip : (ip < 8 \/ 8 + n <= ip)%nat -> fixup_passive n number (init_passives yes mks) pv pre ip = pv ip.
Proof. intros L. apply fold_other. intros e I. apply in_seq in I. lia. Qed.
End Fix.

Lemma brought_in_catch yes x : ax_min yes < ax_max yes -> brought_in (ax_min yes) (ax_max yes) x (catch_in yes x).
Proof.
  intros L. unfold brought_in, catch_in. destruct (Rltb_spec x (ax_min yes)); [repeat split; lra|]. destruct (Rleb_spec (ax_max yes) x); repeat split; lra.
Qed.
Lemma brought_01_fin x : brought_01 x (let x := if Rltb x 0 then 0 else x in if Rltb 1 x then 1 else x).
Proof. unfold brought_01. cbv zeta. destruct (Rltb_spec x 0). - rewrite (Rltb_false 1 0) by lra. repeat split; lra. - destruct (Rltb_spec 1 x); repeat split; lra. Qed.

(** ** A zone *)
Lemma cold_scalar thresh minu r p ip : ip <> UU -> cold thresh minu r p ip = p ip.
Proof. intros N. unfold cold. destruct (Rltb r thresh); [now apply put_other|reflexivity]. Qed.
Theorem zone_numbers yes mks n set g lapse thresh minu f p : ax_min yes < ax_max yes -> (2 <= n)%nat -> (mks = true -> (3 <= n)%nat) ->
  let p' := fix_zone n (init_types mks set) (init_passives yes mks) g lapse thresh minu f p in
  brought_in (ax_min yes) (ax_max yes) (p 8%nat) (p' 8%nat) /\ brought_in (ax_min yes) (ax_max yes) (p 9%nat) (p' 9%nat) /\
  (mks = true -> brought_01 (p 10%nat) (p' 10%nat)) /\
  (forall e, (2 <= e < n)%nat -> (mks = true -> e <> 2%nat) -> set e = true -> p' (8 + e)%nat = p (8 + e)%nat).
Proof.
  intros AX N2 N3 p'. unfold p', fix_zone. split; [|split; [|split]].
  - rewrite (fixup_own yes mks _ p n _ 0 ltac:(lia)); cbn [init_types fin]; now apply brought_in_catch.
  - rewrite (fixup_own yes mks _ p n _ 1 ltac:(lia)); cbn [init_types fin]; now apply brought_in_catch.
  - intros ->. pose proof (N3 eq_refl). rewrite (fixup_own yes true _ p n _ 2 ltac:(lia)); cbn [init_types fin]; now apply brought_01_fin.
  - intros e E NM SE. rewrite (fixup_own yes mks _ p n _ e ltac:(lia)).
    destruct e as [|[|[|e]]]; [lia|lia| |]; cbn [init_types fin].
    + destruct mks; [now specialize (NM eq_refl)|]. now rewrite SE.
    + now rewrite SE.
Qed.
(** volume densities *)
Theorem zone_intrinsic yes mks n set g lapse thresh minu f p e : 0 < g -> 0 < lapse -> (2 <= e < n)%nat -> (mks = true -> e <> 2%nat) -> set e = false ->
  let p' := fix_zone n (init_types mks set) (init_passives yes mks) g lapse thresh minu f p in
  match f with
  | Normal _ _ ut _ (Some (_, gamma)) => 0 < gamma -> p' (8 + e)%nat * (gamma / lapse) = p (8 + e)%nat * ut
  | _ => p' (8 + e)%nat = p (8 + e)%nat
  end.
Proof.
  intros G L E NM SE p'.
  assert (T : init_types mks set e = false).
  { destruct e as [|[|[|e]]]; [lia|lia| |]; cbn [init_types]; [|exact SE]. destruct mks; [now specialize (NM eq_refl)|exact SE]. }
  assert (A : p' (8 + e)%nat = apply_floors (init_types mks set) g lapse f p (8 + e)%nat).
  { unfold p', fix_zone. rewrite (fixup_own yes mks _ p n _ e ltac:(lia)). rewrite T. rewrite cold_scalar by (unfold UU; lia).
    destruct e as [|[|[|e]]]; [lia|lia| |]; cbn [fin]; [|reflexivity]. destruct mks; [now specialize (NM eq_refl)|reflexivity]. }
  rewrite A. clear A p'. unfold apply_floors, basics, PASSIVE_START, RHO, UU. destruct f as [|b|ra ua ut uta [[b gamma]|]].
  - reflexivity.
  - reflexivity.
  - intros GA. cbv zeta. cbn [Nat.add Nat.ltb Nat.leb Nat.eqb].
    replace (8 + e - 8)%nat with e by lia. change (S (S (S (S (S (S (S (S e)))))))) with (8 + e)%nat in *. replace (8 + e - 8)%nat with e by lia.
    rewrite T. unfold scalar_prim, scalar_flux. field. split; lra.
  - cbv zeta. cbn [Nat.add Nat.eqb]. lra.
Qed.
(** the basic variables are what the floors left, the energy apart *)
Theorem zone_basics yes mks n number g lapse thresh minu f p ip : (ip < 8)%nat -> ip <> 1%nat ->
  fix_zone n number (init_passives yes mks) g lapse thresh minu f p ip = apply_floors number g lapse f p ip.
Proof. intros L N. unfold fix_zone. rewrite fixup_other by lia. now apply cold_scalar. Qed.
(** the composition the least energy is taken at *)
Theorem zone_cold yes mks n set g lapse thresh minu f p : 0 < g -> p 0%nat < thresh ->
  match f with Normal ra _ ut uta (Some _) => p 0%nat * ut + ra * uta <> 0 | _ => True end ->
  let p' := fix_zone n (init_types mks set) (init_passives yes mks) g lapse thresh minu f p in
  p' 1%nat = minu (p' 0%nat) (match f with Normal ra _ ut uta (Some _) => diluted (p 0%nat) ut ra uta (p 8%nat) | _ => p 8%nat end).
Proof.
  intros G C NZ p'. unfold p', fix_zone. rewrite !(fixup_other _ _ _ _ n _) by lia. rewrite (cold_scalar _ _ _ _ 0) by (unfold UU; lia).
  unfold cold. change RHO with 0%nat. rewrite (Rltb_true (p 0%nat) thresh) by exact C. change UU with 1%nat. rewrite put_same. f_equal. change YE with 8%nat.
  unfold apply_floors, basics, PASSIVE_START, RHO, UU. destruct f as [|b|ra ua ut uta [[b gamma]|]]; try reflexivity.
  - cbv zeta. cbn [Nat.ltb Nat.leb Nat.eqb Nat.sub init_types]. unfold scalar_prim, scalar_flux, diluted.
    replace (p 0%nat * ut * g + ra * uta * g) with ((p 0%nat * ut + ra * uta) * g) by ring.
    replace (p 0%nat * ut * p 8%nat * g + ra * uta * 0 * g) with (p 8%nat * (p 0%nat * ut) * g) by ring.
    field. split; [exact NZ|lra].
  - cbv zeta. cbn [Nat.eqb]. ring.
Qed.
Lemma diluted_less rho ut ra uta Y : 0 < rho -> 0 < ut -> 0 < ra -> 0 < uta -> 0 < Y -> 0 < diluted rho ut ra uta Y < Y.
Proof.
  intros A B C D E. unfold diluted. pose proof (Rmult_lt_0_compat _ _ A B). pose proof (Rmult_lt_0_compat _ _ C D). pose proof (Rmult_lt_0_compat _ _ E H).
  split; [apply Rdiv_lt_0_compat; lra|]. apply Rmult_lt_reg_r with (rho * ut + ra * uta); [lra|]. unfold Rdiv. rewrite Rmult_assoc, Rinv_l by lra. nra.
Qed.
