(** The ledger of leptons: proofs. *)
From Coq Require Import Reals Bool ZArith List Lia Lra.
From Verif Require Import TallyModel TallyProofs LedgerModel LedgerSpec.
Import ListNotations.
Open Scope R_scope.

Lemma sign_number p : get_lepton_sign p = lepton_number (ntype p).
Proof. unfold get_lepton_sign, lepton_number. destruct (ntype p) as [|[q|q|]|q]; reflexivity. Qed.
Lemma rad_worth l : lepton_rad l = fold_right (fun p a => worth p + a) 0 l.
Proof.
  induction l as [|p l IH]; [reflexivity|]. cbn [lepton_rad fold_right]. change (fold_right (fun p a => (if Z.eqb (ntype p) TYPE_TRACER then 0 else nw p * get_lepton_sign p) + a) 0 l) with (lepton_rad l). rewrite IH. f_equal.
  unfold worth. rewrite sign_number. destruct (Z.eqb_spec (ntype p) TYPE_TRACER) as [->|]; [cbn; ring|reflexivity].
Qed.
Lemma rad_app l l' : lepton_rad (l ++ l') = lepton_rad l + lepton_rad l'.
Proof. rewrite !rad_worth. induction l; cbn [fold_right app] in *; lra. Qed.
Lemma rad_cons p l : lepton_rad (p :: l) = worth p + lepton_rad l.
Proof. rewrite !rad_worth. reflexivity. Qed.
Lemma nth_split l n (p : nu_packet) : nth_error l n = Some p -> l = firstn n l ++ p :: skipn (S n) l.
Proof. revert n. induction l as [|q l IH]; intros [|n] H; try discriminate; cbn in *; [congruence|]. f_equal. apply IH, H. Qed.
Lemma rad_nth l n p : nth_error l n = Some p -> lepton_rad l = lepton_rad (firstn n l) + (worth p + lepton_rad (skipn (S n) l)).
Proof. intros H. rewrite (nth_split l n p H) at 1. rewrite rad_app, rad_cons. reflexivity. Qed.
Lemma worth_weight w p : worth (weight w p) = w * lepton_number (ntype p).
Proof. reflexivity. Qed.
Section Step.
Variables (dt d3x MP M_unit : R) (uh ug : zone -> R).
Hypothesis D : dt * d3x <> 0.
Hypothesis HM : MP <> 0.
Hypothesis HU : M_unit <> 0.
Variable zs : list zone.
Hypothesis ND : NoDup zs.
(** what radG will give to the gas of the zones *)
Definition given (r : zone -> R) : R := fold_right (fun z a => dt * d3x * (M_unit / MP) * r z + a) 0 zs.
Lemma given_upd z v r : In z zs -> given (upd z v r) = given r + dt * d3x * (M_unit / MP) * (v - r z).
Proof using ND.
  unfold given. clear D HM HU. induction zs as [|y l IH]; intros I; [destruct I|]. cbn [fold_right]. apply NoDup_cons_iff in ND. destruct ND as [N ND']. unfold upd at 1. destruct (zone_eqb_spec y z) as [->|NE].
  - assert (E : fold_right (fun z0 a => dt * d3x * (M_unit / MP) * upd z v r z0 + a) 0 l = fold_right (fun z0 a => dt * d3x * (M_unit / MP) * r z0 + a) 0 l).
    { clear IH ND ND' I. induction l as [|x l IH]; [reflexivity|]. cbn [fold_right]. rewrite IH by (intros H; apply N; now right). f_equal. f_equal. unfold upd. destruct (zone_eqb_spec x z) as [->|]; [exfalso; apply N; now left|reflexivity]. }
    rewrite E. ring.
  - destruct I as [E|I]; [congruence|]. rewrite (IH ND' I). ring.
Qed.
(** gas as it will be, radiation and losses *)
Definition book (s : state) : R := given (radG_ye s) + lepton_rad (packets s) + lost_local s.
Lemma book_step s e s' : inside zs e -> happen dt d3x MP M_unit uh ug s e = Some s' -> book s' = book s + drift1 uh ug (packets s) e.
Proof using D HM HU ND.
  intros I H. destruct (Rmult_neq_0_reg _ _ D) as [D1 D2]. unfold book. destruct e as [z p|n z|n b|n b|n]; cbn [happen drift1 inside] in *.
  - injection H as <-. cbn [packets radG_ye lost_local]. try change (match packets s with [] => [] | _ :: l => skipn n l end) with (skipn (S n) (packets s)). rewrite given_upd by exact I. rewrite rad_cons, sign_number. unfold worth. field. auto.
  - destruct (nth_error (packets s) n) as [p|] eqn:E; [|discriminate]. injection H as <-. cbn [packets radG_ye lost_local]. try change (match packets s with [] => [] | _ :: l => skipn n l end) with (skipn (S n) (packets s)). rewrite given_upd by exact I. unfold set_nth. rewrite rad_app, rad_cons, (rad_nth _ _ _ E), worth_weight, sign_number. unfold worth. field. auto.
  - destruct (nth_error (packets s) n) as [p|] eqn:E; [|discriminate]. injection H as <-. cbn [packets radG_ye lost_local]. try change (match packets s with [] => [] | _ :: l => skipn n l end) with (skipn (S n) (packets s)). rewrite rad_app, !rad_cons, (rad_nth _ _ _ E), !worth_weight. unfold worth. field. exact I.
  - destruct (nth_error (packets s) n) as [p|] eqn:E; [|discriminate]. injection H as <-. cbn [packets radG_ye lost_local]. try change (match packets s with [] => [] | _ :: l => skipn n l end) with (skipn (S n) (packets s)). unfold set_nth. rewrite rad_app, !rad_cons, (rad_nth _ _ _ E), !worth_weight. unfold worth. field. exact I.
  - destruct (nth_error (packets s) n) as [p|] eqn:E; [|discriminate]. injection H as <-. cbn [packets radG_ye lost_local]. try change (match packets s with [] => [] | _ :: l => skipn n l end) with (skipn (S n) (packets s)). rewrite rad_app, (rad_nth _ _ _ E), sign_number. unfold worth. ring.
Qed.
Lemma after_ok s e s' : happen dt d3x MP M_unit uh ug s e = Some s' -> packets s' = after (packets s) e.
Proof using.
  intros H. destruct e as [z p|n z|n b|n b|n]; cbn [happen after] in *; [injection H as <-; reflexivity| | | |];
    (destruct (nth_error (packets s) n) as [p|]; [|discriminate]); injection H as <-; reflexivity.
Qed.
Lemma book_all es : forall s s', Forall (inside zs) es -> happens dt d3x MP M_unit uh ug s es = Some s' -> book s' = book s + drift uh ug (packets s) es.
Proof using D HM HU ND.
  induction es as [|e es IH]; intros s s' F H; cbn [happens drift] in *.
  - injection H as <-. ring.
  - apply Forall_cons_iff in F. destruct F as [I F]. destruct (happen dt d3x MP M_unit uh ug s e) as [s1|] eqn:E; [|discriminate]. rewrite (IH s1 s' F H), (book_step s e s1 I E), (after_ok s e s1 E). ring.
Qed.
Lemma calm_drift es : forall l, Forall (calm uh ug) es -> drift uh ug l es = 0.
Proof using.
  induction es as [|e es IH]; intros l F; [reflexivity|]. apply Forall_cons_iff in F. destruct F as [C F]. cbn [drift]. rewrite (IH _ F).
  destruct e; cbn [calm drift1] in *; try (destruct (nth_error l n)); try rewrite C; try lra.
Qed.
(** the gas after apply_rad_force *)
Lemma gas_after RU L f rho' ut' r : RU * L ^ 3 = M_unit -> (forall z, In z zs -> rho (f z) * ut (f z) * g (f z) <> 0 /\ rho' z * ut' z * g (f z) = rho (f z) * ut (f z) * g (f z)) ->
  lepton_gas d3x MP RU L zs (apply_rad_force dt f rho' ut' r) = lepton_gas d3x MP RU L zs f + given r.
Proof using HM.
  intros EU H. unfold lepton_gas, given. clear ND. induction zs as [|z l IH]; [cbn; lra|]. cbn [fold_right]. rewrite IH by (intros; apply H; now right). destruct (H z (or_introl eq_refl)) as (N & E).
  assert (C : lepton_cell d3x MP RU L (apply_rad_force dt f rho' ut' r z) = lepton_cell d3x MP RU L (f z) + dt * d3x * (M_unit / MP) * r z).
  { assert (G : forall q, lepton_cell d3x MP RU L q = (rho q * ut q * g q) * Ye q * (d3x * (RU * L ^ 3) / MP)) by (intros q; unfold lepton_cell; field; exact HM).
    rewrite !G. unfold apply_rad_force. cbn [rho ut g Ye]. rewrite E, EU. field. repeat split; try assumption; intros Z; rewrite Z in N; lra. }
  rewrite C. ring.
Qed.
Lemma ledger RU L f rho' ut' s s' es lost : RU * L ^ 3 = M_unit -> (forall z, In z zs -> rho (f z) * ut (f z) * g (f z) <> 0 /\ rho' z * ut' z * g (f z) = rho (f z) * ut (f z) * g (f z)) ->
  (forall z, radG_ye s z = 0) -> lost_local s = 0 -> Forall (inside zs) es -> happens dt d3x MP M_unit uh ug s es = Some s' ->
  lepton_tot d3x MP RU L zs (apply_rad_force dt f rho' ut' (radG_ye s')) (packets s') (lost + lost_local s') - lepton_tot d3x MP RU L zs f (packets s) lost = drift uh ug (packets s) es.
Proof using D HM HU ND.
  intros EU H R0 L0 F Hs. unfold lepton_tot. rewrite (gas_after RU L f rho' ut' (radG_ye s') EU H). pose proof (book_all es s s' F Hs) as B. unfold book in B. rewrite L0 in B.
  assert (G0 : given (radG_ye s) = 0). { unfold given. clear - R0. induction zs as [|z l IH]; [reflexivity|]. cbn [fold_right]. rewrite R0, IH. ring. }
  rewrite G0 in B. lra.
Qed.
End Step.

(** the emission of C61 *)
From Verif Require EmitModel EmitSpec EmitProps.
Section Emission.
Variables (RU L : R) (zs : list zone) (f : zone -> gas) (rho' ut' : zone -> R).
Lemma emission r u gd es e ds e' rest : EmitModel.dt r * EmitModel.d3x r <> 0 -> EmitModel.MP r <> 0 -> EmitModel.M_unit r <> 0 -> EmitModel.neutrinos r = true ->
  Forall (fun zd => u (EmitModel.zone_of (fst zd)) = EmitModel.ucon0 (fst zd) /\ gd (EmitModel.zone_of (fst zd)) = EmitModel.gdet (fst zd)) es ->
  EmitModel.emit_sites false r es e ds = EmitModel.Got e' rest ->
  RU * L ^ 3 = EmitModel.M_unit r -> (forall z, In z zs -> rho (f z) * ut (f z) * g (f z) <> 0 /\ rho' z * ut' z * g (f z) = rho (f z) * ut (f z) * g (f z)) ->
  exists new, EmitModel.photons e' = new ++ EmitModel.photons e /\
  let force e := apply_rad_force (EmitModel.dt r) f rho' ut' (fun z => EmitModel.radG_ye (EmitModel.cells e z)) in
  let gas e := lepton_gas (EmitModel.d3x r) (EmitModel.MP r) RU L zs (force e) in
  gas e' - gas e = - fold_right (fun z a => u z * EmitSpec.total (fun p => EmitModel.w p * lepton_number (EmitModel.type p))
                                   (filter (fun p => let '(_, i, j, k) := EmitModel.origin p in EmitModel.zone_eqb (i, j, k) z) new) + a) 0 zs.
Proof.
  intros D HM HU HN Hs E EU H. destruct (EmitProps.C61_conserved r u gd es e ds e' rest D Hs E) as (new & P & _ & B). exists new. split; [exact P|]. cbv beta zeta.
  rewrite !(gas_after (EmitModel.dt r) (EmitModel.d3x r) (EmitModel.MP r) (EmitModel.M_unit r) HM zs RU L f rho' ut' _ EU H). unfold given.
  clear H Hs E P. destruct (Rmult_neq_0_reg _ _ D) as [D1 D2]. set (G := lepton_gas _ _ _ _ _ _). clearbody G.
  cut (fold_right (fun (z : zone) a => EmitModel.dt r * EmitModel.d3x r * (EmitModel.M_unit r / EmitModel.MP r) * EmitModel.radG_ye (EmitModel.cells e' z) + a) 0 zs
     = fold_right (fun (z : zone) a => EmitModel.dt r * EmitModel.d3x r * (EmitModel.M_unit r / EmitModel.MP r) * EmitModel.radG_ye (EmitModel.cells e z) + a) 0 zs
       - fold_right (fun (z : zone) a => u z * EmitSpec.total (fun p => EmitModel.w p * lepton_number (EmitModel.type p))
                                   (filter (fun p => let '(_, i, j, k) := EmitModel.origin p in EmitModel.zone_eqb (i, j, k) z) new) + a) 0 zs); [intros X; unfold zone, EmitModel.zone in *; rewrite X; ring|].
  induction zs as [|z l IH]; [cbn; ring|]. cbn [fold_right]. rewrite IH. destruct (B z) as (_ & B2 & _). specialize (B2 HN). cbv zeta in B2.
  change EmitSpec.lepton_number with lepton_number in B2. set (T := EmitSpec.total _ _) in *.
  assert (X : EmitModel.dt r * EmitModel.d3x r * (EmitModel.M_unit r / EmitModel.MP r) * EmitModel.radG_ye (EmitModel.cells e' z) = EmitModel.dt r * EmitModel.d3x r * (EmitModel.M_unit r / EmitModel.MP r) * EmitModel.radG_ye (EmitModel.cells e z) - u z * T).
  { replace (u z * T) with ((EmitModel.M_unit r / EmitModel.MP r) * (u z * (EmitModel.MP r / EmitModel.M_unit r) * T)) by (field; auto). rewrite <- B2. ring. }
  rewrite X. ring.
Qed.
End Emission.
