(** Lemmas about states on an adiabat (proofs of C120). *)
From Coq Require Import Reals Bool ZArith List Lia Lra Psatz.
From Verif Require Import RLib XLib IntLib TabModel TabSpec TabProofs RootModel RootSpec RootProofs InvModel InvProofs AdiaModel IsoModel IsoSpec.
Import ListNotations.
Open Scope R_scope.

Lemma axis_at rho d i x : even rho d -> rd rho i = Some x -> x = ax_min rho + IZR i * d /\ (0 <= i < ax_n rho)%Z.
Proof. intros (_ & _ & _ & U) H. pose proof (rd_in _ _ _ H) as I. unfold ax_n. split; [|exact I]. rewrite (U i I) in H. injection H as <-. unfold ax_min. rewrite Z.sub_0_r. reflexivity. Qed.
Lemma axis_get rho d i : even rho d -> (0 <= i < ax_n rho)%Z -> rd rho i = Some (ax_min rho + IZR i * d).
Proof. intros (_ & _ & _ & U) I. rewrite (U i I). unfold ax_min. now rewrite Z.sub_0_r. Qed.
Lemma lT_rd_in a i : length (ad_lT a) = Z.to_nat (ad_imax a + 1 - ad_imin a) -> (ad_imin a <= i <= ad_imax a)%Z -> exists y, lT_rd a i = Some y /\ rd (ad_lT a) (i - ad_imin a) = Some y.
Proof.
  intros L I. unfold lT_rd. destruct (Z.leb_spec (ad_imin a) i), (Z.leb_spec i (ad_imax a)); try lia. cbn [andb]. destruct (rd_some (ad_lT a) (i - ad_imin a)) as (y & E); [rewrite L; lia|]. eauto.
Qed.

Section One.
Variables (rho : axis) (d : R) (a : adiabat).
Hypotheses (EV : even rho d) (SD : SMALL < d) (TR : traced_on rho a) (TWO : (ad_imin a < ad_imax a)%Z).
Let n := (ad_imax a - ad_imin a)%Z.
Lemma nodes_at : ad_lrho_min a = ax_min rho + IZR (ad_imin a) * d /\ ad_lrho_max a = ad_lrho_min a + IZR n * d /\ (ad_imax a < ax_n rho)%Z /\ (ax_n rho <= 2147483647)%Z /\ 1 <= IZR n.
Proof.
  destruct TR as (A & _ & B & C & _). destruct (axis_at _ _ _ _ EV B) as (-> & _). destruct (axis_at _ _ _ _ EV C) as (-> & I).
  split; [reflexivity|]. split; [unfold n; rewrite minus_IZR; ring|]. split; [lia|]. split; [apply EV|]. apply IZR_le. unfold n. lia.
Qed.
(** where the abscissa lies, and what is read *)
Lemma lT_of_in x : exists x' k yi yj, ad_lrho_min a <= x' <= ad_lrho_max a /\ (ad_lrho_min a <= x <= ad_lrho_max a -> x' = x) /\ (0 <= k)%Z /\ (k < n)%Z /\
  0 <= x' - (ad_lrho_min a + IZR k * d) <= 2 * d /\ rd (ad_lT a) k = Some yi /\ rd (ad_lT a) (k + 1) = Some yj /\
  lT_of rho a x = Some (Fin (yi + (x' - (ad_lrho_min a + IZR k * d)) * IZR (n - 1) / (IZR n * d) * (yj - yi))).
Proof.
  destruct nodes_at as (N1 & N2 & N3 & N4 & N5). pose proof SMALL_pos as SP. assert (0 < d) by apply EV. destruct TR as (T1 & T2 & T3 & T4 & T5).
  assert (WD : d <= IZR n * d) by nra.
  set (x1 := if Rltb x (ad_lrho_min a) then ad_lrho_min a else x). set (x' := if Rltb (ad_lrho_max a) x1 then ad_lrho_max a - SMALL else x1).
  assert (X : ad_lrho_min a <= x' <= ad_lrho_max a /\ (ad_lrho_min a <= x <= ad_lrho_max a -> x' = x)).
  { unfold x'. destruct (Rltb_spec (ad_lrho_max a) x1) as [Q|Q]; revert Q; unfold x1; destruct (Rltb_spec x (ad_lrho_min a)); lra. }
  destruct X as (X & XE).
  assert (FIN : forall k, (0 <= k < n)%Z -> 0 <= x' - (ad_lrho_min a + IZR k * d) <= 2 * d ->
    (let dx := (Fin (ad_lrho_max a - ad_lrho_min a) / Fin (IZR (n - 1)))%X in
     to_int (Fin (IZR (ad_imin a)) + Fin (x' - ad_lrho_min a) / dx)%X = Some (ad_imin a + k)%Z /\
     (Fin (x' - (ad_lrho_min a + IZR k * d)) / dx)%X = Fin ((x' - (ad_lrho_min a + IZR k * d)) * IZR (n - 1) / (IZR n * d))) ->
    exists x' k yi yj, ad_lrho_min a <= x' <= ad_lrho_max a /\ (ad_lrho_min a <= x <= ad_lrho_max a -> x' = x) /\ (0 <= k)%Z /\ (k < n)%Z /\
      0 <= x' - (ad_lrho_min a + IZR k * d) <= 2 * d /\ rd (ad_lT a) k = Some yi /\ rd (ad_lT a) (k + 1) = Some yj /\
      lT_of rho a x = Some (Fin (yi + (x' - (ad_lrho_min a + IZR k * d)) * IZR (n - 1) / (IZR n * d) * (yj - yi)))).
  { intros k K B (I & D). destruct (lT_rd_in a (ad_imin a + k)%Z T5) as (yi & R1 & R1'); [unfold n in K; lia|]. destruct (lT_rd_in a (ad_imin a + k + 1)%Z T5) as (yj & R2 & R2'); [unfold n in K; lia|].
    replace (ad_imin a + k - ad_imin a)%Z with k in R1' by ring. replace (ad_imin a + k + 1 - ad_imin a)%Z with (k + 1)%Z in R2' by ring.
    exists x', k, yi, yj. do 7 (split; [first [assumption|lia]|]). unfold lT_of. fold x1. cbv zeta. fold x'. change (ad_imax a - ad_imin a)%Z with n. rewrite I.
    rewrite (axis_get rho d (ad_imin a + k) EV) by (unfold n in K; lia). rewrite R1, R2.
    replace (ax_min rho + IZR (ad_imin a + k) * d) with (ad_lrho_min a + IZR k * d) by (rewrite N1, plus_IZR; ring). rewrite D. unfold xsub. cbn [xopp xadd xmul]. f_equal. f_equal. ring. }
  destruct (Z.eq_dec n 1) as [E1|E1].
  - apply (FIN 0%Z); [lia| |].
    + rewrite N2, E1 in X. lra.
    + cbv zeta. rewrite E1. change (IZR (1 - 1)) with 0. rewrite N2, E1. cbn [xdiv]. destruct (Reqb_spec 0 0); [|congruence]. unfold inf_by. rewrite Rltb_true by lra. cbn [xdiv xadd].
      split; [apply to_int_unique; [lia|rewrite Z.add_0_r; lra]|]. f_equal. field. lra.
  - assert (N6 : 1 <= IZR (n - 1)) by (apply IZR_le; unfold n in *; lia). assert (N7 : IZR n = IZR (n - 1) + 1) by (rewrite minus_IZR; ring).
    set (dx := IZR n * d / IZR (n - 1)). assert (DX : dx * IZR (n - 1) = IZR n * d) by (unfold dx; field; lra). assert (DP : 0 < dx) by (unfold dx; apply Rdiv_lt_0_compat; nra).
    set (t := (x' - ad_lrho_min a) / dx). assert (TX : t * dx = x' - ad_lrho_min a) by (unfold t; field; lra).
    assert (T0 : 0 <= t) by (unfold t; apply Rmult_le_pos; [lra|left; now apply Rinv_0_lt_compat]).
    assert (TN : t <= IZR (n - 1)) by (apply Rmult_le_reg_r with dx; [assumption|]; rewrite TX; nra).
    pose proof (Int_part_bounds t) as (I1 & I2). set (k := Int_part t) in *.
    assert (K0 : (0 <= k)%Z) by (assert (-1 < IZR k) by lra; change (-1) with (IZR (-1)) in H0; apply lt_IZR in H0; lia).
    assert (K1 : (k <= n - 1)%Z) by (apply le_IZR; lra).
    assert (KR : 0 <= IZR k) by (apply (IZR_le 0); lia). assert (DD : (dx - d) * IZR (n - 1) = d) by (rewrite Rmult_minus_distr_r, DX, N7; ring). assert (DG : 0 <= dx - d) by nra.
    apply (FIN k); [lia| |].
    + split; [nra|]. destruct (Z.eq_dec k (n - 1)) as [EK|EK].
      * assert (t = IZR (n - 1)) by (rewrite EK in I1; lra). rewrite EK. nra.
      * assert (K2 : IZR k <= IZR (n - 1) - 1) by (rewrite <- minus_IZR; apply IZR_le; lia). assert (t * dx <= (IZR k + 1) * dx) by nra. nra.
    + cbv zeta. rewrite xdiv_fin by lra. replace ((ad_lrho_max a - ad_lrho_min a) / IZR (n - 1)) with dx by (unfold dx; rewrite N2; field; lra).
      rewrite !xdiv_fin by lra. cbn [xadd]. fold t. split.
      * apply to_int_unique; [unfold n in *; lia|]. rewrite plus_IZR. lra.
      * f_equal. unfold dx. field. split; [lra|]. split; [lra|]. nra.
Qed.
Lemma lT_of_defined x : exists v, lT_of rho a x = Some (Fin v).
Proof. destruct (lT_of_in x) as (x' & k & yi & yj & _ & _ & _ & _ & _ & _ & _ & E). eauto. Qed.
Lemma lT_of_straight c b x : straight rho a c b -> ad_lrho_min a <= x <= ad_lrho_max a ->
  exists v, lT_of rho a x = Some (Fin v) /\ Rabs (v - (c + b * x)) <= 2 * Rabs b * d / IZR n.
Proof.
  intros ST X. destruct nodes_at as (N1 & N2 & N3 & N4 & N5). destruct (lT_of_in x) as (x' & k & yi & yj & _ & XE & K0 & K1 & B & R1 & R2 & E). specialize (XE X). subst x'.
  destruct TR as (T1 & _). assert (0 < d) by apply EV.
  assert (Y : forall j, (0 <= j <= n)%Z -> rd (ad_lT a) j = Some (c + b * (ad_lrho_min a + IZR j * d))).
  { intros j J. pose proof (ST (ad_imin a + j)%Z (ax_min rho + IZR (ad_imin a + j) * d)) as S1. replace (ad_imin a + j - ad_imin a)%Z with j in S1 by ring.
    rewrite S1; [f_equal; rewrite N1, plus_IZR; ring|unfold n in J; lia|]. apply axis_get; [exact EV|unfold n in J; lia]. }
  rewrite Y in R1, R2 by lia. injection R1 as <-. injection R2 as <-. eexists. split; [exact E|]. set (r := x - (ad_lrho_min a + IZR k * d)) in *.
  match goal with |- Rabs ?q <= _ => replace q with (- (b * r / IZR n)) end.
  - rewrite Rabs_Ropp. unfold Rdiv. rewrite !Rabs_mult. rewrite (Rabs_right (/ IZR n)) by (left; apply Rinv_0_lt_compat; lra). rewrite (Rabs_right r) by lra.
    apply Rmult_le_compat_r; [left; apply Rinv_0_lt_compat; lra|]. pose proof (Rabs_pos b). nra.
  - replace x with (r + (ad_lrho_min a + IZR k * d)) by (unfold r; ring). rewrite plus_IZR, minus_IZR. field. split; lra.
Qed.
End One.

(** one node only: the division of 0 by 0 *)
Lemma single rho a x : (ad_imax a = ad_imin a)%Z -> ad_lrho_max a = ad_lrho_min a -> x <= ad_lrho_max a -> lT_of rho a x = None.
Proof.
  intros E F X. unfold lT_of. cbv zeta. rewrite E, F, Z.sub_diag. replace (ad_lrho_min a - ad_lrho_min a) with 0 by ring. change (IZR (0 - 1)) with (-1).
  rewrite xdiv_fin by lra. replace (0 / -1) with 0 by (unfold Rdiv; ring). replace (if Rltb x (ad_lrho_min a) then ad_lrho_min a else x) with (ad_lrho_min a) by (destruct (Rltb_spec x (ad_lrho_min a)); lra).
  rewrite Rltb_false by lra. replace (ad_lrho_min a - ad_lrho_min a) with 0 by ring. cbn [xdiv]. destruct (Reqb_spec 0 0); [|congruence]. unfold inf_by. rewrite Rltb_false by lra. reflexivity.
Qed.

(** the table along the adiabat is defined *)
Lemma along_defined rho tmp yes dr dt dy a ye tab x : even rho dr -> even tmp dt -> even yes dy -> TOL < dr -> TOL < dt -> TOL < dy -> traced_on rho a -> (ad_imin a < ad_imax a)%Z ->
  length tab = (length rho * length tmp * length yes)%nat -> x <> ax_max rho -> exists lT v, lT_of rho a x = Some (Fin lT) /\ along rho tmp yes a ye tab x = Some v /\ EOS_SC_interp rho tmp yes x lT ye tab = Some v.
Proof.
  intros E1 E2 E3 D1 D2 D3 T TW L X. destruct (lT_of_defined rho dr a E1) with (x := x) as (lT & F); auto.
  { eapply Rlt_trans; [|exact D1]. unfold SMALL, TOL. apply Rinv_lt_contravar; [apply Rmult_lt_0_compat; apply pow_lt; lra|]. apply Rlt_pow; [lra|lia]. }
  destruct (interp_defined rho tmp yes dr dt dy E1 E2 E3 D1 D2 D3 tab x lT ye L X) as (v & V). exists lT, v. split; [exact F|]. unfold along. rewrite F. auto.
Qed.
