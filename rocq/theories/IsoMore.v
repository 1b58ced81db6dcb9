(** The search for a state on an adiabat (proofs of C120). *)
From Coq Require Import Reals Bool ZArith List Lia Lra Psatz.
From Verif Require Import RLib XLib IntLib TabModel TabSpec TabProofs RootModel RootSpec RootProofs InvModel InvProofs AdiaModel AdiaMore AdiaWit IsoModel IsoSpec IsoProofs.
Import ListNotations.
Open Scope R_scope.

Section Search.
Variables (rho tmp yes : axis) (a : adiabat) (tab_hm1 tab_lhm1 tab_le : list R) (e_shift h_shift u_shift RHO_unit U_unit : R).
Local Notation iso := (EOS_SC_isoentropy_hm1 rho tmp yes a tab_hm1 tab_lhm1 tab_le e_shift h_shift u_shift RHO_unit U_unit).
Lemma units fuel hm1 g r u lrho : 0 < RHO_unit -> 0 < U_unit -> iso fuel hm1 g = State r u lrho ->
  exists lT le, lT_of rho a lrho = Some (Fin lT) /\ EOS_SC_interp rho tmp yes lrho lT (catch_in yes (ad_ye a)) tab_le = Some le /\
  r * RHO_unit = pow10 lrho /\ u * U_unit = (pow10 le - e_shift) * (r * RHO_unit) + u_shift.
Proof.
  intros P Q. unfold EOS_SC_isoentropy_hm1, along. destruct (ad_hm1_min a); try discriminate. destruct (find_root _ _ _ _ _ _ _ _); try discriminate.
  destruct (lT_of rho a x) as [[lT| | |]|] eqn:L; try discriminate. destruct (EOS_SC_interp _ _ _ _ _ _ _) as [le|] eqn:E; [|discriminate].
  intros H. injection H as <- <- <-. exists lT, le. split; [exact L|]. split; [exact E|]. split; field; lra.
Qed.
Lemma found dr dt dy m hm1 g h0 h1 : even rho dr -> even tmp dt -> even yes dy -> TOL < dr -> TOL < dt -> TOL < dy -> traced_on rho a -> (ad_imin a < ad_imax a)%Z ->
  length tab_le = (length rho * length tmp * length yes)%nat -> ad_hm1_min a = Fin m ->
  along rho tmp yes a (ad_ye a) tab_lhm1 (ad_lrho_min a) = Some h0 -> along rho tmp yes a (ad_ye a) tab_lhm1 (ad_lrho_max a) = Some h1 ->
  h0 <= target tab_hm1 h_shift hm1 m <= h1 \/ h1 <= target tab_hm1 h_shift hm1 m <= h0 -> 3 * TABLE_TOL <= ad_lrho_max a \/ ad_lrho_max a <= - TABLE_TOL ->
  exists n lrho, find_root (lT_f_adiabat rho tmp yes a tab_lhm1) (target tab_hm1 h_shift hm1 m) (ad_lrho_min a) (ad_lrho_max a) TABLE_TOL TABLE_TOL n (catch_lrho rho g) = Success lrho /\
    (lrho <> ax_max rho -> exists r u, forall k, iso (n + k)%nat hm1 g = State r u lrho).
Proof.
  intros E1 E2 E3 D1 D2 D3 T TW L M A0 A1 Y Q. set (y := target tab_hm1 h_shift hm1 m) in *.
  assert (C : crosses (lT_f_adiabat rho tmp yes a tab_lhm1) y (ad_lrho_min a) (ad_lrho_max a)) by (unfold crosses, lT_f_adiabat; rewrite A0, A1; destruct Y; nra).
  destruct (nodes_at rho dr a E1 T TW) as (_ & N2 & _ & _ & N5). assert (0 < dr) by apply E1. pose proof TT_pos as TP.
  destruct (find_complete (lT_f_adiabat rho tmp yes a tab_lhm1) y (ad_lrho_min a) (ad_lrho_max a) TABLE_TOL TABLE_TOL ltac:(lra) ltac:(nra) (catch_lrho rho g) C Q) as (n & lrho & F).
  exists n, lrho. split; [specialize (F 0%nat); now rewrite Nat.add_0_r in F|]. intros NE.
  destruct (along_defined rho tmp yes dr dt dy a (catch_in yes (ad_ye a)) tab_le lrho) as (lT & v & _ & V & _); auto.
  do 2 eexists. intros k. unfold EOS_SC_isoentropy_hm1. rewrite M. fold y. rewrite F, V. reflexivity.
Qed.
Lemma floor hm1 m : find_min tab_hm1 <= hm1 * CL * CL < find_max tab_hm1 -> EOS_SC_hm1_min_adiabat m <= hm1 -> target tab_hm1 h_shift hm1 m = log10 (hm1 * (CL * CL) + h_shift).
Proof.
  intros I H. assert (CA : catch_hm1 tab_hm1 (hm1 * CL * CL) = hm1 * CL * CL) by (unfold catch_hm1; rewrite Rltb_false by lra; destruct (Rleb_spec (find_max tab_hm1) (hm1 * CL * CL)); lra).
  unfold target. cbv zeta. rewrite CA.
  assert (CP : 0 < CL * CL) by (unfold CL; lra). assert (CN : CL <> 0) by (unfold CL; lra). assert (m <= hm1 * CL * CL).
  { unfold EOS_SC_hm1_min_adiabat in H. apply Rmult_le_compat_r with (r := CL * CL) in H; [|lra]. replace (m / (CL * CL) * (CL * CL)) with m in H by (field; exact CN). lra. }
  rewrite Rltb_false by lra. f_equal. ring.
Qed.
End Search.

(** the adiabat with log temperatures 0, 1/2, 1 at log densities 0, 1, 2 *)
Definition r4 : axis := [0; 1; 2; 3].
Definition line3 : adiabat := mk_adiabat 0 0 0 2 0 2 (Fin 1) (Fin 10) [0; / 2; 1].
(** entries equal to the log temperature *)
Definition tempt : list R := [0; 0; 0; 0; 1; 1; 1; 1; 0; 0; 0; 0; 1; 1; 1; 1].
Lemma even4 : even r4 1.
Proof.
  split; [cbn; lia|]. split; [cbn; lia|]. split; [lra|]. intros i H. cbn in H. assert (C : (i = 0 \/ i = 1 \/ i = 2 \/ i = 3)%Z) by lia. unfold r4. cbn [nth].
  destruct C as [->|[->|[->| ->]]]; rewrite Z.sub_0_r; [change (Some 0 = Some (0 + 0 * 1))|change (Some 1 = Some (0 + 1 * 1))|change (Some 2 = Some (0 + 2 * 1))|change (Some 3 = Some (0 + 3 * 1))]; apply f_equal; lra.
Qed.
Lemma line3_traced : traced_on r4 line3.
Proof. repeat split; cbn; try lia; reflexivity. Qed.
Lemma line3_straight : straight r4 line3 0 (/ 2).
Proof.
  intros i x I A. cbn in I. cbn [ad_lT ad_imin line3]. rewrite Z.sub_0_r. assert (C : (i = 0 \/ i = 1 \/ i = 2)%Z) by lia.
  destruct C as [->|[->| ->]]; [change (Some 0 = Some x) in A; change (Some 0 = Some (0 + / 2 * x))|change (Some 1 = Some x) in A; change (Some (/ 2) = Some (0 + / 2 * x))|change (Some 2 = Some x) in A; change (Some 1 = Some (0 + / 2 * x))]; injection A as <-; f_equal; lra.
Qed.
Lemma tempt_ok : tabulates (fun _ y _ => y) r4 t2 t2 tempt /\ trilinear (fun _ y _ => y).
Proof.
  split.
  - split; [reflexivity|]. intros i j k x y z A B C. pose proof (rd_in _ _ _ A) as HA. pose proof (rd_in _ _ _ B) as HB. pose proof (rd_in _ _ _ C) as HC. cbn in HA, HB, HC.
    assert (CA : (i = 0 \/ i = 1 \/ i = 2 \/ i = 3)%Z) by lia. assert (CB : (j = 0 \/ j = 1)%Z) by lia. assert (CC : (k = 0 \/ k = 1)%Z) by lia. clear A C HA HB HC.
    destruct CB as [-> | ->]; [change (Some 0 = Some y) in B|change (Some 1 = Some y) in B]; injection B as <-; destruct CA as [-> |[-> |[-> | ->]]], CC as [-> | ->]; reflexivity.
  - exists 0, 0, 1, 0, 0, 0, 0, 0. intros. ring.
Qed.
Lemma small : 0 < SMALL < 1. Proof. split; [apply SMALL_pos|]. unfold SMALL. rewrite <- Rinv_1 at 1. apply Rinv_lt_contravar; [rewrite Rmult_1_l; apply pow_lt; lra|]. apply Rlt_pow_R1; [lra|lia]. Qed.
Lemma line3_0 x : 0 <= x < 2 -> lT_of r4 line3 x = Some (Fin (x / 4)).
Proof.
  intros X. unfold lT_of. cbn [ad_lrho_min ad_lrho_max ad_imin ad_imax line3]. cbv zeta. rewrite (Rltb_false x 0) by lra. rewrite (Rltb_false 2 x) by lra. change (2 - 0 - 1)%Z with 1%Z.
  rewrite xdiv_fin by lra. replace ((2 - 0) / 1) with 2 by field. rewrite xdiv_fin by lra. cbn [xadd].
  rewrite (to_int_unique _ 0%Z) by first [lia|lra]. change (rd r4 0) with (Some 0). change (lT_rd line3 0) with (Some 0). change (lT_rd line3 (0 + 1)) with (Some (/ 2)).
  cbv beta iota zeta. rewrite xdiv_fin by lra. unfold xsub. cbn [xadd xmul xopp]. f_equal. f_equal. field.
Qed.
Lemma line3_2 : lT_of r4 line3 2 = Some (Fin (3 / 4)).
Proof.
  unfold lT_of. cbn [ad_lrho_min ad_lrho_max ad_imin ad_imax line3]. cbv zeta. rewrite (Rltb_false 2 0) by lra. rewrite (Rltb_false 2 2) by lra. change (2 - 0 - 1)%Z with 1%Z.
  rewrite xdiv_fin by lra. replace ((2 - 0) / 1) with 2 by field. rewrite xdiv_fin by lra. cbn [xadd].
  rewrite (to_int_unique _ 1%Z) by first [lia|lra]. change (rd r4 1) with (Some 1). change (lT_rd line3 1) with (Some (/ 2)). change (lT_rd line3 (1 + 1)) with (Some 1).
  cbv beta iota zeta. rewrite xdiv_fin by lra. unfold xsub. cbn [xadd xmul xopp]. f_equal. f_equal. field.
Qed.
Lemma line3_far x : x < 0 -> lT_of r4 line3 x = Some (Fin 0).
Proof.
  intros X. assert (E : lT_of r4 line3 x = lT_of r4 line3 0) by (unfold lT_of; cbn [ad_lrho_min line3]; cbv zeta; rewrite (Rltb_true x 0) by lra; now rewrite (Rltb_false 0 0) by lra).
  rewrite E, line3_0 by lra. do 2 f_equal. field.
Qed.
Lemma line3_past x : 2 < x -> lT_of r4 line3 x = Some (Fin ((2 - SMALL) / 4)).
Proof.
  intros X. pose proof small. rewrite <- line3_0 by lra. unfold lT_of. cbn [ad_lrho_min ad_lrho_max line3]. cbv zeta. rewrite (Rltb_false x 0) by lra. rewrite (Rltb_true 2 x) by lra. rewrite (Rltb_false (2 - SMALL) 0) by lra. rewrite (Rltb_false 2 (2 - SMALL)) by lra. reflexivity.
Qed.
Lemma line3_along ye x lT : x <> 3 -> lT_of r4 line3 x = Some (Fin lT) -> along r4 t2 t2 line3 ye tempt x = Some lT.
Proof.
  intros N E. unfold along. rewrite E. destruct tempt_ok as (F & G). pose proof tiny. apply (interp_exact r4 t2 t2 1 1 1 even4 even2 even2 ltac:(lra) ltac:(lra) ltac:(lra) _ _ _ _ _ F G N).
Qed.
Local Notation f := (lT_f_adiabat r4 t2 t2 line3 tempt).
Lemma f_far x : x <> 3 -> f x <= 1 / 2 \/ f x = 3 / 4.
Proof.
  intros N. pose proof small. unfold lT_f_adiabat.
  destruct (Rlt_dec x 0) as [H0|H0]; [rewrite (line3_along _ _ _ N (line3_far x H0)); lra|].
  destruct (Rlt_dec x 2) as [H1|H1]; [rewrite (line3_along _ _ _ N (line3_0 x ltac:(lra))); lra|].
  destruct (Req_dec x 2) as [->|H2]; [rewrite (line3_along _ _ _ N line3_2); lra|]. rewrite (line3_along _ _ _ N (line3_past x ltac:(lra))); lra.
Qed.
Lemma f_past x : 2 < x -> x <> 3 -> f x = (2 - SMALL) / 4.
Proof. intros H N. unfold lT_f_adiabat. now rewrite (line3_along _ _ _ N (line3_past x H)). Qed.
Lemma f_ends : f 0 = 0 /\ f 2 = 3 / 4.
Proof. unfold lT_f_adiabat. rewrite (line3_along _ 0 _ ltac:(lra) (line3_0 0 ltac:(lra))), (line3_along _ 2 _ ltac:(lra) line3_2). split; lra. Qed.
Lemma f_3 : f 3 = 0.
Proof.
  pose proof small. pose proof tiny. unfold lT_f_adiabat, along. rewrite line3_past by lra. set (q := (2 - SMALL) / 4).
  assert (I : forall z, 0 <= z < 1 -> index t2 (catch true t2 (Fin z)) = Some 0%Z).
  { intros z Z. unfold catch. rewrite min_t2, max_t2. cbn [xltb xleb]. rewrite Rltb_false by lra. rewrite Rleb_false by lra.
    unfold index. rewrite (ax_d_spec _ _ even2). rewrite min_t2. unfold xsub. cbn [xopp xadd]. rewrite xdiv_fin by lra. apply to_int_unique; [lia|]. lra. }
  assert (ST : stencil r4 t2 t2 (Fin 3) (Fin q) (Fin 0) = Some (3, 0, 0)%Z).
  { unfold stencil. pose proof (index_end _ _ even4) as H1. change (ax_max r4) with 3 in H1. rewrite H1. rewrite (I q) by (unfold q; lra). rewrite (I 0) by lra. reflexivity. }
  cbn [ad_ye line3]. unfold EOS_SC_interp. rewrite ST. change (rd r4 3) with (Some 3). change (rd t2 0) with (Some 0). cbv zeta iota.
  change (EOS_ELEM r4 t2 (3 + 1)%Z (0 + 1)%Z (0 + 1)%Z) with 16%Z. rewrite (rd_none tempt 16) by (cbn; lia).
  repeat match goal with |- context [match rd ?l ?i with _ => _ end] => destruct (rd l i) end; reflexivity.
Qed.
Lemma not3 n g : find_root f (3 / 5) 0 2 TABLE_TOL TABLE_TOL n g <> Success 3.
Proof.
  intros H. pose proof TT_pos as TP. pose proof small. assert (F3 : f 3 <= 1 / 2 \/ f 3 = 3 / 4 -> ~ rel_error f (3 / 5) TABLE_TOL 3 <= TABLE_TOL).
  { intros F. unfold rel_error. intros Q. assert (TT : TABLE_TOL <= 1 / 100) by (unfold TABLE_TOL; apply (Rmult_le_reg_r (10 ^ 10)); [apply pow_lt; lra|]; rewrite Rinv_l by (apply pow_nonzero; lra); lra).
    assert (AP : 0 < Rabs (f 3) + TABLE_TOL) by (pose proof (Rabs_pos (f 3)); lra). apply Rmult_le_compat_r with (r := Rabs (f 3) + TABLE_TOL) in Q; [|lra]. unfold Rdiv in Q. rewrite Rmult_assoc, Rinv_l, Rmult_1_r in Q by lra.
    revert Q. unfold Rabs. repeat destruct (Rcase_abs _); destruct F; nra. }
  apply find_result in H; [|lra|lra]. destruct H as [(A & _)|[H|[(a & A & B & C)|(A & _)]]]; [lra|revert H; apply F3; rewrite f_3; lra| |lra].
  assert (TL : TABLE_TOL <= / 10 ^ 7 * 1) by (rewrite Rmult_1_r; unfold TABLE_TOL; apply Rinv_le_contravar; [apply pow_lt; lra|apply Rle_pow; [lra|lia]]).
  assert (S7 : 0 < / 10 ^ 7 <= / 10) by (split; [apply Rinv_0_lt_compat, pow_lt; lra|apply Rinv_le_contravar; [lra|]; rewrite <- (pow_1 10) at 1; apply Rle_pow; [lra|lia]]).
  assert (AA : 5 / 2 <= a <= 7 / 2) by (revert A; unfold Rabs; destruct (Rcase_abs _); lra).
  apply B. unfold quotient. rewrite (Rabs_right (/ 10 ^ 7 * a)) by nra. set (h := / 10 ^ 7 * a + TABLE_TOL). assert (HB : TABLE_TOL < h < 1 / 2) by (unfold h; split; [nra|]; clear - TP TL S7 AA; nra).
  assert (A' : - TABLE_TOL <= 3 - a <= TABLE_TOL) by (revert A; unfold Rabs; destruct (Rcase_abs _); lra).
  rewrite (f_past (a + h)) by lra. rewrite (f_past (a - h)) by lra. unfold Rdiv. ring.
Qed.
Lemma enthalpy_refuted : exists rho tmp yes a tab_hm1 tab_lhm1 tab_le hm1 g n r u lrho x h, even rho 1 /\ even tmp 1 /\ even yes 1 /\ traced_on rho a /\ straight rho a 0 (/ 2) /\
  tabulates (fun _ y _ => y) rho tmp yes tab_lhm1 /\
  (forall k, EOS_SC_isoentropy_hm1 rho tmp yes a tab_hm1 tab_lhm1 tab_le 0 0 0 1 1 (n + k)%nat hm1 g = State r u lrho) /\
  along rho tmp yes a (ad_ye a) tab_lhm1 lrho = Some h /\ Rabs (h - log10 (hm1 * (CL * CL))) >= 1 / 10 /\
  ad_lrho_min a < x < ad_lrho_max a /\ 0 + / 2 * x = log10 (hm1 * (CL * CL)).
Proof.
  assert (LP : 0 < ln 10) by (rewrite <- ln_1; apply ln_increasing; lra). assert (CN : CL <> 0) by (unfold CL; lra). pose proof TT_pos as TP. pose proof tiny as TI.
  set (v := exp (3 / 5 * ln 10)). assert (LV : log10 v = 3 / 5) by (unfold log10, v; rewrite ln_exp; field; lra).
  assert (V : 1 < v < 10). { unfold v. split; [rewrite <- exp_0 at 1; apply exp_increasing; lra|]. apply Rlt_le_trans with (exp (ln 10)); [apply exp_increasing; lra|rewrite exp_ln; lra]. }
  set (hm1 := v / (CL * CL)). assert (HV : hm1 * CL * CL = v) by (unfold hm1; field; exact CN). assert (HV' : hm1 * (CL * CL) = v) by lra.
  assert (MM : find_min [1; 10] = 1 /\ find_max [1; 10] = 10).
  { destruct (minmax_of [1; 10]) as (I & J & F); [discriminate|]. inversion_clear F as [|? ? F1 F2]. inversion_clear F2 as [|? ? F3 _]. cbn [In] in I, J. destruct I as [I|[I|[]]], J as [J|[J|[]]]; lra. }
  assert (TG : target [1; 10] 0 hm1 1 = 3 / 5).
  { rewrite floor; [rewrite HV', Rplus_0_r; exact LV|destruct MM as (-> & ->); lra|]. unfold EOS_SC_hm1_min_adiabat, hm1. apply Rmult_le_compat_r; [left; apply Rinv_0_lt_compat; unfold CL; lra|lra]. }
  destruct (found r4 t2 t2 line3 [1; 10] tempt tempt 0 0 0 1 1 1 1 1 1 hm1 0 0 (3 / 4) even4 even2 even2 ltac:(lra) ltac:(lra) ltac:(lra) line3_traced ltac:(cbn; lia) (proj1 (proj1 tempt_ok)) eq_refl) as (n & lrho & F & S).
  - rewrite (line3_along _ 0 _ ltac:(lra) (line3_0 0 ltac:(lra))). f_equal. field.
  - exact (line3_along _ 2 _ ltac:(lra) line3_2).
  - rewrite TG. lra.
  - left. cbn [ad_lrho_max line3]. lra.
  - rewrite TG in F. cbn [ad_lrho_min ad_lrho_max line3] in F. assert (N3 : lrho <> 3) by (intros ->; now apply not3 in F). destruct (S N3) as (r & u & E).
    destruct (along_defined r4 t2 t2 1 1 1 line3 (ad_ye line3) tempt lrho even4 even2 even2 ltac:(lra) ltac:(lra) ltac:(lra) line3_traced ltac:(cbn; lia) (proj1 (proj1 tempt_ok)) N3) as (_ & h & _ & H & _).
    exists r4, t2, t2, line3, [1; 10], tempt, tempt, hm1, 0, n, r, u, lrho, (6 / 5), h. do 3 (split; [first [exact even4|exact even2]|]). split; [exact line3_traced|]. split; [exact line3_straight|]. split; [apply tempt_ok|]. split; [exact E|]. split; [exact H|].
    rewrite HV', LV. pose proof (f_far lrho N3) as FF. unfold lT_f_adiabat in FF. rewrite H in FF. split; [unfold Rabs; destruct (Rcase_abs _); lra|]. cbn [ad_lrho_min ad_lrho_max line3]. lra.
Qed.
Lemma node_refuted : exists rho a i x lT v, even rho 1 /\ traced_on rho a /\ straight rho a 0 (/ 2) /\ (ad_imin a <= i <= ad_imax a)%Z /\ rd rho i = Some x /\ rd (ad_lT a) (i - ad_imin a) = Some lT /\
  lT_of rho a x = Some (Fin v) /\ v = lT / 2 /\ lT <> 0.
Proof.
  exists r4, line3, 1%Z, 1, (/ 2), (1 / 4). split; [exact even4|]. split; [exact line3_traced|]. split; [exact line3_straight|]. split; [cbn; lia|]. split; [reflexivity|]. split; [reflexivity|]. split; [apply line3_0; lra|]. split; lra.
Qed.
Lemma single_refuted : exists rho a, even rho 1 /\ traced_on rho a /\ forall x, x <= ad_lrho_max a -> lT_of rho a x = None.
Proof.
  exists r4, (mk_adiabat 0 0 1 1 1 1 (Fin 1) (Fin 1) [0]). split; [exact even4|]. split; [repeat split; cbn; lia || reflexivity|]. intros x X. now apply single.
Qed.
