(** Proofs about frequencies, totals and signs of the tabulated opacities. *)
From Coq Require Import Reals Bool ZArith List Lra Lia.
From Verif Require Import RLib XLib IntLib TabModel TabSpec TabProofs OpacModel OpacSpec OpacProofs.
Import ListNotations.
Open Scope R_scope.

Lemma lerp_in lo hi t a b : 0 <= t <= 1 -> lo <= a <= hi -> lo <= b <= hi -> lo <= lerp t a b <= hi.
Proof.
  intros T A B. unfold lerp. assert (0 <= t * (b - lo)) by (apply Rmult_le_pos; lra). assert (0 <= (1 - t) * (a - lo)) by (apply Rmult_le_pos; lra).
  assert (0 <= t * (hi - b)) by (apply Rmult_le_pos; lra). assert (0 <= (1 - t) * (hi - a)) by (apply Rmult_le_pos; lra). lra.
Qed.
Lemma offset_in x r d : 0 < d -> x <= r < x + d -> 0 <= (r - x) / d <= 1.
Proof.
  intros D H. split; [apply Rmult_le_pos; [lra|left; apply Rinv_0_lt_compat; lra]|].
  apply (Rmult_le_reg_r d); [auto|]. unfold Rdiv. rewrite Rmult_assoc, Rinv_l by lra. lra.
Qed.
Lemma cell_offset a d r i x : 0 < d -> cell a d r i x -> 0 <= (r - x) / d <= 1.
Proof. intros D (_ & _ & _ & _ & H). now apply offset_in. Qed.

(** ** Frequencies *)
Lemma nu_of_step lo hi m n : 0 < lo < hi -> (0 < m)%Z -> nu_of lo hi m n < nu_of lo hi m (n + 1).
Proof.
  intros L M. pose proof (nu_of_pos lo hi m n ltac:(lra)). pose proof (nu_of_pos lo hi m (n + 1) ltac:(lra)).
  apply ln_lt_inv; auto. rewrite !ln_nu_of by lra. assert (ln lo < ln hi) by (apply ln_increasing; lra). apply (IZR_lt 0) in M.
  rewrite plus_IZR. apply Rplus_lt_compat_l. apply Rmult_lt_compat_r; [lra|]. apply Rmult_lt_compat_r; [now apply Rinv_0_lt_compat|lra].
Qed.
Lemma nu_of_lt lo hi m n n' : 0 < lo < hi -> (0 < m)%Z -> nu_of lo hi m n < nu_of lo hi m n' -> (n < n')%Z.
Proof.
  intros L M H. pose proof (nu_of_pos lo hi m n ltac:(lra)). apply ln_increasing in H; [|auto]. rewrite !ln_nu_of in H by lra.
  assert (ln lo < ln hi) by (apply ln_increasing; lra). apply (IZR_lt 0) in M. apply lt_IZR. apply Rplus_lt_reg_l in H.
  apply Rmult_lt_reg_r in H; [|lra]. unfold Rdiv in H. apply Rmult_lt_reg_r in H; [auto|now apply Rinv_0_lt_compat].
Qed.
Section Nu.
Variables (o : opac) (grp : list (list R)) (type : Z) (row : list R).
Let nb := ngroups o.
Let nu n := nu_of (numin o) (numax o) (ngroups o - 1) n.
Hypothesis NB : (2 <= ngroups o <= 2147483647)%Z.
Hypothesis NU : 0 < numin o < numax o.
Hypothesis DL : SMALL < (ln (numax o) - ln (numin o)) / IZR (ngroups o - 1).
Hypothesis TY : (0 <= type)%Z.
Hypothesis ROW : rd grp type = Some row.
Hypothesis LEN : Z.of_nat (length row) = ngroups o.
Lemma nu_hdf_ok x : Rabs x <> numax o ->
  exists n a b v, (0 <= n /\ n + 1 < nb)%Z /\ rd row n = Some a /\ rd row (n + 1) = Some b /\ nu_hdf o grp x type = Val v /\ between a b v /\
    (numin o <= Rabs x < numax o -> nu n <= Rabs x < nu (n + 1)%Z /\ v = lerp (ln (Rabs x / nu n) / ln (nu (n + 1)%Z / nu n)) a b) /\
    (Rabs x < numin o -> n = 0%Z /\ v = a) /\
    (numax o < Rabs x -> (n + 2 = nb)%Z /\ Rabs (v - b) * (ln (numax o / numin o) / IZR (nb - 1)) <= SMALL * Rabs (b - a)).
Proof.
  intros NX. pose proof SMALL_pos as SP. change (SMALL < dlnu o) in DL.
  set (lx := xln (Rabs x)).
  assert (LX : lx = (if Rltb 0 (Rabs x) then Fin (ln (Rabs x)) else NInf)) by reflexivity.
  assert (N1 : lx <> NaN) by (rewrite LX; destruct (Rltb 0 (Rabs x)); discriminate).
  assert (N2 : lx <> Fin (lnu_max o)).
  { rewrite LX. destruct (Rltb_spec 0 (Rabs x)); [|discriminate]. intros E. injection E as E. apply NX. apply ln_inv; auto; lra. }
  destruct (interp_in (lnu_min o) (lnu_max o) (dlnu o) 0 (ngroups o) (lnugroup o) row ltac:(lia) ltac:(lia) ltac:(lia) DL (dlnu_top o NB) (group_uniform o NB)
    ltac:(lia) lx N1 N2) as (r & n & a & b & v & PL & Q0 & Q1 & R0 & R1 & V & CB & LV & BT).
  rewrite !Z.sub_0_r in *. exists n, a, b, v. split; [unfold nb; lia|]. split; [exact R0|]. split; [exact R1|].
  assert (LNU : forall q, ln (nu q) = lnu_min o + IZR q * dlnu o).
  { intros q. unfold nu. rewrite ln_nu_of by lra. unfold dlnu, lnu_min, lnu_max. pose proof (groups_pos o NB). field. lra. }
  assert (POS : forall q, 0 < nu q) by (intros q; apply nu_of_pos; lra).
  split.
  { unfold nu_hdf. destruct (Z.ltb_spec type 0); [lia|]. rewrite ROW. fold lx. rewrite V. reflexivity. }
  split; [exact BT|]. rewrite <- !LNU in CB. rewrite <- LNU in LV.
  assert (DN : dlnu o = ln (nu (n + 1)%Z) - ln (nu n)) by (rewrite !LNU, plus_IZR; ring).
  assert (LD : forall p q, 0 < p -> 0 < q -> ln (p / q) = ln p - ln q).
  { intros p q A B. unfold Rdiv. rewrite ln_mult, ln_Rinv; auto. now apply Rinv_0_lt_compat. }
  assert (MN : ln (numin o) < ln (numax o)) by (apply ln_increasing; lra).
  split; [|split].
  - intros B. rewrite LX, Rltb_true in PL by lra. cbn [placed] in PL.
    assert (R : r = ln (Rabs x)).
    { destruct PL as [(A & _)|[(_ & A)|(A & _)]]; [|exact A|].
      - exfalso. unfold lnu_min in A. apply ln_lt_inv in A; lra.
      - exfalso. assert (ln (Rabs x) < ln (numax o)) by (apply ln_increasing; lra). unfold lnu_max in A. lra. }
    subst r. destruct CB as (C1 & C2). split.
    + split; [destruct C1 as [C1|C1]; [left; apply ln_lt_inv; auto; lra|right; apply ln_inv; auto; lra]|apply ln_lt_inv; auto; lra].
    + rewrite !LD by (auto; lra). rewrite <- DN. apply lerp_of; [lra|exact LV].
  - intros B. assert (R : r = lnu_min o).
    { rewrite LX in PL. destruct (Rltb_spec 0 (Rabs x)); cbn [placed] in PL; [|exact PL].
      assert (ln (Rabs x) < ln (numin o)) by (apply ln_increasing; lra). unfold lnu_min, lnu_max in *. destruct PL as [(_ & A)|[(A & _)|(A & _)]]; auto; lra. }
    assert (N0 : n = 0%Z).
    { rewrite R, LNU in CB. assert (IZR n * dlnu o <= 0) by lra. assert (IZR n <= 0).
      { destruct (Rle_lt_dec (IZR n) 0); [auto|]. assert (0 < IZR n * dlnu o) by (apply Rmult_lt_0_compat; lra). lra. }
      apply le_IZR in H0. lia. }
    split; [exact N0|]. subst n. rewrite LNU, R in LV. assert ((v - a) * dlnu o = 0) by lra.
    apply Rmult_integral in H. destruct H; lra.
  - intros B. assert (R : r = lnu_max o - SMALL).
    { rewrite LX, Rltb_true in PL by lra. cbn [placed] in PL. assert (ln (numax o) < ln (Rabs x)) by (apply ln_increasing; lra).
      unfold lnu_min, lnu_max in *. destruct PL as [(A & _)|[(A & _)|(_ & A)]]; auto; lra. }
    assert (NE : (n + 2 = nb)%Z).
    { rewrite R, !LNU in CB. rewrite (dlnu_top o NB), Z.sub_0_r in CB. unfold nb.
      assert (IZR (ngroups o - 1) * dlnu o < IZR (n + 1 + 1) * dlnu o) by (rewrite (plus_IZR (n + 1)), Rmult_plus_distr_r; destruct CB as (_ & CB); lra).
      apply Rmult_lt_reg_r in H; [|lra]. apply lt_IZR in H. lia. }
    split; [exact NE|].
    assert (W : ln (numax o / numin o) / IZR (nb - 1) = dlnu o) by (rewrite LD by lra; reflexivity). rewrite W.
    assert (TOP : lnu_max o = ln (nu (n + 1)%Z)).
    { rewrite LNU, (dlnu_top o NB), Z.sub_0_r. f_equal. f_equal. f_equal. unfold nb in NE. lia. }
    assert (VB : (v - b) * dlnu o = - SMALL * (b - a)).
    { replace ((v - b) * dlnu o) with ((v - a) * dlnu o - (b - a) * dlnu o) by ring. rewrite LV, R, TOP, DN. ring. }
    right. rewrite <- (Rabs_right (dlnu o)) by lra. rewrite <- Rabs_mult, VB, Rabs_mult, Rabs_Ropp, (Rabs_right SMALL) by lra. reflexivity.
Qed.
Lemma nu_hdf_node n a : (0 <= n)%Z -> (n + 1 < nb)%Z -> rd row n = Some a -> nu_hdf o grp (nu n) type = Val a.
Proof.
  intros N0 N1 A. assert (POS : forall q, 0 < nu q) by (intros q; apply nu_of_pos; lra).
  assert (M : (0 < ngroups o - 1)%Z) by lia.
  assert (ENDS : nu 0%Z = numin o /\ nu (nb - 1)%Z = numax o).
  { split; apply ln_inv; auto; try lra; unfold nu; rewrite ln_nu_of by lra; unfold nb; pose proof (groups_pos o NB); field; lra. }
  assert (MONO : forall p q, (p < q)%Z -> nu p < nu q).
  { intros p q H. destruct (Rlt_le_dec (nu p) (nu q)) as [|L]; [auto|exfalso]. destruct L as [L|L].
    - apply (nu_of_lt (numin o) (numax o) (ngroups o - 1)) in L; [lia|exact NU|exact M].
    - apply (f_equal ln) in L. unfold nu in L. rewrite !ln_nu_of in L by lra.
      assert (ln (numin o) < ln (numax o)) by (apply ln_increasing; lra). apply (IZR_lt 0) in M. apply IZR_lt in H.
      apply Rplus_eq_reg_l, Rmult_eq_reg_r in L; [|lra]. unfold Rdiv in L. apply Rmult_eq_reg_r in L; [lra|]. apply Rinv_neq_0_compat. lra. }
  assert (B : numin o <= nu n < numax o).
  { destruct ENDS as (E0 & E1). rewrite <- E0 at 1. rewrite <- E1. split; [|apply MONO; unfold nb in *; lia].
    destruct (Z.eq_dec n 0) as [->|NE]; [lra|left; apply MONO; lia]. }
  assert (AB : Rabs (nu n) = nu n) by (apply Rabs_right; specialize (POS n); lra).
  destruct (nu_hdf_ok (nu n)) as (q & a' & b & v & Q & R0 & R1 & V & _ & C & _); [rewrite AB; lra|].
  rewrite AB in C. destruct (C B) as ((C1 & C2) & VV). apply (nu_of_lt (numin o) (numax o) (ngroups o - 1)) in C2; [|exact NU|exact M].
  assert (q = n).
  { destruct (Z.lt_trichotomy q n) as [H|[H|H]]; [lia|auto|]. apply MONO in H. lra. }
  subst q. rewrite A in R0. injection R0 as <-. rewrite V. f_equal. rewrite VV. unfold Rdiv at 2. rewrite Rinv_r by (specialize (POS n); lra).
  rewrite ln_1. unfold lerp, Rdiv. ring.
Qed.
Lemma nu_hdf_top x : Rabs x = numax o -> nu_hdf o grp x type = Undefined.
Proof.
  intros E. unfold nu_hdf. destruct (Z.ltb_spec type 0); [lia|]. rewrite ROW, E. unfold xln. rewrite Rltb_true by lra. fold (lnu_max o).
  rewrite (interp_end _ _ (dlnu o)); [reflexivity|lia|lia|lia|exact DL|apply (dlnu_top o NB)|exact LEN].
Qed.
End Nu.

(** ** The total *)
Definition spectrum (row nus : list R) : list R := map (fun p => fst p * snd p) (combine row nus).
Lemma row_sum_acc : forall row nus acc, row_sum row nus acc = acc + fold_right Rplus 0 (spectrum row nus).
Proof.
  induction row as [|j row IH]; intros [|n nus] acc; cbn; try ring. rewrite IH. unfold spectrum. ring.
Qed.
Lemma trapezoid_sum h : forall g, g <> [] -> h * fold_right Rplus 0 g = trapezoid h g + h * ((hd 0 g + last g 0) / 2).
Proof.
  induction g as [|a g IH]; [congruence|intros _]. destruct g as [|b g]; [cbn; lra|].
  assert (E : h * fold_right Rplus 0 (a :: b :: g) = h * a + h * fold_right Rplus 0 (b :: g)) by (cbn; ring).
  rewrite E, IH by discriminate. change (trapezoid h (a :: b :: g)) with (h * ((a + b) / 2) + trapezoid h (b :: g)).
  change (last (a :: b :: g) 0) with (last (b :: g) 0). cbn [hd]. lra.
Qed.
Lemma int_fold o : forall jgrp acc, fold_left (fun Jtot row => row_sum row (nugroup o) Jtot) jgrp acc = acc + fold_right Rplus 0 (map (fun row => fold_right Rplus 0 (spectrum row (nugroup o))) jgrp).
Proof.
  induction jgrp as [|row jgrp IH]; intros acc; cbn [fold_left map fold_right]; [ring|]. rewrite IH, row_sum_acc. ring.
Qed.
Lemma nugroup_is o : (2 <= ngroups o <= 2147483647)%Z -> 0 < numin o < numax o ->
  nugroup o = map (fun n => nu_of (numin o) (numax o) (ngroups o - 1) (Z.of_nat n)) (seq 0 (Z.to_nat (ngroups o))).
Proof.
  intros NB NU. unfold nugroup, lnugroup. rewrite map_map. apply map_ext. intros n.
  rewrite <- (exp_ln (nu_of _ _ _ _)) by (apply nu_of_pos; lra). f_equal. rewrite ln_nu_of by lra. rewrite INR_IZR_INZ.
  unfold dlnu, lnu_min, lnu_max. pose proof (groups_pos o NB). field. lra.
Qed.
Lemma int_ok o jgrp : (2 <= ngroups o <= 2147483647)%Z -> 0 < numin o < numax o -> Forall (fun row => Z.of_nat (length row) = ngroups o) jgrp ->
  let h := (ln (numax o) - ln (numin o)) / IZR (ngroups o - 1) in
  let nus := map (fun n => nu_of (numin o) (numax o) (ngroups o - 1) (Z.of_nat n)) (seq 0 (Z.to_nat (ngroups o))) in
  int_jnudnudOmega_hdf o jgrp = fold_right Rplus 0 (map (fun row => let g := map (fun p => fst p * snd p) (combine row nus) in
    4 * PI * (trapezoid h g + h * ((hd 0 g + last g 0) / 2))) jgrp).
Proof.
  intros NB NU F. cbv zeta. rewrite <- (nugroup_is o NB NU). unfold int_jnudnudOmega_hdf. rewrite int_fold, Rplus_0_l. fold (lnu_min o) (lnu_max o). fold (dlnu o).
  assert (LN : length (nugroup o) = Z.to_nat (ngroups o)) by (unfold nugroup, lnugroup; now rewrite !map_length, seq_length).
  induction F as [|row jgrp H F IH]; cbn [map fold_right]; [ring|]. rewrite Rmult_plus_distr_r, IH. f_equal. fold (spectrum row (nugroup o)).
  rewrite <- trapezoid_sum; [ring|]. unfold spectrum. intros E. apply (f_equal (@length _)) in E. rewrite map_length, combine_length in E. cbn in E. lia.
Qed.
Lemma Rdiv_1 x : x / 1 = x.
Proof. field. Qed.
Lemma int_refuted : exists o jgrp c, (2 <= ngroups o)%Z /\ 0 < numin o < numax o /\ 0 < c /\
  (forall row, In row jgrp -> Z.of_nat (length row) = ngroups o /\ forall n j, rd row n = Some j -> j * nu_of (numin o) (numax o) (ngroups o - 1) n = c) /\
  length jgrp = 1%nat /\ int_jnudnudOmega_hdf o jgrp <> 4 * PI * (c * ln (numax o / numin o)).
Proof.
  assert (E1 : 1 < exp 1) by (pose proof (exp_ineq1 1 R1_neq_R0); lra).
  exists (Opac [] [] [] [] 1 2 1 (exp 1)), [[1; / exp 1]], 1. cbn [ngroups numin numax].
  split; [lia|]. split; [lra|]. split; [lra|].
  assert (N0 : nu_of 1 (exp 1) (2 - 1) 0 = 1) by (unfold nu_of, Rpower; rewrite (Rdiv_1 (exp 1)), ln_exp; replace (0 / IZR (2 - 1) * 1) with 0 by (cbn; field); rewrite exp_0; ring).
  assert (N1 : nu_of 1 (exp 1) (2 - 1) 1 = exp 1) by (unfold nu_of, Rpower; rewrite (Rdiv_1 (exp 1)), ln_exp; replace (1 / IZR (2 - 1) * 1) with 1 by (cbn; field); ring).
  split; [|split; [reflexivity|]].
  - intros row [<-|[]]. split; [reflexivity|]. intros n j H. pose proof (rd_in _ _ _ H) as B. cbn in B.
    assert (D : n = 0%Z \/ n = 1%Z) by lia. destruct D as [-> | ->]; cbn in H; injection H as <-.
    + rewrite N0. ring.
    + rewrite N1. field. lra.
  - rewrite int_ok; [|cbn; lia|cbn; lra|constructor; [reflexivity|constructor]]. cbn [ngroups numin numax]. cbv zeta.
    change (Z.to_nat 2) with 2%nat. cbn [seq map combine fst snd fold_right hd last trapezoid]. change (Z.of_nat 0) with 0%Z. change (Z.of_nat 1) with 1%Z.
    rewrite N0, N1, (Rdiv_1 (exp 1)), ln_exp, ln_1. change (IZR (2 - 1)) with 1. rewrite Rinv_l by lra. pose proof PI_RGT_0. lra.
Qed.

(** ** Everything together *)
Lemma xdiv_num x m : 0 < m -> x <> NaN -> (x / Fin m)%X <> NaN.
Proof. intros M N. destruct x; cbn; try congruence; [destruct (Reqb_spec m 0); [lra|discriminate]| |]; rewrite Rltb_false by lra; discriminate. Qed.
Section All.
Variables (o : opac) (dr dt dy : R) (MEV : R).
Let n1 := ax_n (lrhos o). Let n2 := ax_n (lTs o). Let n3 := ax_n (Yes o). Let nt := ntypes o. Let nb := ngroups o.
Hypothesis E1 : even (lrhos o) dr.
Hypothesis E2 : even (lTs o) dt.
Hypothesis E3 : even (Yes o) dy.
Hypothesis T1 : TOL < dr.
Hypothesis T2 : TOL < dt.
Hypothesis T3 : TOL < dy.
Hypothesis NB : (1 <= ngroups o)%Z.
Hypothesis NT : (1 <= ntypes o)%Z.
Hypothesis MP : 0 < MEV.
Lemma fill_ok rho T Ye : rho <> NaN -> T <> NaN -> Ye <> NaN ->
  exists i j k xi xj xk r t y,
    placed10 (ax_min (lrhos o)) (ax_max (lrhos o)) TOL rho r /\ placed10 (ax_min (lTs o)) (ax_max (lTs o)) TOL (T / Fin MEV)%X t /\ placed (ax_min (Yes o)) (ax_max (Yes o)) TOL Ye y /\
    cell (lrhos o) dr r i xi /\ cell (lTs o) dt t j xj /\ cell (Yes o) dy y k xk /\
    forall tab_J tab_K fJ fK,
    (forall i j k t n, inside n1 n2 n3 nt nb i j k t n -> tab_J (slot n1 n2 nt nb i j k t n) = Some (fJ t n i j k) /\ tab_K (slot n1 n2 nt nb i j k t n) = Some (fK t n i j k)) ->
    exists jgrp agrp, fill_opac_emis_hdf o MEV tab_J tab_K rho T Ye = Some (jgrp, agrp) /\ Z.of_nat (length jgrp) = nt /\ Z.of_nat (length agrp) = nt /\
    forall s, (0 <= s < nt)%Z -> exists jrow arow, rd jgrp s = Some jrow /\ rd agrp s = Some arow /\ Z.of_nat (length jrow) = nb /\ Z.of_nat (length arow) = nb /\
      forall n, (0 <= n < nb)%Z -> rd jrow n = Some (blend ((r - xi) / dr) ((t - xj) / dt) ((y - xk) / dy) (fJ s n) i j k) /\
                                   rd arow n = Some (blend ((r - xi) / dr) ((t - xj) / dt) ((y - xk) / dy) (fK s n) i j k).
Proof.
  intros N1 N2 N3. destruct (interp_3d_ok o dr dt dy E1 E2 E3 T1 T2 T3 NB NT rho (T / Fin MEV)%X Ye N1 (xdiv_num T MEV MP N2) N3)
    as (i & j & k & xi & xj & xk & r & t & y & PR & PT & PY & CI & CJ & CK & H).
  exists i, j, k, xi, xj, xk, r, t, y. repeat (split; [assumption|]). intros tab_J tab_K fJ fK F.
  destruct (H tab_J (fun i j k t n => fJ t n i j k)) as (jg & A1 & A2 & A3); [intros; now apply F|].
  destruct (H tab_K (fun i j k t n => fK t n i j k)) as (ag & B1 & B2 & B3); [intros; now apply F|].
  exists jg, ag. unfold fill_opac_emis_hdf. rewrite A1, B1. split; [reflexivity|]. split; [exact A2|]. split; [exact B2|]. intros s Hs.
  destruct (A3 s Hs) as (jr & J1 & J2 & J3). destruct (B3 s Hs) as (ar & K1 & K2 & K3). exists jr, ar. repeat (split; [assumption|]).
  intros n Hn. split; [now apply J3|now apply K3].
Qed.
Lemma blend_in lo hi a b c f i j k : 0 <= a <= 1 -> 0 <= b <= 1 -> 0 <= c <= 1 ->
  (forall p q s, (p = i \/ p = i + 1)%Z -> (q = j \/ q = j + 1)%Z -> (s = k \/ s = k + 1)%Z -> lo <= f p q s <= hi) -> lo <= blend a b c f i j k <= hi.
Proof. intros A B C F. unfold blend. repeat (apply lerp_in; [assumption| |]); apply F; auto. Qed.
Lemma blend_exact g r t y xi xj xk F i j k : trilinear F -> dr <> 0 -> dt <> 0 -> dy <> 0 ->
  (forall p q s, (p = i \/ p = i + 1)%Z -> (q = j \/ q = j + 1)%Z -> (s = k \/ s = k + 1)%Z ->
     g p q s = F (if (p =? i)%Z then xi else xi + dr) (if (q =? j)%Z then xj else xj + dt) (if (s =? k)%Z then xk else xk + dy)) ->
  blend ((r - xi) / dr) ((t - xj) / dt) ((y - xk) / dy) g i j k = F r t y.
Proof.
  intros (c0 & c1 & c2 & c3 & c4 & c5 & c6 & c7 & FF) D1 D2 D3 G. unfold blend. rewrite !G by auto. rewrite !Z.eqb_refl.
  assert (N : forall z, (z + 1 =? z)%Z = false) by (intros z; apply Z.eqb_neq; lia). rewrite !N, !FF. unfold lerp. field. auto.
Qed.
Lemma exact_ok rho T Ye : rho <> NaN -> T <> NaN -> Ye <> NaN ->
  exists r t y,
    placed10 (ax_min (lrhos o)) (ax_max (lrhos o)) TOL rho r /\ placed10 (ax_min (lTs o)) (ax_max (lTs o)) TOL (T / Fin MEV)%X t /\ placed (ax_min (Yes o)) (ax_max (Yes o)) TOL Ye y /\
    forall tab_J tab_K FJ FK, (forall s n, trilinear (FJ s n)) -> (forall s n, trilinear (FK s n)) ->
    (forall i j k s n x z w, inside n1 n2 n3 nt nb i j k s n -> rd (lrhos o) i = Some x -> rd (lTs o) j = Some z -> rd (Yes o) k = Some w ->
       tab_J (slot n1 n2 nt nb i j k s n) = Some (FJ s n x z w) /\ tab_K (slot n1 n2 nt nb i j k s n) = Some (FK s n x z w)) ->
    exists jgrp agrp, fill_opac_emis_hdf o MEV tab_J tab_K rho T Ye = Some (jgrp, agrp) /\
    forall s n, (0 <= s < nt)%Z -> (0 <= n < nb)%Z -> exists jrow arow, rd jgrp s = Some jrow /\ rd agrp s = Some arow /\
      rd jrow n = Some (FJ s n r t y) /\ rd arow n = Some (FK s n r t y).
Proof.
  intros N1 N2 N3. destruct (fill_ok rho T Ye N1 N2 N3) as (i & j & k & xi & xj & xk & r & t & y & PR & PT & PY & CI & CJ & CK & H).
  exists r, t, y. repeat (split; [assumption|]). intros tab_J tab_K FJ FK LJ LK TB.
  set (at3 := fun (F : Z -> Z -> R -> R -> R -> R) s n p q w => F s n (nth (Z.to_nat p) (lrhos o) 0) (nth (Z.to_nat q) (lTs o) 0) (nth (Z.to_nat w) (Yes o) 0)).
  destruct (H tab_J tab_K (at3 FJ) (at3 FK)) as (jg & ag & E & _ & _ & V).
  { intros p q w s n IN. pose proof IN as (A1 & A2 & A3 & _). unfold n1, n2, n3, ax_n in A1, A2, A3.
    destruct (rd_some (lrhos o) p A1) as (x & X). destruct (rd_some (lTs o) q A2) as (z & Z). destruct (rd_some (Yes o) w A3) as (u & U).
    unfold at3. rewrite (rd_nth _ _ _ X), (rd_nth _ _ _ Z), (rd_nth _ _ _ U). now apply TB. }
  exists jg, ag. split; [exact E|]. intros s n Hs Hn. destruct (V s Hs) as (jr & ar & J1 & K1 & _ & _ & W). destruct (W n Hn) as (WJ & WK).
  exists jr, ar. split; [exact J1|]. split; [exact K1|].
  destruct CI as (_ & _ & I0 & I1 & _), CJ as (_ & _ & J0 & J2 & _), CK as (_ & _ & K0 & K2 & _).
  apply rd_nth in I0, I1, J0, J2, K0, K2.
  assert (BX : forall F, (forall s n, trilinear (F s n)) -> blend ((r - xi) / dr) ((t - xj) / dt) ((y - xk) / dy) (at3 F s n) i j k = F s n r t y).
  { intros F L. pose proof TOL_pos. apply blend_exact; [apply L|lra|lra|lra|]. intros p q w Hp Hq Hw. unfold at3.
    f_equal; [destruct (Z.eqb_spec p i); [now subst|destruct Hp; [congruence|now subst]]|
              destruct (Z.eqb_spec q j); [now subst|destruct Hq; [congruence|now subst]]|
              destruct (Z.eqb_spec w k); [now subst|destruct Hw; [congruence|now subst]]]. }
  rewrite WJ, WK, !BX by auto. auto.
Qed.

(** from the file to the value at a frequency *)
Variables (dn : R) (gJ gK : list R) (loJ hiJ loK hiK : R).
Hypothesis EN : even (lNus o) dn.
Hypothesis SM : SMALL < dn.
Hypothesis NB2 : (2 <= ngroups o <= 2147483647)%Z.
Hypothesis NU : 0 < numin o < numax o.
Hypothesis DL : SMALL < (ln (numax o) - ln (numin o)) / IZR (ngroups o - 1).
Hypothesis LJ : Z.of_nat (length gJ) = (n1 * n2 * n3 * nt * ax_n (lNus o))%Z.
Hypothesis LK : Z.of_nat (length gK) = (n1 * n2 * n3 * nt * ax_n (lNus o))%Z.
Hypothesis OFF : forall n, (0 <= n < nb)%Z -> ln (nu_of (numin o) (numax o) (ngroups o - 1) n) <> nth (length (lNus o) - 1) (lNus o) 0.
Hypothesis BJ : Forall (fun v => loJ <= v <= hiJ) gJ.
Hypothesis BK : Forall (fun v => loK <= v <= hiK) gK.
Lemma rd_forall {A} (P : A -> Prop) l i a : Forall P l -> rd l i = Some a -> P a.
Proof.
  intros F H. unfold rd in H. destruct (i <? 0)%Z; [discriminate|]. apply nth_error_In in H. rewrite Forall_forall in F. auto.
Qed.
Lemma regrid_in g lo hi : Z.of_nat (length g) = (n1 * n2 * n3 * nt * ax_n (lNus o))%Z -> Forall (fun v => lo <= v <= hi) g ->
  exists b, regrid o g = Some b /\ forall i j k t n, inside n1 n2 n3 nt nb i j k t n -> exists v, b (slot n1 n2 nt nb i j k t n) = Some v /\ lo <= v <= hi.
Proof.
  intros L B. assert (P : (0 < n1 /\ 0 < n2 /\ 0 < n3)%Z) by (destruct E1 as (A & _), E2 as (A' & _), E3 as (A'' & _); unfold n1, n2, n3, ax_n; lia).
  destruct P as (P1 & P2 & P3).
  destruct (regrid_ok o dn g EN SM NB2 NT NU L P1 P2 P3 OFF) as (b & E & _ & V). exists b. split; [exact E|].
  intros i j k t n IN. destruct (V i j k t n IN) as (r & q & xq & y0 & y1 & _ & C & R0 & R1 & EQ). eexists. split; [exact EQ|].
  apply lerp_in; [apply (cell_offset _ _ _ _ _ ltac:(destruct EN as (_ & _ & D & _); exact D) C)|exact (rd_forall _ _ _ _ B R0)|exact (rd_forall _ _ _ _ B R1)].
Qed.
Lemma choose5 (b : buffer) lo hi : (forall i j k t n, inside n1 n2 n3 nt nb i j k t n -> exists v, b (slot n1 n2 nt nb i j k t n) = Some v /\ lo <= v <= hi) ->
  exists f : Z -> Z -> Z -> Z -> Z -> R, forall i j k t n, inside n1 n2 n3 nt nb i j k t n -> b (slot n1 n2 nt nb i j k t n) = Some (f t n i j k) /\ lo <= f t n i j k <= hi.
Proof.
  intros H. exists (fun t n i j k => match b (slot n1 n2 nt nb i j k t n) with Some v => v | None => 0 end).
  intros i j k t n IN. destruct (H _ _ _ _ _ IN) as (v & -> & B). auto.
Qed.
Lemma bounded : exists bJ bK, regrid o gJ = Some bJ /\ regrid o gK = Some bK /\
  forall rho T Ye, rho <> NaN -> T <> NaN -> Ye <> NaN -> exists jgrp agrp, fill_opac_emis_hdf o MEV bJ bK rho T Ye = Some (jgrp, agrp) /\
  forall s nu, (0 <= s < nt)%Z -> Rabs nu <> numax o -> exists j a, nu_hdf o jgrp nu s = Val j /\ loJ <= j <= hiJ /\ nu_hdf o agrp nu s = Val a /\ loK <= a <= hiK.
Proof.
  destruct (regrid_in gJ loJ hiJ LJ BJ) as (bJ & RJ & VJ). destruct (regrid_in gK loK hiK LK BK) as (bK & RK & VK).
  destruct (choose5 _ _ _ VJ) as (fJ & FJ). destruct (choose5 _ _ _ VK) as (fK & FK).
  exists bJ, bK. split; [exact RJ|]. split; [exact RK|]. intros rho T Ye N1 N2 N3.
  destruct (fill_ok rho T Ye N1 N2 N3) as (i & j & k & xi & xj & xk & r & t & y & _ & _ & _ & CI & CJ & CK & H).
  destruct (H bJ bK fJ fK) as (jg & ag & E & _ & _ & V); [intros; split; [now apply FJ|now apply FK]|].
  exists jg, ag. split; [exact E|]. intros s nu Hs NX. destruct (V s Hs) as (jr & ar & J1 & K1 & J2 & K2 & W).
  assert (D1 : 0 < dr) by (destruct E1 as (_ & _ & D & _); exact D). assert (D2 : 0 < dt) by (destruct E2 as (_ & _ & D & _); exact D).
  assert (D3 : 0 < dy) by (destruct E3 as (_ & _ & D & _); exact D).
  pose proof (cell_offset _ _ _ _ _ D1 CI) as O1. pose proof (cell_offset _ _ _ _ _ D2 CJ) as O2. pose proof (cell_offset _ _ _ _ _ D3 CK) as O3.
  assert (IN : forall n p q w, (0 <= n < nb)%Z -> (p = i \/ p = i + 1)%Z -> (q = j \/ q = j + 1)%Z -> (w = k \/ w = k + 1)%Z -> inside n1 n2 n3 nt nb p q w s n).
  { intros n p q w Hn Hp Hq Hw. destruct CI as (A0 & A1 & _), CJ as (B0 & B1 & _), CK as (C0 & C1 & _). unfold inside, n1, n2, n3, ax_n. lia. }
  assert (GJ : forall n v, rd jr n = Some v -> loJ <= v <= hiJ).
  { intros n v Q. pose proof (rd_in _ _ _ Q) as Hn. assert (Hn' : (0 <= n < nb)%Z) by lia. destruct (W n Hn') as (WJ & _). rewrite WJ in Q. injection Q as <-.
    apply blend_in; auto. intros p q w Hp Hq Hw. now apply FJ, IN. }
  assert (GK : forall n v, rd ar n = Some v -> loK <= v <= hiK).
  { intros n v Q. pose proof (rd_in _ _ _ Q) as Hn. assert (Hn' : (0 <= n < nb)%Z) by lia. destruct (W n Hn') as (_ & WK). rewrite WK in Q. injection Q as <-.
    apply blend_in; auto. intros p q w Hp Hq Hw. now apply FK, IN. }
  destruct (nu_hdf_ok o jg s jr NB2 NU DL ltac:(lia) J1 J2 nu NX) as (n & a & b & v & _ & A & B & V1 & BT & _).
  destruct (nu_hdf_ok o ag s ar NB2 NU DL ltac:(lia) K1 K2 nu NX) as (n' & a' & b' & v' & _ & A' & B' & V2 & BT' & _).
  exists v, v'. apply GJ in A, B. apply GK in A', B'. unfold between, Rmin, Rmax in BT, BT'.
  destruct (Rle_dec a b), (Rle_dec a' b'); (split; [exact V1|]; split; [lra|]; split; [exact V2|lra]).
Qed.
End All.
(** a table of sixteen entries, two groups *)
Definition small_table : opac := Opac [0; 1] [0; 1] [0; 1] [0; 1] 1 2 1 (exp (1 / 2)).
Lemma small_ok : even (lNus small_table) 1 /\ SMALL < 1 /\ TOL < 1 /\ 0 < numin small_table < numax small_table /\
  SMALL < (ln (numax small_table) - ln (numin small_table)) / IZR (ngroups small_table - 1) /\
  (forall n, (0 <= n < 2)%Z -> ln (nu_of (numin small_table) (numax small_table) 1 n) <> nth 1 (lNus small_table) 0) /\
  Z.of_nat (length (repeat 3 16)) = (2 * 2 * 2 * 1 * 2)%Z /\ Forall (fun v => 0 <= v <= 3) (repeat 3 16).
Proof.
  unfold small_table. cbn [lNus numin numax ngroups].
  assert (E1 : 1 < exp (1 / 2)) by (pose proof (exp_ineq1 (1 / 2) ltac:(lra)); lra).
  assert (SS : SMALL < 1 / 4) by (unfold SMALL; cbn; lra).
  split; [exact even01|]. split; [lra|]. split; [exact TOL_lt1|]. split; [lra|].
  split; [rewrite ln_exp, ln_1; change (IZR (2 - 1)) with 1; lra|].
  split; [|split; [reflexivity|]].
  - intros n H. rewrite ln_nu_of by lra. rewrite ln_exp, ln_1. cbn [nth].
    assert (D : n = 0%Z \/ n = 1%Z) by lia. destruct D as [-> | ->]; lra.
  - apply Forall_forall. intros v H. apply repeat_spec in H. lra.
Qed.
