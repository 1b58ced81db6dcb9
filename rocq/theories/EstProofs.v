From Coq Require Import Reals List ZArith Bool Lra Lia.
From Verif Require Import RLib EstModel.
Import ListNotations.
Open Scope R_scope.

(** sums *)
Lemma total_from f ps a : fold_left (fun a p => a + f p) ps a = a + total f ps.
Proof.
  unfold total. revert a. induction ps as [|p ps IH]; intros a; cbn [fold_left]; [lra|].
  rewrite IH, (IH (0 + f p)). lra.
Qed.
Lemma total_cons f p ps : total f (p :: ps) = f p + total f ps.
Proof. unfold total at 1. cbn [fold_left]. rewrite total_from. lra. Qed.
Lemma total_pos f ps : ps <> [] -> (forall p, In p ps -> 0 < f p) -> 0 < total f ps.
Proof.
  induction ps as [|p ps IH]; [congruence|]. intros _ H. rewrite total_cons.
  assert (0 < f p) by (apply H; left; reflexivity). destruct ps as [|q ps]; [unfold total; cbn; lra|].
  assert (0 < total f (q :: ps)) by (apply IH; [discriminate|intros; apply H; right; assumption]). lra.
Qed.
Lemma total_neg f ps : ps <> [] -> (forall p, In p ps -> f p < 0) -> total f ps < 0.
Proof.
  induction ps as [|p ps IH]; [congruence|]. intros _ H. rewrite total_cons.
  assert (f p < 0) by (apply H; left; reflexivity). destruct ps as [|q ps]; [unfold total; cbn; lra|].
  assert (total f (q :: ps) < 0) by (apply IH; [discriminate|intros; apply H; right; assumption]). lra.
Qed.
Lemma total_zero f ps : (forall p, In p ps -> f p = 0) -> total f ps = 0.
Proof.
  induction ps as [|p ps IH]; intros H; [reflexivity|]. rewrite total_cons, IH by (intros; apply H; right; assumption).
  rewrite H by (left; reflexivity). lra.
Qed.

(** amplification exceeds one at every temperature *)
Lemma amp_one T : 0 < T -> 1 < amp T.
Proof.
  intros P. unfold amp. replace (Rpower T 2) with (T * T).
  2:{ replace 2 with (1 + 1) by lra. rewrite Rpower_plus, !Rpower_1 by lra. reflexivity. }
  replace (Rpower T (3 / 2)) with (T * sqrt T).
  2:{ replace (3 / 2) with (1 + / 2) by field. rewrite Rpower_plus, Rpower_1, Rpower_sqrt by lra. reflexivity. }
  pose proof (sqrt_lt_R0 T P) as S. pose proof (sqrt_sqrt T) as Q.
  assert (E : T = sqrt T * sqrt T) by (rewrite Q; lra). set (s := sqrt T) in *.
  assert (0 < 4 * T - 2 * (T * s) + 16 * (T * T)); [|lra].
  replace (4 * T - 2 * (T * s) + 16 * (T * T)) with (T * (4 - 2 * s + 16 * (s * s))) by (rewrite <- E; ring).
  apply Rmult_lt_0_compat; [exact P|]. nra.
Qed.

From Verif Require Import EstSpec.
Section Phys.
Variable z : zonep.
Hypothesis P : physical z.
Lemma mc2 : 0 < ME z * CL z * CL z.
Proof. destruct P as (A & B & _). apply Rmult_lt_0_compat; [apply Rmult_lt_0_compat|]; assumption. Qed.
Lemma u_grows T : u_of z T - u_of z (Thetae_old z) = (T - Thetae_old z) * (Ne z * (ME z * CL z * CL z) / (game z - 1)).
Proof. unfold u_of. destruct P as (_ & _ & _ & G & _). field. lra. Qed.
Lemma u_slope : 0 < Ne z * (ME z * CL z * CL z) / (game z - 1).
Proof.
  pose proof mc2. destruct P as (_ & _ & _ & G & _ & _ & _ & _ & N & _). apply Rdiv_lt_0_compat; [apply Rmult_lt_0_compat; assumption|lra].
Qed.
Lemma change_sign T : exists k, 0 < k /\ Ucon0 z * (u_of z T - u_of z (Thetae_old z)) / (dt z * T_unit z) = k * (T - Thetae_old z).
Proof.
  pose proof u_slope as S. rewrite u_grows. destruct P as (_ & _ & _ & _ & _ & _ & TU & _ & _ & _ & U & _ & D).
  exists (Ucon0 z * (Ne z * (ME z * CL z * CL z) / (game z - 1)) / (dt z * T_unit z)). split.
  - apply Rdiv_lt_0_compat; apply Rmult_lt_0_compat; assumption.
  - set (a := Ne z * (ME z * CL z * CL z) / (game z - 1)). field. lra.
Qed.
Lemma taken p x : 0 < w p -> 0 < dlam p -> 0 < x -> 0 < w p * (1 - exp (- (x * L_unit z * HPL z / (ME z * CL z * CL z) * dlam p))).
Proof.
  intros W D X. apply Rmult_lt_0_compat; [exact W|]. pose proof mc2 as M. destruct P as (_ & _ & H & _ & L & _).
  assert (0 < x * L_unit z * HPL z / (ME z * CL z * CL z) * dlam p).
  { apply Rmult_lt_0_compat; [|exact D]. apply Rdiv_lt_0_compat; [|assumption]. repeat apply Rmult_lt_0_compat; assumption. }
  enough (exp (- (x * L_unit z * HPL z / (ME z * CL z * CL z) * dlam p)) < exp 0) by (rewrite exp_0 in *; lra).
  apply exp_increasing. lra.
Qed.
Lemma energy_pos p : 0 < nu p -> 0 < HPL z * nu p / (ME z * CL z * CL z).
Proof. intros N. pose proof mc2 as M. destruct P as (_ & _ & H & _). apply Rdiv_lt_0_compat; [apply Rmult_lt_0_compat|]; assumption. Qed.
Lemma vol_pos : 0 < vol z.
Proof. unfold vol. destruct P as (_ & _ & _ & _ & _ & _ & _ & _ & _ & _ & _ & C & D). apply Rmult_lt_0_compat; assumption. Qed.
Lemma abs_pos T p : 0 < w p -> 0 < nu p -> 0 < dlam p -> 0 < abs_inv z T (nu p) (theta p) -> 0 < abs_term z T p.
Proof.
  intros W N D A. unfold abs_term. pose proof (taken p _ W D A) as K. pose proof (energy_pos p N). pose proof vol_pos.
  destruct P as (_ & _ & _ & _ & _ & _ & _ & KP & _). cbv zeta.
  set (e := HPL z * nu p / (ME z * CL z * CL z)) in *. set (d := w p * _) in *. clearbody e d.
  apply Rdiv_lt_0_compat; [|assumption]. repeat apply Rmult_lt_0_compat; assumption.
Qed.
Lemma scat_neg T p : 0 < T -> 0 < w p -> 0 < nu p -> 0 < dlam p -> 0 < scat_inv z T (nu p) -> scat_term z T p < 0.
Proof.
  intros TP W N D A. unfold scat_term. pose proof (taken p _ W D A) as K. pose proof (energy_pos p N). pose proof vol_pos. pose proof (amp_one T TP).
  destruct P as (_ & _ & _ & _ & _ & _ & _ & KP & _). cbv zeta.
  set (e := HPL z * nu p / (ME z * CL z * CL z)) in *. set (d := w p * _) in *. clearbody e d.
  assert (0 < kphys_to_num z * (amp T - 1) * d * e / vol z).
  { apply Rdiv_lt_0_compat; [|assumption]. repeat apply Rmult_lt_0_compat; lra. }
  replace (kphys_to_num z * (1 - amp T) * d * e / vol z) with (- (kphys_to_num z * (amp T - 1) * d * e / vol z)) by (field; lra). lra.
Qed.
Lemma abs_none T p : abs_inv z T (nu p) (theta p) = 0 -> abs_term z T p = 0.
Proof.
  intros A. unfold abs_term. rewrite A. pose proof mc2. pose proof vol_pos.
  replace (- (0 * L_unit z * HPL z / (ME z * CL z * CL z) * dlam p)) with 0 by (unfold Rdiv; ring). rewrite exp_0. unfold Rdiv. ring.
Qed.
Lemma scat_none T p : scat_inv z T (nu p) = 0 -> scat_term z T p = 0.
Proof.
  intros A. unfold scat_term. rewrite A.
  replace (- (0 * L_unit z * HPL z / (ME z * CL z * CL z) * dlam p)) with 0 by (unfold Rdiv; ring). rewrite exp_0. unfold Rdiv. ring.
Qed.
Lemma units_pos : 0 < U_unit z / T_unit z.
Proof. destruct P as (_ & _ & _ & _ & _ & U & T & _). apply Rdiv_lt_0_compat; assumption. Qed.

Lemma absorbing ps T : shining ps -> emis z T = 0 -> (forall f a, 0 < abs_inv z T f a) -> (forall f, scat_inv z T f = 0) ->
  dEdt z ps T = 0 -> T < Thetae_old z.
Proof.
  intros [NE S] J A C E. unfold dEdt in E. destruct (change_sign T) as (k & K & Q). rewrite Q, J in E.
  rewrite (total_zero (scat_term z T)) in E by (intros p _; apply scat_none, C).
  assert (0 < total (abs_term z T) ps) by (apply total_pos; [exact NE|intros p I; destruct (S p I) as (W & N & D); apply abs_pos; auto]).
  pose proof units_pos. assert (0 < total (abs_term z T) ps * (U_unit z / T_unit z)) by (apply Rmult_lt_0_compat; assumption).
  destruct (Rlt_or_le T (Thetae_old z)) as [L|L]; [exact L|]. assert (0 <= k * (T - Thetae_old z)) by (apply Rmult_le_pos; lra). lra.
Qed.
Lemma scattering ps T : 0 < T -> shining ps -> emis z T = 0 -> (forall f a, abs_inv z T f a = 0) -> (forall f, 0 < scat_inv z T f) ->
  dEdt z ps T = 0 -> Thetae_old z < T.
Proof.
  intros TP [NE S] J A C E. unfold dEdt in E. destruct (change_sign T) as (k & K & Q). rewrite Q, J in E.
  rewrite (total_zero (abs_term z T)) in E by (intros p _; apply abs_none, A).
  assert (total (scat_term z T) ps < 0) by (apply total_neg; [exact NE|intros p I; destruct (S p I) as (W & N & D); apply scat_neg; auto]).
  pose proof units_pos. assert (0 < (- total (scat_term z T) ps) * (U_unit z / T_unit z)) by (apply Rmult_lt_0_compat; lra).
  destruct (Rlt_or_le (Thetae_old z) T) as [L|L]; [exact L|]. assert (0 <= k * (Thetae_old z - T)) by (apply Rmult_le_pos; lra). lra.
Qed.
Lemma dark ps T : (forall p, In p ps -> abs_inv z T (nu p) (theta p) = 0 /\ scat_inv z T (nu p) = 0) -> dEdt z ps T = 0 ->
  (emis z T = 0 -> T = Thetae_old z) /\ (0 < emis z T -> T < Thetae_old z).
Proof.
  intros H E. unfold dEdt in E. destruct (change_sign T) as (k & K & Q). rewrite Q in E.
  rewrite (total_zero (abs_term z T)) in E by (intros p I; apply abs_none, H, I).
  rewrite (total_zero (scat_term z T)) in E by (intros p I; apply scat_none, H, I). split; intros J; [nra|].
  destruct (Rlt_or_le T (Thetae_old z)) as [L|L]; [exact L|]. assert (0 <= k * (T - Thetae_old z)) by (apply Rmult_le_pos; lra). lra.
Qed.
End Phys.

(** lists *)
Section Lists.
Context {A : Type}.
Implicit Types (c d : zone) (ps : list (zone * A)).
Lemma zeqb_eq c d : zeqb c d = true <-> c = d.
Proof.
  destruct c as [[i j] k], d as [[i' j'] k']. unfold zeqb. rewrite !andb_true_iff, !Z.eqb_eq. split; [intros [[-> ->] ->]; reflexivity|intros [= -> -> ->]; auto].
Qed.
Lemma of_cons c d a ps : of_zone c ((d, a) :: ps) = (if zeqb d c then [a] else []) ++ of_zone c ps.
Proof. destruct c as [[i j] k], d as [[i' j'] k']. reflexivity. Qed.
Variables N1 N2 N3 NG : Z.
Lemma inside_ok c : inside N1 N2 N3 NG c = true <-> stored N1 N2 N3 NG c.
Proof. destruct c as [[i j] k]. unfold inside, stored. rewrite !andb_true_iff, !Z.leb_le, !Z.ltb_lt. lia. Qed.
Lemma active_ok c : active N1 N2 N3 NG c = true <-> computed N1 N2 N3 NG c.
Proof. destruct c as [[i j] k]. unfold active, computed. rewrite negb_true_iff, !orb_false_iff, !Z.ltb_ge. lia. Qed.
Lemma count_ok ps : forall nz, (forall p, In p ps -> stored N1 N2 N3 NG (fst p)) ->
  exists m, count N1 N2 N3 NG ps nz = Done m /\ forall c, m c = (nz c + List.length (of_zone c ps))%nat.
Proof.
  induction ps as [|[c a] ps IH]; intros nz H; cbn [count].
  - exists nz. split; [reflexivity|]. intros d. cbn. lia.
  - rewrite (proj2 (inside_ok c)) by (apply (H (c, a)); left; reflexivity).
    destruct (IH (fun d => if zeqb c d then S (nz d) else nz d)) as (m & E & M); [intros; apply H; right; assumption|].
    exists m. split; [exact E|]. intros d. rewrite M, of_cons. destruct (zeqb c d); cbn [app List.length]; lia.
Qed.
Lemma count_ub ps : forall nz, (exists p, In p ps /\ ~ stored N1 N2 N3 NG (fst p)) -> count N1 N2 N3 NG ps nz = Ub.
Proof.
  induction ps as [|[c a] ps IH]; intros nz (p & I & B); [destruct I|]. cbn [count].
  destruct (inside N1 N2 N3 NG c) eqn:E; [|reflexivity]. apply IH. destruct I as [<- | I]; [exfalso; apply B, inside_ok, E|eauto].
Qed.
Lemma put_ok (l : list A) a n : put (map Some l ++ repeat None (S n)) (List.length l) a = Some (map Some (l ++ [a]) ++ repeat None n).
Proof. induction l as [|h l IH]; [reflexivity|]. cbn [map app List.length put]. rewrite IH. reflexivity. Qed.
Lemma fill_ok ps : forall arr cnt (old : zone -> list A) (room : zone -> nat), (forall p, In p ps -> computed N1 N2 N3 NG (fst p)) ->
  (forall c, computed N1 N2 N3 NG c -> arr c = map Some (old c) ++ repeat None (room c) /\ cnt c = List.length (old c) /\ (List.length (of_zone c ps) <= room c)%nat) ->
  exists r, fill N1 N2 N3 NG ps arr cnt = Done r /\
    forall c, computed N1 N2 N3 NG c -> r c = map Some (old c ++ of_zone c ps) ++ repeat None (room c - List.length (of_zone c ps)).
Proof.
  induction ps as [|[c a] ps IH]; intros arr cnt old room H K; cbn [fill].
  - exists arr. split; [reflexivity|]. intros d D. destruct (K d D) as (E & _). rewrite E. cbn. rewrite app_nil_r, Nat.sub_0_r. reflexivity.
  - assert (C : computed N1 N2 N3 NG c) by (apply (H (c, a)); left; reflexivity). rewrite (proj2 (active_ok c) C).
    destruct (K c C) as (E & N & R). rewrite of_cons in R. assert (Z : zeqb c c = true) by (apply zeqb_eq; reflexivity). rewrite Z in R. cbn [app List.length] in R.
    destruct (room c) as [|m] eqn:M; [lia|]. rewrite E, N, put_ok.
    destruct (IH (fun d => if zeqb c d then map Some (old c ++ [a]) ++ repeat None m else arr d) (fun d => if zeqb c d then S (cnt d) else cnt d)
      (fun d => if zeqb c d then old c ++ [a] else old d) (fun d => if zeqb c d then m else room d)) as (r & F & G).
    + intros; apply H; right; assumption.
    + intros d D. destruct (K d D) as (E' & N' & R'). rewrite of_cons in R'. destruct (zeqb c d) eqn:Q.
      * apply zeqb_eq in Q. subst d. split; [reflexivity|]. split; [rewrite N, app_length; cbn; lia|lia].
      * cbn [app] in R'. auto.
    + exists r. split; [exact F|]. intros d D. rewrite (G d D), of_cons. destruct (zeqb c d) eqn:Q.
      * apply zeqb_eq in Q. subst d. rewrite M. cbn [app List.length Nat.sub]. rewrite <- app_assoc. reflexivity.
      * reflexivity.
Qed.
Lemma fill_bad ps : forall arr cnt (old : zone -> list A) (room : zone -> nat), (exists p, In p ps /\ ~ computed N1 N2 N3 NG (fst p)) ->
  (forall c, computed N1 N2 N3 NG c -> arr c = map Some (old c) ++ repeat None (room c) /\ cnt c = List.length (old c) /\ (List.length (of_zone c ps) <= room c)%nat) ->
  fill N1 N2 N3 NG ps arr cnt = Exit.
Proof.
  induction ps as [|[c a] ps IH]; intros arr cnt old room (p & I & B) K; [destruct I|]. cbn [fill].
  destruct (active N1 N2 N3 NG c) eqn:AC; [|reflexivity]. assert (C := proj1 (active_ok c) AC).
  destruct (K c C) as (E & N & R). rewrite of_cons in R. assert (Z : zeqb c c = true) by (apply zeqb_eq; reflexivity). rewrite Z in R. cbn [app List.length] in R.
  destruct (room c) as [|m] eqn:M; [lia|]. rewrite E, N, put_ok.
  apply (IH _ _ (fun d => if zeqb c d then old c ++ [a] else old d) (fun d => if zeqb c d then m else room d)).
  - destruct I as [<- | I]; [exfalso; apply B, C|eauto].
  - intros d D. destruct (K d D) as (E' & N' & R'). rewrite of_cons in R'. destruct (zeqb c d) eqn:Q.
    + apply zeqb_eq in Q. subst d. split; [reflexivity|]. split; [rewrite N, app_length; cbn; lia|lia].
    + cbn [app] in R'. auto.
Qed.
Lemma start_ok nz0 ps m : (forall c, computed N1 N2 N3 NG c -> nz0 c = O) -> (forall c, m c = (nz0 c + List.length (of_zone c ps))%nat) ->
  forall c, computed N1 N2 N3 NG c ->
    (if active N1 N2 N3 NG c then repeat (@None A) (m c) else []) = map Some [] ++ repeat None (List.length (of_zone c ps)) /\
    O = List.length (@nil A) /\ (List.length (of_zone c ps) <= List.length (of_zone c ps))%nat.
Proof. intros Z M c C. rewrite (proj2 (active_ok c) C), M, (Z c C). auto. Qed.
Lemma lists_ok nz0 ps : (0 <= NG)%Z -> (forall c, computed N1 N2 N3 NG c -> nz0 c = O) -> (forall p, In p ps -> computed N1 N2 N3 NG (fst p)) ->
  exists r, lists N1 N2 N3 NG nz0 ps = Done r /\ forall c, computed N1 N2 N3 NG c -> r c = map Some (of_zone c ps).
Proof.
  intros G Z H. destruct (count_ok ps nz0) as (m & E & M).
  { intros [[[i j] k] a] I. specialize (H _ I). unfold computed, stored in *. cbn [fst] in *. lia. }
  unfold lists. rewrite E.
  destruct (fill_ok ps (fun c => if active N1 N2 N3 NG c then repeat None (m c) else []) (fun _ => O) (fun _ => []) (fun c => List.length (of_zone c ps)) H) as (r & F & Q).
  - apply (start_ok nz0 ps m Z M).
  - exists r. split; [exact F|]. intros c C. rewrite (Q c C), Nat.sub_diag. cbn [app repeat]. apply app_nil_r.
Qed.
Lemma lists_exit nz0 ps : (forall c, computed N1 N2 N3 NG c -> nz0 c = O) -> (forall p, In p ps -> stored N1 N2 N3 NG (fst p)) ->
  (exists p, In p ps /\ ~ computed N1 N2 N3 NG (fst p)) -> lists N1 N2 N3 NG nz0 ps = Exit.
Proof.
  intros Z H B. destruct (count_ok ps nz0 H) as (m & E & M). unfold lists. rewrite E.
  apply (fill_bad ps _ _ (fun _ => []) (fun c => List.length (of_zone c ps)) B). apply (start_ok nz0 ps m Z M).
Qed.
End Lists.

Lemma amp_val T : 0 < T -> amp T = 1 + (4 * T - 2 * (T * sqrt T) + 16 * T ^ 2).
Proof.
  intros P. unfold amp. replace (Rpower T 2) with (T * T).
  2:{ replace 2 with (1 + 1) by lra. rewrite Rpower_plus, !Rpower_1 by lra. reflexivity. }
  replace (Rpower T (3 / 2)) with (T * sqrt T).
  2:{ replace (3 / 2) with (1 + / 2) by field. rewrite Rpower_plus, Rpower_1, Rpower_sqrt by lra. reflexivity. }
  ring.
Qed.
Lemma size z ps T M : physical z -> 0 < M -> 0 < T ->
  kphys_to_num z = ME z / M -> U_unit z = M / L_unit z ^ 3 * CL z ^ 2 ->
  dEdt z ps T = Ucon0 z * (Ne z * (T - Thetae_old z) * (ME z * CL z ^ 2)) / ((game z - 1) * (dt z * T_unit z)) + emis z T
    + per_volume z (erg z (fun p => abs_inv z T (nu p) (theta p)) ps) - (4 * T - 2 * (T * sqrt T) + 16 * T ^ 2) * per_volume z (erg z (fun p => scat_inv z T (nu p)) ps).
Proof.
  intros P MP TP K U. assert (PP := P). destruct PP as (me & cl & h & g & l & _ & t & _ & _ & _ & _ & c & d).
  assert (A : total (abs_term z T) ps * (U_unit z / T_unit z) = per_volume z (erg z (fun p => abs_inv z T (nu p) (theta p)) ps)).
  { induction ps as [|p ps IH]; [unfold total, per_volume; cbn; field; lra|]. rewrite total_cons, Rmult_plus_distr_r, IH.
    unfold per_volume, erg. cbn [fold_right]. fold (erg z (fun p => abs_inv z T (nu p) (theta p)) ps).
    unfold abs_term. cbv zeta. replace (abs_inv z T (nu p) (theta p) * L_unit z * HPL z / (ME z * CL z * CL z) * dlam p) with (depth z (fun p => abs_inv z T (nu p) (theta p)) p) by (unfold depth; field; lra).
    rewrite K, U. unfold vol. field. lra. }
  assert (S : total (scat_term z T) ps * (U_unit z / T_unit z) = - (4 * T - 2 * (T * sqrt T) + 16 * T ^ 2) * per_volume z (erg z (fun p => scat_inv z T (nu p)) ps)).
  { clear A. induction ps as [|p ps IH]; [unfold total, per_volume; cbn [fold_left erg fold_right]; field; lra|]. rewrite total_cons, Rmult_plus_distr_r, IH.
    unfold per_volume, erg. cbn [fold_right]. fold (erg z (fun p => scat_inv z T (nu p)) ps).
    unfold scat_term. cbv zeta. rewrite (amp_val T TP). set (y := 4 * T - 2 * (T * sqrt T) + 16 * T ^ 2). clearbody y.
    replace (scat_inv z T (nu p) * L_unit z * HPL z / (ME z * CL z * CL z) * dlam p) with (depth z (fun p => scat_inv z T (nu p)) p) by (unfold depth; field; lra).
    rewrite K, U. unfold vol. field. lra. }
  unfold dEdt. cbv zeta. rewrite A, S, (u_grows z P). set (y := 4 * T - 2 * (T * sqrt T) + 16 * T ^ 2). clearbody y.
  set (a := per_volume z _). set (b := per_volume z _). clearbody a b. field. lra.
Qed.
