(** Proofs about the flux diagnostics. *)
From Coq Require Import Reals Bool ZArith List Lia Lra.
From Verif Require Import RLib XLib BinModel DiagModel.
Open Scope R_scope.

(** ** Sums *)
Lemma loop_ext n f h : (forall i, (i < n)%nat -> f i = h i) -> loop n f = loop n h.
Proof. induction n as [|n IH]; intros E; cbn; [reflexivity|]. rewrite IH by (intros i I; apply E; lia). rewrite E by lia. reflexivity. Qed.
Lemma loop_0 n : loop n (fun _ => 0) = 0.
Proof. induction n as [|n IH]; cbn; lra. Qed.
Lemma loop_z n f : (forall i, (i < n)%nat -> f i = 0) -> loop n f = 0.
Proof. intros H. rewrite (loop_ext n f (fun _ => 0) H). apply loop_0. Qed.
Lemma loop_plus n f h : loop n (fun i => f i + h i) = loop n f + loop n h.
Proof. induction n as [|n IH]; cbn; [lra|]. rewrite IH. lra. Qed.
Lemma loop_scal n f a : loop n (fun i => a * f i) = a * loop n f.
Proof. induction n as [|n IH]; cbn; [lra|]. rewrite IH. lra. Qed.
Lemma loop_app n m f : loop (n + m) f = loop n f + loop m (fun i => f (n + i)%nat).
Proof. induction m as [|m IH]; [rewrite Nat.add_0_r; cbn; lra|]. rewrite Nat.add_succ_r. cbn [loop]. rewrite IH. lra. Qed.
Lemma loop_blocks p n f : loop p (fun q => loop n (fun i => f (q * n + i)%nat)) = loop (p * n) f.
Proof.
  induction p as [|p IH]; [reflexivity|]. cbn [loop]. rewrite IH. replace (S p * n)%nat with (p * n + n)%nat by lia. now rewrite loop_app.
Qed.
Lemma loop_swap n m (f : nat -> nat -> R) : loop n (fun i => loop m (fun j => f i j)) = loop m (fun j => loop n (fun i => f i j)).
Proof. induction n as [|n IH]; cbn [loop]; [now rewrite loop_0|]. rewrite IH, <- loop_plus. reflexivity. Qed.
Lemma loop_single n i f : (i < n)%nat -> (forall j, (j < n)%nat -> j <> i -> f j = 0) -> loop n f = f i.
Proof.
  induction n as [|n IH]; intros I Z; [lia|]. cbn. destruct (Nat.eq_dec i n) as [->|N].
  - rewrite (loop_ext n f (fun _ => 0)) by (intros j J; apply Z; lia). rewrite loop_0. lra.
  - rewrite IH by (try lia; intros j J D; apply Z; lia). rewrite (Z n) by lia. lra.
Qed.
(** the sum of a field over a global shell *)
Definition all_shell (g : grid3) (f : field) (i : Z) : R := loop (c2 g * n2 g) (fun j => loop (c3 g * n3 g) (fun k => f i (Z.of_nat j) (Z.of_nat k))).
Definition all_zones (g : grid3) (f : field) : R := loop (c1 g * n1 g) (fun i => all_shell g f (Z.of_nat i)).
Lemma shell_sum g f p1 i : loop (c2 g) (fun p2 => loop (c3 g) (fun p3 => shell g p1 p2 p3 f i)) = all_shell g f (i - NG + gs1 g p1).
Proof.
  unfold all_shell. rewrite <- loop_blocks. apply loop_ext. intros p2 _. unfold shell. rewrite loop_swap. apply loop_ext. intros j _.
  rewrite <- loop_blocks. apply loop_ext. intros p3 _. apply loop_ext. intros k _. unfold elem, gs2, gs3. f_equal; lia.
Qed.
Lemma at_inner g f (at_ : Z) : (0 < c1 g)%nat -> (0 < n1 g)%nat ->
  mpi_sum g (fun p1 p2 p3 => if (gs1 g p1 =? 0)%Z then shell g p1 p2 p3 f at_ else 0) = all_shell g f (at_ - NG).
Proof.
  intros C N. unfold mpi_sum. rewrite (loop_single (c1 g) 0) by
    (try exact C; intros j J D; replace (gs1 g j =? 0)%Z with false by (symmetry; apply Z.eqb_neq; unfold gs1; nia); apply loop_z; intros p2 _; apply loop_0).
  change (gs1 g 0 =? 0)%Z with true. cbn match. rewrite shell_sum. f_equal. change (gs1 g 0) with 0%Z. lia.
Qed.
Lemma mdot_ok g frho at_ : (0 < c1 g)%nat -> (0 < n1 g)%nat -> mdot_all g frho at_ = all_shell g (fun i j k => frho i j k * dx2 g * dx3 g) (at_ - NG).
Proof. intros C N. unfold mdot_all, mdot. now apply at_inner. Qed.
Lemma edot_ok g frho fuu at_ : (0 < c1 g)%nat -> (0 < n1 g)%nat -> edot_all g frho fuu at_ = all_shell g (fun i j k => (fuu i j k - frho i j k) * dx2 g * dx3 g) (at_ - NG).
Proof. intros C N. unfold edot_all, edot. now apply at_inner. Qed.
Lemma total_ok g u : total_of g u = all_zones g (fun i j k => u i j k * dx1 g * dx2 g * dx3 g).
Proof.
  unfold total_of, mpi_sum, all_zones, zones. rewrite <- loop_blocks. apply loop_ext. intros p1 _.
  rewrite (loop_ext (n1 g) _ (fun i => loop (c2 g) (fun p2 => loop (c3 g) (fun p3 => shell g p1 p2 p3 (fun i j k => u i j k * dx1 g * dx2 g * dx3 g) (Z.of_nat i + NG))))).
  2:{ intros i _. rewrite shell_sum. f_equal. unfold gs1. lia. }
  rewrite (loop_swap (n1 g) (c2 g)). apply loop_ext. intros p2 _. rewrite loop_swap. reflexivity.
Qed.
Lemma Phi_ok g b1 gdet : (0 < c1 g)%nat -> (5 < n1 g)%nat -> Phi g b1 gdet = all_shell g (fun i j k => 1 / 2 * Rabs (b1 i j k) * dx2 g * dx3 g * gdet i j k) 5.
Proof.
  intros C N. set (f := fun i j k => 1 / 2 * Rabs (b1 i j k) * dx2 g * dx3 g * gdet i j k).
  replace 5%Z with (5 + NG - NG)%Z by lia. rewrite <- (at_inner g f (5 + NG)) by lia. unfold Phi, mpi_sum. apply loop_ext. intros p1 _. apply loop_ext. intros p2 _. apply loop_ext. intros p3 _.
  unfold Phi_proc. rewrite (loop_single (n1 g) 5); [|exact N|].
  - change (Z.of_nat 5 + NG =? 5 + NG)%Z with true. rewrite andb_true_r. reflexivity.
  - intros j _ D. replace (Z.of_nat j + NG =? 5 + NG)%Z with false by (symmetry; apply Z.eqb_neq; lia). now rewrite andb_false_r.
Qed.
Lemma Phi_thin g b1 gdet : (n1 g <= 5)%nat -> Phi g b1 gdet = 0.
Proof.
  intros N. unfold Phi, mpi_sum. apply loop_z. intros p1 _. apply loop_z. intros p2 _. apply loop_z. intros p3 _.
  unfold Phi_proc. apply loop_z. intros j J. replace (Z.of_nat j + NG =? 5 + NG)%Z with false by (symmetry; apply Z.eqb_neq; lia). now rewrite andb_false_r.
Qed.
Lemma phi_ok g b1 gdet frho : 0 < mdot_all g frho NG + SMALL ->
  exists v, phi g b1 gdet frho = Fin v /\ v * sqrt (mdot_all g frho NG + SMALL) = Phi g b1 gdet.
Proof.
  intros P. unfold phi, xsqrt. rewrite Rltb_false by lra. pose proof (sqrt_lt_R0 _ P) as S. cbn [xdiv]. destruct (Reqb_spec (sqrt (mdot_all g frho NG + SMALL)) 0); [lra|].
  eexists. split; [reflexivity|]. field. lra.
Qed.
Lemma phi_nan g b1 gdet frho : mdot_all g frho NG < - SMALL -> phi g b1 gdet frho = NaN.
Proof. intros P. unfold phi, xsqrt. rewrite Rltb_true by lra. reflexivity. Qed.

(** ** The shell of the luminosity *)
Lemma find_none g p1 stop m : (forall i, (1 <= i <= m)%nat -> ~ (face1 g p1 (Z.of_nat i + NG - 1) < stop < face1 g p1 (Z.of_nat i + NG))) -> find_stop g p1 stop m = (-1)%Z.
Proof.
  induction m as [|m IH]; intros H; [reflexivity|]. cbn [find_stop]. cbv zeta.
  destruct (Rltb_spec stop (face1 g p1 (Z.of_nat (S m) + NG))) as [A|A]; cbn [andb]; [|apply IH; intros i I; apply H; lia].
  destruct (Rltb_spec (face1 g p1 (Z.of_nat (S m) + NG - 1)) stop) as [B|B]; [|apply IH; intros i I; apply H; lia].
  exfalso. apply (H (S m)); [lia|]. split; assumption.
Qed.
Lemma face_lt g p1 i j : 0 < dx1 g -> (i <= j)%Z -> face1 g p1 i <= face1 g p1 j.
Proof. intros D L. unfold face1. apply Rplus_le_compat_l, Rmult_le_compat_r; [lra|]. apply IZR_le. lia. Qed.
Lemma find_some g p1 stop m i : 0 < dx1 g -> (1 <= i <= m)%nat -> face1 g p1 (Z.of_nat i + NG - 1) < stop < face1 g p1 (Z.of_nat i + NG) ->
  find_stop g p1 stop m = (Z.of_nat i + NG - 2)%Z.
Proof.
  intros D. induction m as [|m IH]; intros I (A & B); [lia|]. cbn [find_stop]. cbv zeta. destruct (Nat.eq_dec i (S m)) as [->|N].
  - rewrite !Rltb_true by assumption. reflexivity.
  - assert (face1 g p1 (Z.of_nat i + NG) <= face1 g p1 (Z.of_nat (S m) + NG - 1)) by (apply face_lt; [exact D|lia]).
    rewrite (Rltb_false (face1 g p1 (Z.of_nat (S m) + NG - 1)) stop) by lra. rewrite andb_false_r. apply IH; [lia|]. split; assumption.
Qed.
(** one process in direction 1 *)
Lemma lum_inside g stop r10 gdet s : c1 g = 1%nat -> 0 < dx1 g -> (0 <= s)%Z -> (s + 1 < Z.of_nat (n1 g))%Z ->
  startx1 g + IZR (s + 1) * dx1 g < stop < startx1 g + IZR (s + 2) * dx1 g ->
  lum g stop r10 gdet = - all_shell g (fun i j k => r10 i j k * dx2 g * dx3 g * gdet i j k) s.
Proof.
  intros C D S N F. unfold lum, mpi_sum. rewrite C. cbn [loop]. rewrite Rplus_0_l.
  assert (E : stopi_rad g stop 0 = (s + NG)%Z).
  { unfold stopi_rad. rewrite (find_some g 0 stop (n1 g) (Z.to_nat (s + 2))); [|exact D|lia|].
    - replace (Z.of_nat (Z.to_nat (s + 2)) + NG - 2)%Z with (s + NG)%Z by lia. unfold NG. destruct (Z.eqb_spec (s + 3) (-1)); [lia|reflexivity].
    - unfold face1. change (gs1 g 0) with 0%Z. replace (Z.of_nat (Z.to_nat (s + 2)) + NG - 1 + 0 - NG)%Z with (s + 1)%Z by lia. replace (Z.of_nat (Z.to_nat (s + 2)) + NG + 0 - NG)%Z with (s + 2)%Z by lia. exact F. }
  unfold lum_proc. rewrite E. destruct (Z.leb_spec 0 (s + NG)); [|unfold NG in *; lia].
  set (f := fun i j k => r10 i j k * dx2 g * dx3 g * gdet i j k).
  rewrite (loop_ext (c2 g) _ (fun p2 => -1 * loop (c3 g) (fun p3 => shell g 0 p2 p3 f (s + NG)))).
  2:{ intros p2 _. rewrite <- loop_scal. apply loop_ext. intros p3 _. lra. }
  rewrite loop_scal, shell_sum. change (gs1 g 0) with 0%Z. replace (s + NG - NG + 0)%Z with s by lia. lra.
Qed.
Lemma lum_neg g f p1 s : loop (c2 g) (fun p2 => loop (c3 g) (fun p3 => - shell g p1 p2 p3 f s)) = - all_shell g f (s - NG + gs1 g p1).
Proof.
  rewrite (loop_ext (c2 g) _ (fun p2 => -1 * loop (c3 g) (fun p3 => shell g p1 p2 p3 f s))).
  2:{ intros p2 _. rewrite <- loop_scal. apply loop_ext. intros p3 _. lra. }
  rewrite loop_scal, shell_sum. lra.
Qed.
(** the outermost shell of every process, if no zone is cut *)
Lemma lum_uncut g stop r10 gdet : (0 < n1 g)%nat ->
  (forall i, (0 <= i < Z.of_nat (c1 g) * Z.of_nat (n1 g))%Z -> ~ (startx1 g + IZR i * dx1 g < stop < startx1 g + IZR (i + 1) * dx1 g)) ->
  lum g stop r10 gdet = - loop (c1 g) (fun p1 => all_shell g (fun i j k => r10 i j k * dx2 g * dx3 g * gdet i j k) (Z.of_nat (S p1) * Z.of_nat (n1 g) - 1)).
Proof.
  intros N H. unfold lum, mpi_sum. set (f := fun i j k => r10 i j k * dx2 g * dx3 g * gdet i j k).
  replace (- loop (c1 g) (fun p1 => all_shell g f (Z.of_nat (S p1) * Z.of_nat (n1 g) - 1))) with (loop (c1 g) (fun p1 => -1 * all_shell g f (Z.of_nat (S p1) * Z.of_nat (n1 g) - 1))) by (rewrite loop_scal; lra).
  apply loop_ext. intros p1 P.
  assert (E : stopi_rad g stop p1 = (Z.of_nat (n1 g) + NG - 1)%Z).
  { unfold stopi_rad. rewrite find_none; [reflexivity|]. intros i I. unfold face1.
    replace (Z.of_nat i + NG - 1 + gs1 g p1 - NG)%Z with (Z.of_nat i - 1 + gs1 g p1)%Z by lia. replace (Z.of_nat i + NG + gs1 g p1 - NG)%Z with (Z.of_nat i - 1 + gs1 g p1 + 1)%Z by lia. apply H. unfold gs1. nia. }
  unfold lum_proc. rewrite E. destruct (Z.leb_spec 0 (Z.of_nat (n1 g) + NG - 1)); [|unfold NG in *; lia]. fold f. rewrite lum_neg.
  replace (Z.of_nat (n1 g) + NG - 1 - NG + gs1 g p1)%Z with (Z.of_nat (S p1) * Z.of_nat (n1 g) - 1)%Z by (unfold gs1; lia). lra.
Qed.
(** what the outermost shell is if the radiation reaches the outer edge *)
Lemma lum_outer g stop r10 gdet : c1 g = 1%nat -> (0 < n1 g)%nat -> 0 < dx1 g -> startx1 g + INR (n1 g) * dx1 g <= stop ->
  lum g stop r10 gdet = - all_shell g (fun i j k => r10 i j k * dx2 g * dx3 g * gdet i j k) (Z.of_nat (n1 g) - 1).
Proof.
  intros C N D S. rewrite lum_uncut; [|exact N|].
  - rewrite C. cbn [loop]. replace (Z.of_nat 1 * Z.of_nat (n1 g) - 1)%Z with (Z.of_nat (n1 g) - 1)%Z by lia. lra.
  - intros i I (_ & B). rewrite C in I. assert (IZR (i + 1) <= INR (n1 g)) by (rewrite INR_IZR_INZ; apply IZR_le; lia).
    assert (IZR (i + 1) * dx1 g <= INR (n1 g) * dx1 g) by (apply Rmult_le_compat_r; lra). lra.
Qed.
(** with a luminosity that is the same at every shell the sum has it once for each process *)
Lemma lum_steady g stop r10 gdet L : (0 < n1 g)%nat -> 0 < dx1 g -> startx1 g + INR (c1 g * n1 g) * dx1 g <= stop ->
  (forall s, - all_shell g (fun i j k => r10 i j k * dx2 g * dx3 g * gdet i j k) s = L) -> lum g stop r10 gdet = INR (c1 g) * L.
Proof.
  intros N D ST H. rewrite lum_uncut; [|exact N|].
  - set (f := fun i j k => _) in *. replace (- loop (c1 g) (fun p1 => all_shell g f (Z.of_nat (S p1) * Z.of_nat (n1 g) - 1))) with (loop (c1 g) (fun p1 => -1 * all_shell g f (Z.of_nat (S p1) * Z.of_nat (n1 g) - 1))) by (rewrite loop_scal; lra).
    rewrite (loop_ext (c1 g) _ (fun _ => L)) by (intros p _; rewrite <- (H (Z.of_nat (S p) * Z.of_nat (n1 g) - 1)%Z); lra).
    generalize (c1 g) as c. induction c as [|c IH]; [cbn; lra|]. cbn [loop]. rewrite IH, S_INR. lra.
  - intros i I (_ & B). assert (IZR (i + 1) <= INR (c1 g * n1 g)) by (rewrite INR_IZR_INZ; apply IZR_le; lia).
    assert (IZR (i + 1) * dx1 g <= INR (c1 g * n1 g) * dx1 g) by (apply Rmult_le_compat_r; lra). lra.
Qed.
(** the stop on a face between zones *)
Lemma lum_face g stop r10 gdet i : c1 g = 1%nat -> (0 < n1 g)%nat -> 0 < dx1 g -> stop = startx1 g + IZR i * dx1 g ->
  lum g stop r10 gdet = - all_shell g (fun i j k => r10 i j k * dx2 g * dx3 g * gdet i j k) (Z.of_nat (n1 g) - 1).
Proof.
  intros C N D S. rewrite lum_uncut; [|exact N|].
  - rewrite C. cbn [loop]. replace (Z.of_nat 1 * Z.of_nat (n1 g) - 1)%Z with (Z.of_nat (n1 g) - 1)%Z by lia. lra.
  - intros k _ (A & B). subst stop. assert (IZR k * dx1 g < IZR i * dx1 g) by lra. assert (IZR i * dx1 g < IZR (k + 1) * dx1 g) by lra.
    apply Rmult_lt_reg_r in H; [|exact D]. apply Rmult_lt_reg_r in H0; [|exact D]. apply lt_IZR in H, H0. lia.
Qed.

(** ** Efficiency *)
Lemma eff_ok g stop r10 gdet frho : c2 g = 1%nat -> c3 g = 1%nat -> (0 < c1 g)%nat -> (0 < n1 g)%nat ->
  eff g stop r10 gdet frho = (Fin (lum g stop r10 gdet) / Fin (mdot_all g frho NG + SMALL))%X.
Proof.
  intros C2 C3 C1 N. unfold eff. do 3 f_equal. rewrite mdot_ok by assumption. unfold mdot. change (gs1 g 0 =? 0)%Z with true. cbn match.
  pose proof (shell_sum g (fun i j k => frho i j k * dx2 g * dx3 g) 0 NG) as S. rewrite C2, C3 in S. cbn [loop] in S. rewrite !Rplus_0_l in S. rewrite S. reflexivity.
Qed.

(** ** The greatest divergence *)
Section Max.
Lemma loop_max_ok n (f : nat -> R -> R) (sel : nat -> R -> Prop) : (forall i m, (i < n)%nat -> m <= f i m /\ (forall v, sel i v -> v <= f i m) /\ (f i m = m \/ sel i (f i m))) ->
  forall m, m <= loop_max n f m /\ (forall i v, (i < n)%nat -> sel i v -> v <= loop_max n f m) /\ (loop_max n f m = m \/ exists i, (i < n)%nat /\ sel i (loop_max n f m)).
Proof.
  induction n as [|n IH]; intros H m; cbn [loop_max]; [split; [lra|split; [intros; lia|now left]]|].
  destruct (IH (fun i m I => H i m ltac:(lia)) m) as (A & B & C). destruct (H n (loop_max n f m) ltac:(lia)) as (D & E & F). split; [lra|]. split.
  - intros i v I S. destruct (Nat.eq_dec i n) as [->|N]; [now apply E|]. pose proof (B i v ltac:(lia) S). lra.
  - destruct F as [F|F]; [|right; exists n; split; [lia|exact F]]. rewrite F. destruct C as [C|(i & I & S)]; [now left|]. right. exists i. split; [lia|exact S].
Qed.
End Max.
Lemma divb_ok g divb :
  (forall i j k, (0 <= i < Z.of_nat (c1 g * n1 g))%Z -> (0 <= j < Z.of_nat (c2 g * n2 g))%Z -> (0 <= k < Z.of_nat (c3 g * n3 g))%Z -> divb i j k <= divbmax g divb) /\
  (divbmax g divb = 0 \/ exists i j k, (0 <= i < Z.of_nat (c1 g * n1 g))%Z /\ (0 <= j < Z.of_nat (c2 g * n2 g))%Z /\ (0 <= k < Z.of_nat (c3 g * n3 g))%Z /\ divbmax g divb = divb i j k).
Proof.
  assert (P : forall p1 p2 p3, 0 <= divb_proc g divb p1 p2 p3 /\
    (forall i j k, (i < n1 g)%nat -> (j < n2 g)%nat -> (k < n3 g)%nat -> elem g p1 p2 p3 divb (Z.of_nat i + NG) (Z.of_nat j + NG) (Z.of_nat k + NG) <= divb_proc g divb p1 p2 p3) /\
    (divb_proc g divb p1 p2 p3 = 0 \/ exists i j k, (i < n1 g)%nat /\ (j < n2 g)%nat /\ (k < n3 g)%nat /\ divb_proc g divb p1 p2 p3 = elem g p1 p2 p3 divb (Z.of_nat i + NG) (Z.of_nat j + NG) (Z.of_nat k + NG))).
  { intros p1 p2 p3. set (e i j k := elem g p1 p2 p3 divb (Z.of_nat i + NG) (Z.of_nat j + NG) (Z.of_nat k + NG)).
    assert (K : forall i j m, _) by (intros i j; exact (loop_max_ok (n3 g) (fun k m => if Rltb m (e i j k) then e i j k else m) (fun k v => v = e i j k)
      ltac:(intros k m _; cbv beta; destruct (Rltb_spec m (e i j k)); (split; [lra|split; [intros v ->; lra|auto]])))).
    assert (J : forall i m, _) by (intros i; exact (loop_max_ok (n2 g) (fun j => loop_max (n3 g) (fun k m => if Rltb m (e i j k) then e i j k else m)) (fun j v => exists k, (k < n3 g)%nat /\ v = e i j k)
      ltac:(intros j m _; cbv beta; destruct (K i j m) as (A & B & C); split; [exact A|split; [intros v (k & Q & V); exact (B k v Q V)|destruct C as [C|C]; [now left|now right]]]))).
    assert (I : forall m, _) by (exact (loop_max_ok (n1 g) (fun i => loop_max (n2 g) (fun j => loop_max (n3 g) (fun k m => if Rltb m (e i j k) then e i j k else m))) (fun i v => exists j, (j < n2 g)%nat /\ exists k, (k < n3 g)%nat /\ v = e i j k)
      ltac:(intros i m _; cbv beta; destruct (J i m) as (A & B & C); split; [exact A|split; [intros v (k & Q & V); exact (B k v Q V)|destruct C as [C|C]; [now left|now right]]]))).
    destruct (I 0) as (A & B & C). change (loop_max (n1 g) _ 0) with (divb_proc g divb p1 p2 p3) in A, B, C. split; [exact A|]. split.
    - intros i j k Hi Hj Hk. apply (B i); [exact Hi|]. exists j. split; [exact Hj|]. exists k. split; [exact Hk|reflexivity].
    - destruct C as [C|(i & Hi & j & Hj & k & Hk & E)]; [now left|]. right. exists i, j, k. auto. }
  assert (K : forall p1 p2 m, _) by (intros p1 p2; exact (loop_max_ok (c3 g) (fun p3 m => Rmax m (divb_proc g divb p1 p2 p3)) (fun p3 v => v = divb_proc g divb p1 p2 p3)
    ltac:(intros k m _; cbv beta; split; [apply Rmax_l|split; [intros v ->; apply Rmax_r|unfold Rmax; destruct (Rle_dec m (divb_proc g divb p1 p2 k)); auto]]))).
  assert (J : forall p1 m, _) by (intros p1; exact (loop_max_ok (c2 g) (fun p2 => loop_max (c3 g) (fun p3 m => Rmax m (divb_proc g divb p1 p2 p3))) (fun p2 v => exists p3, (p3 < c3 g)%nat /\ v = divb_proc g divb p1 p2 p3)
    ltac:(intros j m _; cbv beta; destruct (K p1 j m) as (A & B & C); split; [exact A|split; [intros v (k & Q & V); exact (B k v Q V)|destruct C as [C|C]; [now left|now right]]]))).
  assert (I : forall m, _) by (exact (loop_max_ok (c1 g) (fun p1 => loop_max (c2 g) (fun p2 => loop_max (c3 g) (fun p3 m => Rmax m (divb_proc g divb p1 p2 p3)))) (fun p1 v => exists p2, (p2 < c2 g)%nat /\ exists p3, (p3 < c3 g)%nat /\ v = divb_proc g divb p1 p2 p3)
    ltac:(intros i m _; cbv beta; destruct (J i m) as (A & B & C); split; [exact A|split; [intros v (k & Q & V); exact (B k v Q V)|destruct C as [C|C]; [now left|now right]]]))).
  destruct (I 0) as (A & B & C). change (loop_max (c1 g) _ 0) with (divbmax g divb) in A, B, C.
  assert (SP : forall c n i, (0 <= i < Z.of_nat (c * n))%Z -> exists p q, (p < c)%nat /\ (q < n)%nat /\ i = (Z.of_nat q + NG - NG + Z.of_nat p * Z.of_nat n)%Z).
  { intros c n i R. assert (n <> 0)%nat by (intros ->; lia). exists (Z.to_nat i / n)%nat, (Z.to_nat i mod n)%nat.
    pose proof (Nat.div_mod (Z.to_nat i) n H). split; [apply Nat.div_lt_upper_bound; lia|]. split; [apply Nat.mod_upper_bound; exact H|].
    assert (Z.of_nat (Z.to_nat i) = Z.of_nat (n * (Z.to_nat i / n) + Z.to_nat i mod n)) by congruence. lia. }
  split.
  - intros i j k Hi Hj Hk. destruct (SP _ _ _ Hi) as (p1 & q1 & P1 & Q1 & ->). destruct (SP _ _ _ Hj) as (p2 & q2 & P2 & Q2 & ->). destruct (SP _ _ _ Hk) as (p3 & q3 & P3 & Q3 & ->).
    destruct (P p1 p2 p3) as (_ & U & _). pose proof (U q1 q2 q3 Q1 Q2 Q3) as U'. unfold elem, gs1, gs2, gs3 in U'.
    assert (V : divb_proc g divb p1 p2 p3 <= divbmax g divb) by (apply (B p1); [exact P1|]; exists p2; split; [exact P2|]; exists p3; split; [exact P3|reflexivity]). lra.
  - destruct C as [C|(p1 & P1 & p2 & P2 & p3 & P3 & E)]; [now left|]. destruct (P p1 p2 p3) as (_ & _ & [Z|(q1 & q2 & q3 & Q1 & Q2 & Q3 & V)]); [left; lra|]. right.
    assert (BB : forall c n p q, (p < c)%nat -> (q < n)%nat -> (0 <= Z.of_nat q + NG - NG + Z.of_nat p * Z.of_nat n < Z.of_nat (c * n))%Z) by (intros; nia).
    exists (Z.of_nat q1 + NG - NG + gs1 g p1)%Z, (Z.of_nat q2 + NG - NG + gs2 g p2)%Z, (Z.of_nat q3 + NG - NG + gs3 g p3)%Z. split; [now apply BB|]. split; [now apply BB|]. split; [now apply BB|]. rewrite E. exact V.
Qed.
