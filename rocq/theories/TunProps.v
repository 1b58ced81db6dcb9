(** C127: how the tuning of the number of packets begins and is continued.  The conditions are written out; the
    only definitions of the model used are the functions of the code. *)
From Coq Require Import Reals ZArith List Bool Lra Lia.
From Verif Require Import RLib XLib EmitModel TunModel TunProofs.
Import ListNotations.
Open Scope R_scope.

(** Without the exception for electrons: a positive t0 is used, otherwise two intervals; the factor of emission is that given. *)
Theorem C127_first : forall q procs, electrons q && (from_problem q && Rltb (fel0 q) (1 / 10)) = false ->
  let u := fst (init_resolution q procs) in
  (0 < par_t0_emiss q -> t_tune_emiss u = par_t0_emiss q) /\ (0 < par_t0_scatt q -> t_tune_scatt u = par_t0_scatt q) /\
  (par_t0_emiss q <= 0 -> t_tune_emiss u = if is_mks q then 1 else 2 * tf q) /\
  (par_t0_scatt q <= 0 -> is_mks q = true -> t_tune_scatt u = 2 * Rout_rad q) /\ tune_emiss u = Fin (par_tune_emiss q).
Proof.
  intros q procs E u. unfold u, init_resolution. cbn [fst t_tune_emiss t_tune_scatt tune_emiss].
  destruct (first_given q (par_t0_emiss q) (dt_tune_emiss (settings q)) E) as [A1 A2].
  destruct (first_given q (par_t0_scatt q) (dt_tune_scatt (settings q)) E) as [B1 B2].
  split; [exact A1|]. split; [exact B1|]. split; [intros H; rewrite (A2 H); cbn; destruct (is_mks q); lra|].
  split; [intros H M; rewrite (B2 H); cbn; rewrite M; reflexivity|reflexivity].
Qed.
Print Assumptions C127_first.

(** With MKS the factor of scattering begins as a tenth of the inverse of a depth: out to Rout_rad, at the unit of density,
    with 1600 Thomson cross sections (1.0643933968e-21 square centimetres), or 1.7611737037e-44 for each pair of a species
    and a scatterer. *)
Theorem C127_scattering : forall q procs, is_mks q = true -> 0 < Rout_rad q -> 0 < L_unit q -> 0 < Ne_unit q -> 0 < types q * scatt_types q ->
  exists x, tune_scatt (fst (init_resolution q procs)) = Fin x /\
  let depth := x * Rout_rad q * L_unit q * Ne_unit q in
  (nu q = false -> 10643933968 * depth = 10 ^ 30) /\ (nu q = true -> 17611737037 * (types q * scatt_types q) * depth = 10 ^ 53).
Proof. exact scatt_start. Qed.
Print Assumptions C127_scattering.

(** In a box (not MKS) with no t0 given nothing is ever tuned: at no time up to the end of the run, nor up to twice that. *)
Theorem C127_never : forall q procs h, is_mks q = false -> electrons q && (from_problem q && Rltb (fel0 q) (1 / 10)) = false ->
  par_t0_emiss q <= 0 -> par_t0_scatt q <= 0 -> (forall t s, In (t, s) h -> t < 2 * tf q) ->
  tune_emiss (fst (update_history (settings q) h (init_resolution q procs))) = Fin (par_tune_emiss q) /\
  tune_scatt (fst (update_history (settings q) h (init_resolution q procs))) = Fin (par_tune_scatt q).
Proof. exact never. Qed.
Print Assumptions C127_never.

(** The parameter tune_scatt has no effect with MKS; nor have t0_tune_emiss and t0_tune_scatt with electrons that are
    cold at the start. *)
Theorem C127_parameters_refuted : exists q q', par_tune_scatt q <> par_tune_scatt q' /\ par_t0_emiss q <> par_t0_emiss q' /\
  par_t0_scatt q <> par_t0_scatt q' /\ forall procs h, update_history (settings q) h (init_resolution q procs) = update_history (settings q') h (init_resolution q' procs).
Proof.
  exists (mktp true false true 1 1 true 0 1 1 (fun _ => 1) 1 1 1 1 1 1 1), (mktp true false true 1 1 true 0 1 1 (fun _ => 1) 1 1 1 1 2 2 2).
  cbn [par_tune_scatt par_t0_emiss par_t0_scatt]. split; [lra|]. split; [lra|]. split; [lra|]. intros procs h. f_equal.
  unfold init_resolution, first_time. cbn [electrons from_problem fel0 is_mks]. rewrite (Rltb_true 0 (1 / 10)) by lra. reflexivity.
Qed.
Print Assumptions C127_parameters_refuted.

(** The first adjustment compares the packets of two intervals with the number wanted in one: if they are made at exactly
    the rate wanted the factor of emission is halved then, and left alone at the next one. *)
Theorem C127_first_adjustment : forall p u k, 0 < dt_tune_emiss p -> 0 < Lbox p -> (0 < k)%Z ->
  (dt_tune_emiss p * nph_per_proc p) / (2 * Lbox p) = IZR k -> t_tune_emiss u = 2 * dt_tune_emiss p ->
  let mk := {| made_tune := k; abs_tune := 0; scatt_tune := 0 |} in
  let z := {| made_tune := 0; abs_tune := 0; scatt_tune := 0 |} in
  tune_emiss (fst (update_history p [(dt_tune_emiss p, [mk]); (2 * dt_tune_emiss p, [mk])] (u, [z]))) = (tune_emiss u * Fin (1 / 2))%X /\
  tune_emiss (fst (update_history p [(dt_tune_emiss p, [mk]); (2 * dt_tune_emiss p, [mk]); (3 * dt_tune_emiss p, [mk])] (u, [z])))
  = (tune_emiss u * Fin (1 / 2) * Fin 1)%X.
Proof. exact first_half. Qed.
Print Assumptions C127_first_adjustment.

(** The same from the start of the program: MKS, no t0 given, ten packets wanted and made in each half unit of time. *)
Theorem C127_rate_refuted : exists q, is_mks q = true /\ 0 < Rout_rad q /\ par_t0_emiss q <= 0 /\
  let mk := {| made_tune := 10; abs_tune := 0; scatt_tune := 0 |} in
  1 / 2 * nph q / (2 * Rout_rad q) = IZR (made_tune mk) /\
  tune_emiss (fst (update_history (settings q) [(1 / 2, [mk]); (2 * (1 / 2), [mk])] (init_resolution q 1))) = Fin (par_tune_emiss q / 2) /\ par_tune_emiss q <> 0.
Proof.
  exists (mktp true false false 1 1 true 1 1 1 (fun _ => 1) 1 1 40 1 1 0 0).
  cbn [is_mks Rout_rad par_t0_emiss par_tune_emiss nph made_tune]. split; [reflexivity|]. split; [lra|]. split; [lra|].
  split; [lra|]. split; [|lra].
  set (q := mktp _ _ _ _ _ _ _ _ _ _ _ _ _ _ _ _ _).
  destruct (first_half (settings q) (fst (init_resolution q 1)) 10) as [H _]; try (cbn; first [lra|lia]).
  - cbn [fst init_resolution t_tune_emiss]. unfold first_time. cbn [electrons from_problem par_t0_emiss q andb].
    destruct (Rleb_spec 0 0); [reflexivity|lra].
  - etransitivity; [exact H|]. cbn. f_equal. lra.
Qed.
Print Assumptions C127_rate_refuted.

(** A restart file changes nothing if the counters of all processes are equal (in particular with one process). *)
Theorem C127_continued : forall p h1 h2 s c, Forall (fun d => d = c) (snd (update_history p h1 s)) ->
  update_history p h2 (reread (update_history p h1 s)) = update_history p h2 (update_history p h1 s).
Proof. intros p h1 h2 s c H. destruct (update_history p h1 s) as [u cs]. rewrite (reread_same u c cs H). reflexivity. Qed.
Print Assumptions C127_continued.

(** Otherwise the continued run may be tuned differently: all get the counters of the first process. *)
Theorem C127_continued_refuted : exists q h1 h2, is_mks q = false /\
  tune_emiss (fst (update_history (settings q) h2 (update_history (settings q) h1 (init_resolution q 2)))) = Fin (1 / 2) /\
  tune_emiss (fst (update_history (settings q) h2 (reread (update_history (settings q) h1 (init_resolution q 2))))) = Fin (4 / 3).
Proof.
  exists (mktp false false false 1 1 true 1 1 (1 / 2) (fun _ => 1) 1 1 40 1 1 (1 / 4) 10).
  exists [(1 / 8, [{| made_tune := 0; abs_tune := 0; scatt_tune := 0 |}; {| made_tune := 80; abs_tune := 0; scatt_tune := 0 |}])].
  exists [(1 / 4, [{| made_tune := 0; abs_tune := 0; scatt_tune := 0 |}; {| made_tune := 0; abs_tune := 0; scatt_tune := 0 |}])].
  split; [reflexivity|]. set (q := mktp _ _ _ _ _ _ _ _ _ _ _ _ _ _ _ _ _).
  assert (L : longest q = 1) by (unfold longest, MY_MAX; cbn; destruct (Rltb_spec 1 1); [lra|]; destruct (Rltb_spec 1 1); lra).
  assert (M : MY_MIN SCATT_BIAS_SAFETY 1 = 1 / 2) by (unfold MY_MIN, SCATT_BIAS_SAFETY; destruct (Rltb_spec (1 / 2) 1); lra).
  assert (I : init_resolution q 2 = ({| tune_emiss := Fin 1; tune_scatt := Fin 1; t_tune_emiss := 1 / 4; t_tune_scatt := 10 |},
    repeat {| made_tune := 0; abs_tune := 0; scatt_tune := 0 |} 2)).
  { unfold init_resolution, first_time. cbn [electrons q andb is_mks par_tune_emiss par_tune_scatt par_t0_emiss par_t0_scatt].
    destruct (Rleb_spec (1 / 4) 0); [lra|]. destruct (Rleb_spec 10 0); [lra|]. reflexivity. }
  rewrite I. cbn [update_history].
  assert (S1 : update_resolution (settings q) (1 / 8) [{| made_tune := 0; abs_tune := 0; scatt_tune := 0 |}; {| made_tune := 80; abs_tune := 0; scatt_tune := 0 |}]
     ({| tune_emiss := Fin 1; tune_scatt := Fin 1; t_tune_emiss := 1 / 4; t_tune_scatt := 10 |}, repeat {| made_tune := 0; abs_tune := 0; scatt_tune := 0 |} 2)
     = ({| tune_emiss := Fin 1; tune_scatt := Fin 1; t_tune_emiss := 1 / 4; t_tune_scatt := 10 |},
        [{| made_tune := 0; abs_tune := 0; scatt_tune := 0 |}; {| made_tune := 80; abs_tune := 0; scatt_tune := 0 |}])).
  { unfold update_resolution. cbv zeta. cbn [t_tune_emiss]. destruct (Rleb_spec (1 / 4) (1 / 8)); [lra|]. cbn [t_tune_scatt].
    destruct (Rleb_spec 10 (1 / 8)); [lra|]. cbn [settings mks is_mks q]. rewrite andb_false_r. reflexivity. }
  rewrite S1.
  assert (G : forall cs, length cs = 2%nat -> tune_emiss (fst (update_resolution (settings q) (1 / 4)
     [{| made_tune := 0; abs_tune := 0; scatt_tune := 0 |}; {| made_tune := 0; abs_tune := 0; scatt_tune := 0 |}]
     ({| tune_emiss := Fin 1; tune_scatt := Fin 1; t_tune_emiss := 1 / 4; t_tune_scatt := 10 |}, cs)))
     = (Fin 1 * emiss_correction (1 / 2) 40 1 (reduced (map made_tune cs)) (reduced (map abs_tune cs)))%X).
  { intros [|a [|b [|]]] H; try discriminate. unfold update_resolution. cbv zeta. cbn [t_tune_emiss]. destruct (Rleb_spec (1 / 4) (1 / 4)); [|lra].
    cbn [add_steps]. unfold add_step. cbn [map made_tune abs_tune scatt_tune]. rewrite !Z.add_0_r. cbn [settings dt_tune_emiss nph_per_proc Lbox is_mks q].
    fold q. rewrite L. cbn [tf nph q].
    destruct (_ || _); reflexivity. }
  rewrite G by reflexivity. unfold reread. cbn [fst snd map hd]. rewrite G by reflexivity.
  cbn [map made_tune abs_tune]. change (reduced [0; 80]%Z) with 40%Z. change (reduced [0; 0]%Z) with 0%Z.
  unfold emiss_correction. cbv zeta. rewrite M. change (40 - 0)%Z with 40%Z. change (0 - 0)%Z with 0%Z.
  rewrite (xdiv_fin _ 1) by lra. replace (1 / 2 * (1 / 2) * 40 / 1) with 10 by lra.
  rewrite (xdiv_fin 10 40) by lra. replace (xdiv (Fin 10) (Fin 0)) with PInf.
  - unfold xmin, xmax. cbn [xltb]. rewrite (Rltb_false (10 / 40) 0) by lra. rewrite (Rltb_true (10 / 40) (4 / 3)) by lra. cbn [xltb].
    rewrite (Rltb_false (1 / 2) (10 / 40)) by lra. rewrite (Rltb_true (1 / 2) (4 / 3)) by lra. cbn [xmul]. split; f_equal; lra.
  - unfold xdiv, inf_by. destruct (Reqb_spec 0 0) as [_|K]; [|destruct K; reflexivity]. rewrite (Rltb_true 0 10) by lra. reflexivity.
Qed.
Print Assumptions C127_continued_refuted.

Example C127_nonvacuous : let q := mktp false false false 1 1 true 1 1 5 (fun _ => 1) 1 1 40 7 3 0 0 in
  tune_emiss (fst (update_history (settings q) [(2, []); (5, [])] (init_resolution q 2))) = Fin 7.
Proof.
  intros q. destruct (never q 2 [(2, []); (5, [])]) as [H _]; try reflexivity; try (cbn; lra); [|exact H].
  intros t s [E|[E|[]]]; injection E as <- _; cbn; lra.
Qed.
Example C127_scattering_nonvacuous : let q := mktp true true false 3 4 true 1 40 5 (fun _ => 1) 2 1 40 7 3 0 0 in
  exists x, tune_scatt (fst (init_resolution q 2)) = Fin x /\ 17611737037 * (3 * 4) * (x * 40 * 2 * 1) = 10 ^ 53.
Proof.
  intros q. destruct (C127_scattering q 2) as (x & E & _ & H); try reflexivity; try (cbn; lra). exists x. split; [exact E|]. exact (H eq_refl).
Qed.
Example C127_continued_nonvacuous : let q := mktp false false false 1 1 true 1 1 5 (fun _ => 1) 1 1 40 7 3 0 0 in
  forall h2, update_history (settings q) h2 (reread (init_resolution q 3)) = update_history (settings q) h2 (init_resolution q 3).
Proof. intros q h2. apply (C127_continued (settings q) [] h2 (init_resolution q 3) {| made_tune := 0; abs_tune := 0; scatt_tune := 0 |}). repeat constructor. Qed.
