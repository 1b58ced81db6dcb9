(** Emission of superphotons and the tuning of their number.
    core/make_superphotons.c:26-32, 49-133, 135-280, 283-307, 311-318, core/rad_utils.c:77-167,
    370-384, 754-760, core/coord.c:40-65.
    Arithmetic is exact; the random numbers are a list of draws, so a rejection loop that has
    not ended when the list is used up is [More].  A conversion or an array index out of range
    is [Undef].  Microphysics (emissivities, absorption) are functions supplied by the caller.
    The threads of the parallel region are taken one after another. *)
From Coq Require Import Reals Bool ZArith List.
From Verif Require Import RLib XLib IntLib GeomModel.
From Verif Require BinModel.
Import ListNotations.
Open Scope R_scope.

Inductive res (A : Type) : Type := Got (a : A) (rest : list R) | More | Undef.
Arguments Got {A}. Arguments More {A}. Arguments Undef {A}.
Definition bind {A B} (r : res A) (k : A -> list R -> res B) : res B :=
  match r with Got a rest => k a rest | More => More | Undef => Undef end.
(** get_rand *)
Definition draw (ds : list R) : res R := match ds with r :: rest => Got r rest | [] => More end.

(** constants.h:11-15 *)
Definition CL : R := 29979245800.
Definition ME : R := 91093826 / 10 ^ 35.
Definition HPL : R := 66260693 / 10 ^ 34.
(** make_superphotons.c:282 *)
Definition TINY : R := / 10 ^ 200.

(** ** Frequencies *)
(** rad_utils.c:160-167; the table is an array of [length table] entries *)
Definition linear_interp_log (x : R) (table : list X) (lx_min dlx : R) : option X :=
  let dn := ((Fin (ln x) - Fin lx_min) / Fin dlx)%X in
  match to_int dn with
  | None => None
  | Some n =>
      let f := (dn - Fin (IZR n))%X in
      match rd table n, rd table (n + 1) with
      | Some a, Some b => Some ((Fin 1 - f) * a + f * b)%X
      | _, _ => None
      end
  end.
(** make_superphotons.c:311-318: lnu_min, lnu_max, dlnu and the sampled frequencies *)
Record spectrum := { numin : R; numax : R; bins : nat }.
Definition lnu_min (s : spectrum) : R := ln (numin s).
Definition lnu_max (s : spectrum) : R := ln (numax s).
Definition dlnu (s : spectrum) : R := (lnu_max s - lnu_min s) / INR (bins s).
Definition nusamp (s : spectrum) (n : nat) : R := exp (INR n * dlnu s + lnu_min s).
(** make_superphotons.c:26-32 with EXPTAU_WEIGHTS given as a flag *)
Definition get_wgt (exptau : bool) (wgtC nu dtau : R) : R := if exptau then wgtC / nu * exp dtau else wgtC / nu.
(** make_superphotons.c:36-46; [alpha] is alpha_inv_abs at right angles *)
Definition get_dtau (exptau : bool) (alpha : R -> R) (L_unit dt nu : R) : R :=
  if exptau then MY_MIN (alpha nu * L_unit * dt / nu) 100 else 0.
(** make_superphotons.c:283-307 before normalisation: [Jv nu] is Jnu times the zone volume,
    [wgt nu] the weight *)
Definition raw_dndlnu (s : spectrum) (Jv wgt : R -> R) : list R :=
  map (fun n => Jv (nusamp s n) / (wgt (nusamp s n) * HPL + TINY)) (seq 0 (S (bins s))).
Definition running_max (l : list R) : R := fold_left (fun m x => if Rltb m x then x else m) l (- 10 ^ 100).
Definition get_dndlnu (s : spectrum) (Jv wgt : R -> R) : list X :=
  let l := raw_dndlnu s Jv wgt in map (fun x => (Fin x / Fin (running_max l))%X) l.
(** make_superphotons.c:147-149 *)
Fixpoint freq_loop (s : spectrum) (table : list X) (ds : list R) : res R :=
  match ds with
  | r1 :: r2 :: rest =>
      let nu := exp (r1 * (lnu_max s - lnu_min s) + lnu_min s) in
      match linear_interp_log nu table (lnu_min s) (dlnu s) with
      | None => Undef
      | Some p => if xltb p (Fin r2) then freq_loop s table rest else Got nu rest
      end
  | _ => More
  end.

(** ** One emission *)
(** make_superphotons.c:156-160; [j th] is jnu at this frequency, the result is cos(th) *)
Fixpoint angle_loop (j : R -> R) (ds : list R) : res R :=
  match ds with
  | r1 :: r2 :: rest =>
      let cth := 2 * r1 - 1 in
      if xltb (Fin (j (acos cth)) / Fin (j (PI / 2))) (Fin r2) then angle_loop j rest else Got cth rest
  | _ => More
  end.
(** decs.h:574-593: the fields set here ([X] and the momenta are the latest of three) *)
Record photon := { X2 : vec; Kcov : vec; Kcon : vec; w : R; KdotKprev : R; type : Z; nscatt : Z;
                   origin : Z * Z * Z * Z; t0 : R; is_tracked : bool; has_oscillated : bool }.
(** rad_utils.c:754-760; NU_ELECTRON is 0 and ANTINU_ELECTRON is 1 (decs.h:167-168) *)
Definition get_lepton_sign (ty : Z) : R := if Z.eqb ty 0 then 1 else if Z.eqb ty 1 then -1 else 0.
(** What emission adds to in one zone: radG, RADG_YE, Jrad[0], Nem, Nem_phys *)
Record cell := { radG : vec; radG_ye : R; radG_ye_em : R; Jrad0 : R; Nem : R; Nem_phys : Z -> R }.
(** The run: grid, global time, arguments t and dt, units *)
Record run := { grid : BinModel.grid; tglob : R; targ : R; dt : R; nstep : Z; spec : spectrum;
                kphys_to_num : R; MP : R; M_unit : R; DTd : R; track : R; axisym_mks : bool; neutrinos : bool;
                kdotk_tol : R }.
(** One zone and type: [ucon0] is gamma/alpha of mhd_gamma_calc, [gdet] is ggeom.g,
    [dndlnu] the normalised table, [jnu nu th] the emissivity, [wgt nu] the weight *)
Record site := { zi : Z; zj : Z; zk : Z; stype : Z; Gcov : mat; Ucon : vec; Bcon : vec; ucon0 : R; gdet : R;
                 dndlnu : list X; jnu : R -> R -> R; wgt : R -> R }.
Definition d3x (r : run) : R := BinModel.dx (grid r) 1%nat * BinModel.dx (grid r) 2%nat * BinModel.dx (grid r) 3%nat.
(** coord.c:40-65 at CENT writes all four components: time is the global one *)
Definition zone_index (z : site) (dir : nat) : Z := match dir with 1%nat => zi z | 2%nat => zj z | _ => zk z end.
Definition coord_cent (r : run) (z : site) (X : vec) : vec :=
  fun mu => if Nat.eqb mu 0 then tglob r else BinModel.coord (grid r) BinModel.CENT (zone_index z) mu.
(** make_superphotons.c:179-229: packet n in direction (cth, cphi, sth, sphi) in the tetrad
    frame.  The message about K.K is not modelled. *)
Definition make_packet (r : run) (z : site) (Econ Ecov : mat) (E weight cth sth cphi sphi : R) (ds : list R) : res photon :=
  let X : vec := fun mu => if Nat.eqb mu 0 then targ r + dt r / 2 else 0 in
  let X := coord_cent r z X in
  bind (if axisym_mks r then bind (draw ds) (fun x ds => Got (fun mu => if Nat.eqb mu 3 then 2 * PI * x else X mu) ds) else Got X ds)
  (fun X ds =>
  let K : vec := fun a => match a with 0%nat => - E | 1%nat => E * cth | 2%nat => E * cphi * sth | _ => E * sphi * sth end in
  let Kv := tetrad_to_coord Ecov K in
  let K : vec := fun a => match a with 0%nat => K 0%nat * -1 | _ => K a end in
  let Kn := tetrad_to_coord Econ K in
  let w := 1 / 2 * weight in
  let w := if Rltb 0 (Kv 0%nat) then 0 else w in
  Got {| X2 := X; Kcov := Kv; Kcon := Kn; w := w; KdotKprev := sum4 (fun mu => Kv mu * Kn mu); type := stype z; nscatt := 0%Z;
         origin := (nstep r, zi z, zj z, zk z); t0 := targ r + dt r / 2; is_tracked := false; has_oscillated := false |} ds).
(** make_superphotons.c:231-268 *)
Definition record_packet (r : run) (z : site) (p : photon) (c : cell) : cell :=
  {| radG := fun mu => radG c mu - 1 / (dt r * d3x r) * kphys_to_num r * w p * Kcov p mu;
     radG_ye := if neutrinos r then radG_ye c - (1 / (dt r * d3x r)) * ucon0 z * w p * (MP r / M_unit r) * get_lepton_sign (type p) else radG_ye c;
     radG_ye_em := if neutrinos r then radG_ye_em c - (1 / (dt r * d3x r)) * ucon0 z * w p * (MP r / M_unit r) * get_lepton_sign (type p) else radG_ye_em c;
     Jrad0 := Jrad0 c - (dt r / DTd r) * Kcov p 0%nat * kphys_to_num r * w p / (gdet z * (dt r * d3x r));
     Nem := Nem c + 1;
     Nem_phys := fun ty => if Z.eqb ty (type p) then Nem_phys c ty + w p else Nem_phys c ty |}.
(** make_superphotons.c:270-276 *)
Definition set_tracked (b : bool) (p : photon) : photon :=
  {| X2 := X2 p; Kcov := Kcov p; Kcon := Kcon p; w := w p; KdotKprev := KdotKprev p; type := type p; nscatt := nscatt p;
     origin := origin p; t0 := t0 p; is_tracked := b; has_oscillated := false |}.
Definition one_packet (r : run) (z : site) (Econ Ecov : mat) (E weight cth sth cphi sphi : R) (c : cell) (ds : list R) : res (photon * cell) :=
  bind (make_packet r z Econ Ecov E weight cth sth cphi sphi ds) (fun p ds =>
  let c := record_packet r z p c in
  bind (draw ds) (fun x ds => Got (set_tracked (Rltb x (track r)) p, c) ds)).
(** make_superphotons.c:135-280 *)
Definition sample_photon (r : run) (z : site) (Econ Ecov : mat) (c : cell) (ds : list R) : res (photon * photon * cell) :=
  bind (freq_loop (spec r) (dndlnu z) ds) (fun nu ds =>
  let weight := wgt z nu in
  bind (angle_loop (jnu z nu) ds) (fun cth ds =>
  let sth := sqrt (1 - cth * cth) in
  bind (draw ds) (fun x ds =>
  let phi := 2 * PI * x in
  let E := nu * HPL / (ME * CL * CL) in
  bind (one_packet r z Econ Ecov E weight cth sth (cos phi) (sin phi) c ds) (fun pc ds =>
  let '(p, c) := pc in
  bind (one_packet r z Econ Ecov E weight (- cth) sth (- cos phi) (- sin phi) c ds) (fun qc ds =>
  let '(q, c) := qc in Got (p, q, c) ds))))).

(** ** All emission of a step *)
(** make_superphotons.c:69-71 *)
Definition number_of_pairs (dnz rand : R) : option Z :=
  match to_int (Fin dnz) with
  | None => None
  | Some nz => Some (if Rltb rand (dnz - IZR nz) then (nz + 1)%Z else nz)
  end.
(** make_superphotons.c:82-101: n pairs, each prepended to the list.  [kill]: KILL_ALL_PACKETS *)
Fixpoint emit_pairs (kill : bool) (r : run) (z : site) (Econ Ecov : mat) (n : nat) (head : list photon) (c : cell) (ds : list R)
  : res (list photon * cell) :=
  match n with
  | O => Got (head, c) ds
  | S n => bind (sample_photon r z Econ Ecov c ds) (fun pqc ds =>
           let '(p, q, c) := pqc in emit_pairs kill r z Econ Ecov n (if kill then head else p :: q :: head) c ds)
  end.
Definition zone := (Z * Z * Z)%type.
Definition zone_of (z : site) : zone := (zi z, zj z, zk z).
Definition zone_eqb (a b : zone) : bool :=
  let '(i, j, k) := a in let '(i', j', k') := b in Z.eqb i i' && Z.eqb j j' && Z.eqb k k'.
Definition grid_cells := zone -> cell.
(** make_superphotons.c:67-107: a list of sites with their expected numbers; [None] from the
    tetrad is the division by zero of make_tetrad *)
Record emission := { photons : list photon; cells : grid_cells; made : Z }.
Fixpoint emit_sites (kill : bool) (r : run) (zs : list (site * R)) (e : emission) (ds : list R) : res emission :=
  match zs with
  | [] => Got e ds
  | (z, dnz) :: zs =>
      bind (draw ds) (fun x ds =>
      match number_of_pairs dnz x with
      | None => Undef
      | Some nz =>
          if Z.ltb 0 nz then
            match make_tetrad (Gcov z) (Ucon z) (Bcon z) with
            | None => Undef
            | Some (Econ, Ecov) =>
                bind (emit_pairs kill r z Econ Ecov (Z.to_nat nz) (photons e) (cells e (zone_of z)) ds) (fun pc ds =>
                let '(ps, c) := pc in
                emit_sites kill r zs {| photons := ps; cells := fun y => if zone_eqb y (zone_of z) then c else cells e y;
                                        made := (made e + 2 * nz)%Z |} ds)
            end
          else emit_sites kill r zs e ds
      end)
  end.

(** ** Tuning the number of packets *)
(** The module state of rad_utils.c and defs: factors, next times, intervals, counters *)
Record tuning := { tune_emiss : X; tune_scatt : X; t_tune_emiss : R; t_tune_scatt : R }.
(** mpi_reduce_int(..) / mpi_nprocs(): sum of the processes' counters, integer division *)
Definition reduced (cs : list Z) : Z := Z.quot (fold_right Z.add 0%Z cs) (Z.of_nat (length cs)).
Definition SMALL : R := / 10 ^ 20.
Definition SCATT_BIAS_SAFETY : R := 1 / 2.
(** rad_utils.c:106-118 *)
Definition emiss_correction (dt_tune nph L : R) (made abs : Z) : X :=
  let real := IZR (made - abs) in
  let ideal := (Fin (MY_MIN SCATT_BIAS_SAFETY 1 * dt_tune * nph) / Fin L)%X in
  let correction := (ideal / Fin real)%X in
  if xltb correction (Fin 0) then Fin (4 / 3)
  else let correction := xmin correction (Fin (4 / 3)) in xmax correction (Fin (1 / 2)).
(** rad_utils.c:135-138 *)
Definition scatt_ratio (dt_tune nph L : R) (scatt : Z) : X :=
  ((Fin (dt_tune * nph) / Fin L) / Fin (IZR scatt))%X.
(** rad_utils.c:142-152 *)
Definition scatt_correction (dt_tune nph L : R) (scatt : Z) : X :=
  let correction := xmin (scatt_ratio dt_tune nph L scatt) (Fin (5 / 4)) in
  let correction := xmax correction (Fin (1 / 4)) in
  if Rltb (IZR scatt) SMALL then Fin 1 else correction.
(** Settings: intervals, nph_per_proc, L, METRIC == MKS *)
Record tune_settings := { dt_tune_emiss : R; dt_tune_scatt : R; nph_per_proc : R; Lbox : R; mks : bool }.
(** One process's counters: made, absorbed, scattered since the last adjustment *)
Record counters := { made_tune : Z; abs_tune : Z; scatt_tune : Z }.
(** rad_utils.c:84-156: the step's numbers are added to the counters of every process, then the
    (identical) adjustment is made.  Overflow of the int counters is not represented. *)
Definition add_step (c s : counters) : counters :=
  {| made_tune := (made_tune c + made_tune s)%Z; abs_tune := (abs_tune c + abs_tune s)%Z; scatt_tune := (scatt_tune c + scatt_tune s)%Z |}.
Fixpoint add_steps (cs ss : list counters) : list counters :=
  match cs, ss with c :: cs, s :: ss => add_step c s :: add_steps cs ss | _, _ => cs end.
Definition update_resolution (p : tune_settings) (t : R) (steps : list counters) (s : tuning * list counters) : tuning * list counters :=
  let '(u, cs) := s in
  let cs := add_steps cs steps in
  let '(u, cs) :=
    if Rleb (t_tune_emiss u) t then
      let c := emiss_correction (dt_tune_emiss p) (nph_per_proc p) (Lbox p) (reduced (map made_tune cs)) (reduced (map abs_tune cs)) in
      ({| tune_emiss := (tune_emiss u * c)%X; tune_scatt := tune_scatt u; t_tune_emiss := t_tune_emiss u + dt_tune_emiss p; t_tune_scatt := t_tune_scatt u |},
       map (fun c => {| made_tune := 0; abs_tune := 0; scatt_tune := scatt_tune c |}) cs)
    else (u, cs) in
  let n := reduced (map scatt_tune cs) in
  if Rleb (t_tune_scatt u) t || (xltb (scatt_ratio (dt_tune_scatt p) (nph_per_proc p) (Lbox p) n) (Fin (1 / 4)) && mks p) then
    let c := scatt_correction (dt_tune_scatt p) (nph_per_proc p) (Lbox p) n in
    ({| tune_emiss := tune_emiss u; tune_scatt := (tune_scatt u * c)%X; t_tune_emiss := t_tune_emiss u; t_tune_scatt := t_tune_scatt u + dt_tune_scatt p |},
     map (fun c => {| made_tune := made_tune c; abs_tune := abs_tune c; scatt_tune := 0 |}) cs)
  else (u, cs).
(** a history: the time and every process's numbers of each step *)
Fixpoint update_history (p : tune_settings) (h : list (R * list counters)) (s : tuning * list counters) : tuning * list counters :=
  match h with [] => s | (t, steps) :: h => update_history p h (update_resolution p t steps s) end.
