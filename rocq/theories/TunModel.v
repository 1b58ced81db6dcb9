(** How the tuning of the number of packets begins and how it is continued: core/rad_utils.c:42-75
    (init_superphoton_resolution), core/input.c:134-137, core/io.c:1362-1370, 1640-1648 with
    write_array and read_array (core/io.c:212-213, 2324-2334).  What happens between is
    update_resolution of EmitModel (rad_utils.c:77-157). *)
From Coq Require Import Reals ZArith List Bool.
From Verif Require Import RLib XLib EmitModel.
Import ListNotations.
Open Scope R_scope.

(** constants.h:21, 29 *)
Definition THOMSON : R := 665245873 / 10 ^ 33.
Definition NUSIGMA0 : R := 17611737037 / 10 ^ 54.
(** Compile-time options: METRIC == MKS, RADTYPE_NEUTRINOS, ELECTRONS, RAD_NUM_TYPES,
    RAD_SCATT_TYPES; then what set_param reads (input.c) and the units; [from_problem] is
    strcmp(init_from_grmhd, "No") == 0; [ext d] is NdTOT * dx[d]. *)
Record tun_par := mktp {
  is_mks : bool; nu : bool; electrons : bool; types : R; scatt_types : R;
  from_problem : bool; fel0 : R; Rout_rad : R; tf : R; ext : nat -> R; L_unit : R; Ne_unit : R; nph : R;
  par_tune_emiss : R; par_tune_scatt : R; par_t0_emiss : R; par_t0_scatt : R }.
(** 50-54 *)
Definition cross_section (q : tun_par) : R :=
  if nu q then types q * scatt_types q * NUSIGMA0 else 16 * 10 ^ 2 * THOMSON.
(** 62 and 91-95 *)
Definition longest (q : tun_par) : R := MY_MAX (MY_MAX (ext q 1%nat) (ext q 2%nat)) (ext q 3%nat).
(** 47-48, 61-63, 91-95 *)
Definition settings (q : tun_par) : tune_settings :=
  {| dt_tune_emiss := if is_mks q then 1 / 2 else tf q;
     dt_tune_scatt := if is_mks q then Rout_rad q else MY_MAX (longest q) (tf q);
     nph_per_proc := nph q;
     Lbox := if is_mks q then Rout_rad q else longest q;
     mks := is_mks q |}.
(** 65-74 *)
Definition first_time (q : tun_par) (t0 dt : R) : R :=
  let t := if Rleb t0 0 then 2 * dt else t0 in
  if electrons q && (from_problem q && Rltb (fel0 q) (1 / 10)) then 500 else t.
(** 42-75 on [procs] processes *)
Definition init_resolution (q : tun_par) (procs : nat) : tuning * list counters :=
  ({| tune_emiss := Fin (par_tune_emiss q);
      tune_scatt := if is_mks q then (Fin (1 / 10) / Fin (Rout_rad q * L_unit q * cross_section q * Ne_unit q))%X
                    else Fin (par_tune_scatt q);
      t_tune_emiss := first_time q (par_t0_emiss q) (dt_tune_emiss (settings q));
      t_tune_scatt := first_time q (par_t0_scatt q) (dt_tune_scatt (settings q)) |},
   repeat {| made_tune := 0; abs_tune := 0; scatt_tune := 0 |} procs).
(** Writing a restart file and reading it again: the header is written by the first process
    (io.c:212-213) and its values given to all (io.c:2327, 2333). *)
Definition reread (s : tuning * list counters) : tuning * list counters :=
  (fst s, map (fun _ => hd {| made_tune := 0; abs_tune := 0; scatt_tune := 0 |} (snd s)) (snd s)).
