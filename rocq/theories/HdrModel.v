(** The header of a restart file: which variables are written and read, as what type,
    and what they are declared as.  core/io.c:1250-1383 (restart_write),
    1551-1658 (restart_read), 29-34 (WRITE_HDR, READ_HDR), 2248-2343 (write_array,
    read_array); declarations core/defs.h and core/io.c:143-146. *)
From Coq Require Import List String Bool.
Import ListNotations.
Open Scope string_scope.

(** C types of header variables; strings are character arrays. *)
Inductive ctype := Int | Dbl | Str.
(** Size in bytes, for the two fixed-size types, of H5T_NATIVE_INT and
    H5T_NATIVE_DOUBLE as well as of the C types. *)
Definition size (c : ctype) : option nat :=
  match c with Int => Some 4 | Dbl => Some 8 | Str => None end.

(** The compile-time options the header depends on. *)
Inductive metric_t := Minkowski | Mks.
Inductive eos_t := EosGamma | EosPolytrope | EosTable.
Inductive rad_t := RadNone | RadLight | RadNeutrinos.
Record cfg := mkcfg { metric : metric_t; eos : eos_t; gamma_fallback : bool;
  radiation : rad_t; tracers : bool; electrons : bool }.
Definition rad (c : cfg) := match radiation c with RadNone => false | _ => true end.
Definition neutrinos (c : cfg) := match radiation c with RadNeutrinos => true | _ => false end.
Definition table (c : cfg) := match eos c with EosTable => true | _ => false end.
Definition mks (c : cfg) := match metric c with Mks => true | _ => false end.
(** core/decs.h:301 *)
Definition need_units (c : cfg) := rad c || table c.
Definition when {A} (b : bool) (l : list A) := if b then l else [].
Definition as_ (t : ctype) (l : list string) := map (fun s => (s, t)) l.

(** core/io.c:1250-1383, in order. *)
Definition write_header (c : cfg) : list (string * ctype) :=
  as_ Str ["version"; "metric"; "nulnutype"] ++
  as_ Int ["electrons"; "radiation"; "nvar"; "nvar_passive"; "output_eosvars";
           "diagnostics_use_radtypes"] ++
  as_ Dbl ["t"; "tf"] ++ as_ Int ["nstep"] ++ as_ Dbl ["dump_id"; "fdump_id"] ++
  when (rad c && tracers c) (as_ Int ["dumptrace_id"]) ++
  as_ Int ["restart_id"; "restart_perm_id"] ++ as_ Dbl ["dt"] ++ as_ Int ["lim"; "failed"] ++
  as_ Dbl ["DTd"; "DTl"; "DTr"] ++ as_ Int ["DNr"; "DTp"; "DTf"] ++
  as_ Dbl ["tdump"; "trestart"; "tlog"] ++
  when (negb (mks c)) (as_ Dbl ["x1Min"; "x1Max"; "x2Min"; "x2Max"; "x3Min"; "x3Max"]) ++
  when (mks c) (as_ Dbl ["a"; "Rin"; "Rout"; "Rout_vis"; "hslope"; "Reh"; "Risco"; "poly_xt";
                         "poly_alpha"; "mks_smooth"] ++
                when (rad c) (as_ Dbl ["mbh"; "Mbh"])) ++
  when (match eos c with EosGamma => true | _ => gamma_fallback c end) (as_ Dbl ["gam"]) ++
  match eos c with
  | EosPolytrope => as_ Dbl ["poly_K"; "poly_gam"]
  | EosTable => as_ Str ["eospath"]
  | EosGamma => []
  end ++
  when (need_units c) (as_ Dbl ["L_unit"; "M_unit"; "RHO_unit"; "T_unit"; "U_unit"; "B_unit"] ++
    when (table c) (as_ Dbl ["TEMP_unit"]) ++
    when (rad c) (as_ Dbl ["tp_over_te"; "Ne_unit"; "Thetae_unit"])) ++
  as_ Dbl ["cour"] ++
  when (electrons c) (as_ Dbl ["game"; "gamp"; "fel0"; "tptemin"; "tptemax"]) ++
  when (rad c) (
    as_ Dbl ["numin"; "numax"; "tune_emiss"; "tune_scatt"; "t_tune_emiss"; "t_tune_scatt";
             "dt_tune_emiss"; "dt_tune_scatt"] ++
    as_ Int ["made_tune_proc"; "abs_tune_proc"; "scatt_tune_proc"] ++
    as_ Dbl ["thetae_max"; "sigma_max"; "kdotk_tol"; "Nph_to_track"] ++
    when (mks c) (as_ Dbl ["Rout_rad"]) ++
    when (neutrinos c) (as_ Dbl ["lepton_tot"; "lepton_last"; "lepton_lost"])).

(** core/io.c:1551-1658, in order. *)
Definition read_header (c : cfg) : list (string * ctype) :=
  as_ Dbl ["t"; "tf"] ++ as_ Int ["nstep"] ++ as_ Dbl ["dump_id"; "fdump_id"] ++
  when (rad c && tracers c) (as_ Int ["dumptrace_id"]) ++
  as_ Int ["restart_id"; "restart_perm_id"] ++ as_ Dbl ["dt"] ++ as_ Int ["lim"; "failed"] ++
  as_ Dbl ["DTd"; "DTl"; "DTr"] ++ as_ Int ["DNr"; "DTp"; "DTf"] ++
  as_ Dbl ["tdump"; "trestart"; "tlog"] ++
  when (negb (mks c)) (as_ Dbl ["x1Min"; "x1Max"; "x2Min"; "x2Max"; "x3Min"; "x3Max"]) ++
  when (mks c) (as_ Dbl ["a"; "Rin"; "Rout"; "Rout_vis"; "hslope"; "Reh"; "Risco"; "poly_xt";
                         "poly_alpha"; "mks_smooth"] ++
                when (rad c) (as_ Dbl ["mbh"; "Mbh"])) ++
  when (need_units c) (as_ Dbl ["L_unit"; "T_unit"; "M_unit"; "RHO_unit"; "U_unit"; "B_unit"] ++
    when (table c) (as_ Dbl ["TEMP_unit"]) ++
    when (rad c) (as_ Dbl ["tp_over_te"; "Ne_unit"; "Thetae_unit"])) ++
  as_ Dbl ["cour"] ++
  when (match eos c with EosGamma => true | _ => gamma_fallback c end) (as_ Dbl ["gam"]) ++
  when (match eos c with EosPolytrope => true | _ => false end) (as_ Dbl ["poly_K"; "poly_gam"]) ++
  when (electrons c) (as_ Dbl ["game"; "gamp"; "fel0"; "tptemin"; "tptemax"]) ++
  when (rad c) (
    as_ Dbl ["numin"; "numax"; "tune_emiss"; "tune_scatt"; "t_tune_emiss"; "t_tune_scatt";
             "dt_tune_emiss"; "dt_tune_scatt"] ++
    as_ Int ["made_tune_proc"; "abs_tune_proc"; "scatt_tune_proc"] ++
    as_ Dbl ["thetae_max"; "sigma_max"; "kdotk_tol"; "Nph_to_track"] ++
    when (mks c) (as_ Dbl ["Rout_rad"]) ++
    when (neutrinos c) (as_ Dbl ["lepton_tot"; "lepton_last"; "lepton_lost"])).

(** Declarations: core/defs.h:44-219 (the doubles and the other ints), core/io.c:142-146
    (version and the ids), core/io.c:1253-1270 (local ints holding the options). *)
Definition ints : list string :=
  ["electrons"; "radiation"; "nvar"; "nvar_passive"; "output_eosvars"; "diagnostics_use_radtypes";
   "nstep"; "dump_id"; "restart_id"; "restart_perm_id"; "fdump_id"; "dumptrace_id"; "lim"; "failed";
   "DNr"; "DTp"; "DTf"; "made_tune_proc"; "abs_tune_proc"; "scatt_tune_proc"].
Definition doubles : list string :=
  ["t"; "tf"; "dt"; "DTd"; "DTl"; "DTr"; "tdump"; "trestart"; "tlog";
   "x1Min"; "x1Max"; "x2Min"; "x2Max"; "x3Min"; "x3Max"; "a"; "Rin"; "Rout"; "Rout_vis"; "hslope";
   "Reh"; "Risco"; "poly_xt"; "poly_alpha"; "mks_smooth"; "mbh"; "Mbh"; "gam"; "poly_K"; "poly_gam";
   "L_unit"; "M_unit"; "RHO_unit"; "T_unit"; "U_unit"; "B_unit"; "TEMP_unit"; "tp_over_te"; "Ne_unit";
   "Thetae_unit"; "cour"; "game"; "gamp"; "fel0"; "tptemin"; "tptemax"; "numin"; "numax";
   "tune_emiss"; "tune_scatt"; "t_tune_emiss"; "t_tune_scatt"; "dt_tune_emiss"; "dt_tune_scatt";
   "thetae_max"; "sigma_max"; "kdotk_tol"; "Nph_to_track"; "Rout_rad";
   "lepton_tot"; "lepton_last"; "lepton_lost"].
Definition strings : list string := ["version"; "metric"; "nulnutype"; "eospath"].
Definition declared (s : string) : option ctype :=
  if existsb (String.eqb s) ints then Some Int
  else if existsb (String.eqb s) doubles then Some Dbl
  else if existsb (String.eqb s) strings then Some Str
  else None.
