(** Run-time parameters: core/input.c.  C strings are Coq strings without a final
    NUL.  A parameter's storage is named by its C variable.  The conversion of the
    value text (sscanf %d, %lf) is not modelled: the text read is stored with its
    kind.  Lines are shorter than STRLEN (2048, core/decs.h:119). *)
From Coq Require Import List String Ascii Bool Arith.
Import ListNotations.
Open Scope string_scope.

Definition table := list (string * string).

(** strncmp(s, t, n) == 0 *)
Fixpoint strncmp_eq (n : nat) (s t : string) : bool :=
  match n with
  | O => true
  | S m =>
      match s, t with
      | EmptyString, EmptyString => true
      | String c s', String d t' => Ascii.eqb c d && strncmp_eq m s' t'
      | _, _ => false
      end
  end.

(** core/input.c:29-41.  [Undefined]: table[0].key is a null pointer when nothing
    is registered. *)
Inductive lookup := Found (n : nat) | Missing | Undefined.
(** lines 31-37: entries n, n+1, .. of the table *)
Fixpoint scan (key : string) (n : nat) (rest : table) : lookup :=
  match rest with
  | [] => Missing
  | (k, _) :: r => if strncmp_eq (String.length key) key k then Found n else scan key (S n) r
  end.
Definition get_param (tbl : table) (key : string) : lookup :=
  match tbl with [] => Undefined | _ => scan key 0 tbl end.

(** ** set_core_params, lines 44-171, by build configuration *)
Inductive metric := Minkowski | MKS.
Inductive rad := NoRad | Light | Neutrinos.
Inductive eos := Gamma | Polytrope | Tab.
Record config := { c_metric : metric; c_rad : rad; c_eos : eos; c_fallback : bool; c_electrons : bool;
  c_flatemiss : bool; c_multiscatt : bool; c_rz : bool; c_burrows : bool; c_hdf5 : bool }.
Definition on (b : bool) (l : table) : table := if b then l else [].
Definition self (l : list string) : table := map (fun s => (s, s)) l.
Definition core_table (c : config) : table :=
  let radiation := match c_rad c with NoRad => false | _ => true end in
  let mink := match c_metric c with Minkowski => true | MKS => false end in
  let units := radiation || match c_eos c with Tab => true | _ => false end in
  let nu := match c_rad c with Neutrinos => true | _ => false end in
  (self ["tf"; "dt"]
  ++ on mink (self ["x1Min"; "x1Max"; "x2Min"; "x2Max"; "x3Min"; "x3Max"])
  ++ on (negb mink) (self ["a"; "hslope"; "poly_xt"; "poly_alpha"; "mks_smooth"; "Rout"; "Rout_vis"])
  ++ on (negb mink && radiation) (self ["Rout_rad"])
  ++ self ["cour"]
  ++ on radiation (self ["cour_cool"])
  ++ on (match c_eos c with Gamma => true | _ => c_fallback c end) (self ["gam"])
  ++ on (match c_eos c with Polytrope => true | _ => false end) (self ["poly_K"; "poly_gam"])
  ++ on (match c_eos c with Tab => true | _ => false end) (self ["eospath"])
  ++ on (units && mink) (self ["L_unit"; "M_unit"])
  ++ on (units && negb mink) (self ["mbh"; "M_unit"])
  ++ on (c_electrons c) (self ["game"; "gamp"; "fel0"; "tptemin"; "tptemax"])
  ++ on (radiation && negb (c_electrons c)) (self ["tp_over_te"])
  ++ on radiation (self ["nph_per_proc"; "numin"; "numax"; "tune_emiss"; "tune_scatt"])
  ++ on radiation [("t0_tune_emiss", "t_tune_emiss"); ("t0_tune_scatt", "t_tune_scatt")]
  ++ on radiation (self ["thetae_max"; "sigma_max"; "kdotk_tol"; "Nph_to_track"])
  ++ on (radiation && c_flatemiss c) (self ["cnu_flat"])
  ++ on (radiation && c_multiscatt c) (self ["ms_theta_nu0"; "ms_delta0"])
  ++ on (radiation && c_rz c) (self ["rz_rmax"; "rz_zmax"])
  ++ on (nu && c_burrows c) (self ["opac_param_file"; "opac_file"])
  ++ on (nu && c_hdf5 c) (self ["opac_file"])
  ++ self ["init_from_grmhd"; "DTd"; "DTl"; "DTr"; "DNr"; "DTp"; "DTf"; "outputdir"])%list.

(** the keys registered by set_problem_params of the shipped problems (prob/*/problem.c;
    some are registered only in some builds) *)
Definition shipped : list (list string) :=
  [ ["cadv"; "idim"; "ntracers"]; []; ["direction"; "Nr0"]; ["T0"];
    ["outfile"; "lrho_min"; "lrho_max"; "numrho_out"; "lT_min"; "lT_max"; "numT_out"; "Ye_min"; "Ye_max"; "numYe_out"];
    ["BHflux"]; ["tscale"]; ["rho0"; "T0"; "ye0"];
    ["rho0"; "T0"; "ye0"; "dye"; "c1x"; "c1y"; "r1"; "c2x"; "c2y"; "r2"]; ["nmode"; "idim"]; ["nmode"];
    ["Nr0"; "E_MEV"; "rho0"; "uu0"; "direction"];
    ["Nsph_tot"; "Nph_tot"; "frac_e"; "frac_ebar"; "frac_x"; "frac_xbar"; "E_MEV"; "rho0"; "uu0"; "direction"];
    ["tscale"; "pscale"]; ["lrhomin"; "lrhomax"; "lumin"; "lumax"; "yemin"; "yemax"]; ["T0"; "ne"]; ["MAD"; "BHflux"];
    ["bfield"; "rin"; "rmax"; "beta"; "renorm_dens"; "kappa_eos"; "const_ye"; "entropy"; "lrho_guess"; "ntracers"];
    ["rho0"; "uufactor"; "boost"; "ye0"] ].

(** ** read_params, lines 175-243 *)
Definition isspace (c : ascii) : bool :=
  let n := nat_of_ascii c in (n =? 32)%nat || ((9 <=? n)%nat && (n <=? 13)%nat).
(** whitespace-separated words, as successive %s conversions deliver them *)
Fixpoint words_aux (cur : string) (s : string) : list string :=
  match s with
  | EmptyString => match cur with EmptyString => [] | _ => [cur] end
  | String c r =>
      if isspace c then match cur with EmptyString => words_aux "" r | _ => cur :: words_aux "" r end
      else words_aux (cur ++ String c "") r
  end.
Definition words := words_aux "".
Inductive kind := KInt | KDbl | KStr.
(** lines 186-206: key and value text of a line that is not skipped *)
Definition parse_line (line : string) : option (string * string) :=
  match line with
  | EmptyString => None
  | String c _ =>
      if Ascii.eqb c "#"%char || isspace c then None
      else match words line with _ :: key :: _ :: test :: _ => Some (key, test) | _ => None end
  end.
(** lines 203-205, 207, 212, 217 *)
Definition kind_of (line : string) : option kind :=
  let type := substring 0 5 line in
  if String.eqb type "[int]" then Some KInt
  else if String.eqb type "[dbl]" then Some KDbl
  else if String.eqb type "[str]" then Some KStr else None.
(** what one line assigns: the table slot, the kind and the text *)
Definition assign (tbl : table) (line : string) : option (nat * kind * string) :=
  match parse_line line with
  | None => None
  | Some (key, test) =>
      match get_param tbl key with
      | Found n => match kind_of line with Some k => Some (n, k, test) | None => None end
      | _ => None
      end
  end.
(** the assignments made, in order; nparamset counts them *)
Fixpoint read_lines (tbl : table) (lines : list string) : list (nat * kind * string) :=
  match lines with
  | [] => []
  | l :: r => match assign tbl l with Some a => a :: read_lines tbl r | None => read_lines tbl r end
  end.
(** lines 229-236, on the I/O process: [None]: exit(-1) *)
Definition read_params (tbl : table) (lines : list string) : option (list (nat * kind * string)) :=
  let a := read_lines tbl lines in
  if (List.length a =? List.length tbl)%nat then Some a else None.
