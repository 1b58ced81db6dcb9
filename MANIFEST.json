{
 "claims": [
  {
   "property": "C01",
   "status": "proved",
   "theorems": [
    "C01_list_remove"
   ],
   "note": "Closed under the global context."
  },
  {
   "property": "C02",
   "status": "proved",
   "theorems": [
    "C02_swap_ph",
    "C02_drain"
   ],
   "note": "Closed under the global context."
  },
  {
   "property": "C03",
   "status": "proved",
   "theorems": [
    "C03_push_pass"
   ],
   "note": "Closed under the global context. Push outcome is an arbitrary oracle."
  },
  {
   "property": "C04",
   "status": "proved",
   "theorems": [
    "C04_bound_pass"
   ],
   "note": "Closed under the global context. Movement and activity test are arbitrary oracles."
  },
  {
   "property": "C05",
   "status": "partial",
   "theorems": [
    "C05_conserved",
    "C05_ownership_partial",
    "C05_counters",
    "C05_ownership_refuted"
   ],
   "note": "Conservation and counters proved in full; ownership false for a packet crossing X1, X2 and the periodic X3 edge at once with >= 3 processes along X3 (witness in C05_ownership_refuted), proved otherwise. Axiom-free."
  },
  {
   "property": "C06",
   "status": "proved",
   "theorems": [
    "C06_distribute"
   ],
   "note": "Axiom-free."
  },
  {
   "property": "C07",
   "status": "partial",
   "theorems": [
    "C07_partition_partial",
    "C07_uneven_refuted"
   ],
   "note": "Proved when the process count divides the size; refuted otherwise (5 zones on 2 processes leave zone 4 unowned)."
  },
  {
   "property": "C08",
   "status": "proved",
   "theorems": [
    "C08_zone_regions",
    "C08_face_regions",
    "C08_write_read"
   ],
   "note": "HDF5 itself not modelled: a file is a map from global indices."
  },
  {
   "property": "C09",
   "status": "proved",
   "theorems": [
    "C09_centre",
    "C09_position",
    "C09_below_refuted",
    "C09_places"
   ],
   "note": "Real arithmetic for every grid; positions outside the ghost zones are refuted to be rejected (truncation towards zero)"
  },
  {
   "property": "C10",
   "status": "partial",
   "theorems": [
    "C10_ghosts",
    "C10_narrow_refuted"
   ],
   "note": "All ghosts incl. corners for blocks of >= NG zones (or one zone, one process); refuted for narrower blocks; right X3 outflow excluded (see C12)."
  },
  {
   "property": "C100",
   "status": "partial",
   "theorems": [
    "C100_planck",
    "C100_kirchhoff",
    "C100_gray",
    "C100_gray_refuted",
    "C100_brem",
    "C100_brem_spectrum"
   ],
   "note": "Proved for Planck's law, Kirchhoff's law, gray absorption and bremsstrahlung; J_gray returns 0 and so is not the integral of jnu_gray (refuted)."
  },
  {
   "property": "C101",
   "status": "partial",
   "theorems": [
    "C101_power",
    "C101_total_refuted",
    "C101_sphere",
    "C101_bessel",
    "C101_bessel_node",
    "C101_average",
    "C101_end_refuted"
   ],
   "note": "J_synch is Thetae times the integral (proved to 1e-9; refuted as the total). Lookups proved inside the tables except at the upper ends (refuted there). The quadrature that fills F_synch is GSL's and is not modelled: the integrand is."
  },
  {
   "property": "C102",
   "status": "proved",
   "theorems": [
    "C102_total",
    "C102_kinds",
    "C102_band"
   ],
   "note": "All bands, units and kinds."
  },
  {
   "property": "C103",
   "status": "proved",
   "theorems": [
    "C103_velocity",
    "C103_unit",
    "C103_field",
    "C103_frequency",
    "C103_angle",
    "C103_cut"
   ],
   "note": "Real numbers; get_Thetae without ELECTRONS."
  },
  {
   "property": "C104",
   "status": "partial",
   "theorems": [
    "C104_nucleons",
    "C104_half",
    "C104_nuclei_refuted",
    "C104_same_mass",
    "C104_stops"
   ],
   "note": "Proved for free nucleons; refuted for nuclei and alpha particles, of which exactly half are counted."
  },
  {
   "property": "C105",
   "status": "proved",
   "theorems": [
    "C105_order",
    "C105_numbers",
    "C105_momentum",
    "C105_tensor"
   ],
   "note": "Packets as they are after interpolation and search of the zone (C80, C09). In C105_tensor the metric at the packets is that of the zone."
  },
  {
   "property": "C106",
   "status": "partial",
   "theorems": [
    "C106_drift",
    "C106_calm",
    "C106_emission",
    "C106_refuted",
    "C106_round_refuted"
   ],
   "note": "Refuted: emission and absorption add u^t times the lepton number of the packet to the conserved lepton density, which already contains u^t; conservation holds where u^t = 1 and no scattering fails (C106_calm), and the change of the total is given exactly in every case (C106_drift). Floors and the repair of Y_e after the force are not part of the model."
  },
  {
   "property": "C107",
   "status": "proved",
   "theorems": [
    "C107_absorption",
    "C107_scattering",
    "C107_units"
   ],
   "note": "Over the reals."
  },
  {
   "property": "C108",
   "status": "partial",
   "theorems": [
    "C108_energy",
    "C108_rounding",
    "C108_fresh",
    "C108_fresh_refuted",
    "C108_fallback_refuted"
   ],
   "note": "Mean energy and rounding proved, with the quadrature of GSL taken as exact. Stale microphysics: refuted for zones leaving the atmosphere in the half step and, with GAMMA_FALLBACK, for the whole atmosphere; proved otherwise."
  },
  {
   "property": "C109",
   "status": "partial",
   "theorems": [
    "C109_grows",
    "C109_total",
    "C109_inverse",
    "C109_inverse_refuted",
    "C109_cold",
    "C109_hot"
   ],
   "note": "Totality proved for every state; the inverse proved at electron fractions of the table. Refuted between them: catch_var_2d uses bounds from the wrong entries (macro MMA_ELEM)."
  },
  {
   "property": "C11",
   "status": "partial",
   "theorems": [
    "C11_reduction",
    "C11_total",
    "C11_thin_refuted"
   ],
   "note": "For blocks of at least two zones in every direction; refuted with one zone per process (second receive overwrites)."
  },
  {
   "property": "C110",
   "status": "partial",
   "theorems": [
    "C110_least",
    "C110_floor",
    "C110_cold_refuted",
    "C110_sound",
    "C110_index",
    "C110_index_stuck",
    "C110_index_refuted"
   ],
   "note": "Least energy and floors proved; refuted for the cold floor (density passed in code units, fixup.c:225 and eos.c:289) and for the adiabatic index (c^2 missing in EOS_SC_gamma, always 1.1)."
  },
  {
   "property": "C111",
   "status": "partial",
   "theorems": [
    "C111_shift",
    "C111_total",
    "C111_pressure",
    "C111_pressure_refuted",
    "C111_energy_total",
    "C111_energy",
    "C111_energy_refuted",
    "C111_cold",
    "C111_hot",
    "C111_energy_cold",
    "C111_energy_hot"
   ],
   "note": "False between two temperatures: the interpolation of the log enthalpy is not the log of the sum of interpolated energy and pressure (C111_pressure_refuted: a quarter of the pressure). EOS_SC_u_press, which lacks the monotone catch of its siblings, leaves the table between two electron fractions because of the macro of C82 (C111_energy_refuted)."
  },
  {
   "property": "C112",
   "status": "proved",
   "theorems": [
    "C112_history",
    "C112_total",
    "C112_again",
    "C112_force_refuted"
   ],
   "note": "All decompositions and histories. C112_force_refuted records that the four-force, which has no clearing of ghosts, would count a ghost deposit twice without the reset in every step (which step.c does)."
  },
  {
   "property": "C113",
   "status": "partial",
   "theorems": [
    "C113_active",
    "C113_stop",
    "C113_supported",
    "C113_packet",
    "C113_once",
    "C113_camera_refuted",
    "C113_tracer_refuted",
    "C113_axis_refuted"
   ],
   "note": "Proved except where the code differs: the camera is asked before the soundness of the packet is tested (C113_camera_refuted), tracers with u_t > 0 are lost inside the domain (C113_tracer_refuted), and everything within three degrees of the axis is lost (C113_axis_refuted)."
  },
  {
   "property": "C114",
   "status": "partial",
   "theorems": [
    "C114_groups",
    "C114_groups_outside",
    "C114_fill",
    "C114_exact",
    "C114_frequency",
    "C114_group",
    "C114_frequency_outside",
    "C114_bounded",
    "C114_total",
    "C114_total_refuted"
   ],
   "note": "Proved but for two cases where it is false: when the highest frequency of the run is the highest of the table the table is read past its end, and at the highest frequency of the run the groups are (C114_groups_outside, C114_frequency_outside); and the total emissivity is not the integral: it counts half a step at either end too much (C114_total, C114_total_refuted)."
  },
  {
   "property": "C115",
   "status": "partial",
   "theorems": [
    "C115_zone",
    "C115_least",
    "C115_step",
    "C115_step_refuted",
    "C115_output_partial",
    "C115_output_refuted",
    "C115_oscillations"
   ],
   "note": "False in two places: when the limits fall below SMALL the step falls back to the length of the last one and a zone can radiate more than its energy (C115_step_refuted); set_cooling_time lacks the test for the atmosphere that get_min_dt_cool and get_dnz have (C115_output_refuted). The rest is proved for any number of processes and zones; the emissivity of a zone is given."
  },
  {
   "property": "C116",
   "status": "partial",
   "theorems": [
    "C116_bins_partial",
    "C116_histograms_partial",
    "C116_total",
    "C116_dumps",
    "C116_edge",
    "C116_edge_refuted",
    "C116_moved_refuted",
    "C116_tracer_refuted",
    "C116_negative_refuted",
    "C116_coordinates"
   ],
   "note": "False in four places: in double precision rmax - SMALL is rmax and the packets at or beyond the range are counted one past the array with the default parameters (C116_edge_refuted); origin holds the zone of the process the packet was made on and is read with the offset of the present one (C116_moved_refuted); tracers are counted (C116_tracer_refuted); a negative range gives negative bins (C116_negative_refuted). Proved in exact arithmetic for packets that have not moved."
  },
  {
   "property": "C117",
   "status": "partial",
   "theorems": [
    "C117_rates",
    "C117_totals",
    "C117_balance",
    "C117_divb",
    "C117_flux_partial",
    "C117_flux_refuted",
    "C117_phi_partial",
    "C117_phi_inflow",
    "C117_phi_refuted",
    "C117_luminosity_partial",
    "C117_luminosity_processes",
    "C117_luminosity_refuted",
    "C117_face_refuted",
    "C117_efficiency_partial",
    "C117_efficiency_refuted"
   ],
   "note": "Rates, totals, balance and divergence proved for every decomposition. False: luminosity is added once for every process along direction 1 and taken at the wrong shell if the edge of the radiation is on a face; efficiency divides by the rate of process 0 alone; phi is not a number for inflow; the magnetic flux is zero with five zones or less per process. ldot is the same code as mdot with another component."
  },
  {
   "property": "C118",
   "status": "partial",
   "theorems": [
    "C118_terminates",
    "C118_adiabat_partial",
    "C118_interval",
    "C118_found",
    "C118_outside",
    "C118_outside_refuted",
    "C118_highest",
    "C118_empty_refuted",
    "C118_polytrope",
    "C118_polytrope_gas",
    "C118_shift",
    "C118_filter",
    "C118_filter_bounds",
    "C118_filter_spike"
   ],
   "note": "Staying inside the tables is false for an entropy at or above the highest: the density axis is read at index -1 (C118_outside_refuted; C118_outside says exactly when). A non-empty result is false for the lowest entropy: success is reported with no node and an infinite least enthalpy (C118_empty_refuted). C118_adiabat_partial is what holds of a successful trace. The rest is proved in full; the later use of the adiabat by interp_1d is C47_adiabat_refuted."
  },
  {
   "property": "C119",
   "status": "partial",
   "theorems": [
    "C119_interface",
    "C119_monotone",
    "C119_limits",
    "C119_parabola",
    "C119_negation",
    "C119_inside",
    "C119_outside",
    "C119_inside_refuted",
    "C119_para_inside",
    "C119_para_monotone",
    "C119_para_uniform",
    "C119_para_monotone_refuted",
    "C119_para_parabola_refuted"
   ],
   "note": "Refuted: with three ghost zones the first loop of reconstruct_lr_ppm reads q[-1] (four are needed, C119_inside); para divides 0 by 0 on uniform data and beside the minimum of x^2. Everything else proved for all reals."
  },
  {
   "property": "C12",
   "status": "partial",
   "theorems": [
    "C12_face_partial",
    "C12_mirror",
    "C12_polar_twice",
    "C12_primitives",
    "C12_source_in_range",
    "C12_x3r_outflow_refuted"
   ],
   "note": "Right X3 outflow face refuted: kactive = NG."
  },
  {
   "property": "C120",
   "status": "partial",
   "theorems": [
    "C120_reads",
    "C120_single_refuted",
    "C120_error",
    "C120_node_refuted",
    "C120_found",
    "C120_enthalpy_refuted",
    "C120_units",
    "C120_floor"
   ],
   "note": "Refuted: interp_1d is called with imax where it expects the index after the last node, so the spacing it uses is too wide: the temperature at a node is not the node's (C120_node_refuted), one node gives 0/0 (C120_single_refuted), and the search can succeed at the jump at the upper end with an enthalpy off by a tenth of a decade (C120_enthalpy_refuted). The rest is proved; C120_error bounds the error on straight adiabats."
  },
  {
   "property": "C121",
   "status": "partial",
   "theorems": [
    "C121_written",
    "C121_fourth_refuted",
    "C121_overflow_refuted",
    "C121_axes",
    "C121_ends",
    "C121_reread",
    "C121_reread_refuted"
   ],
   "note": "Refuted: ngroups is 3 (NU_BINS + 1) whatever the number of species, so the fourth species of runs with oscillations is written uninitialised (C121_fourth_refuted); size is an int (C121_overflow_refuted); reading back with the same frequencies reads past the table because interp_1d takes one entry too many at the highest frequency (C121_reread_refuted). The rest is proved. The Fortran routine is an arbitrary function and HDF5 is left out."
  },
  {
   "property": "C122",
   "status": "partial",
   "theorems": [
    "C122_round",
    "C122_numbers",
    "C122_intrinsic",
    "C122_basics",
    "C122_cold",
    "C122_diluted",
    "C122_cold_refuted",
    "C122_leptons_refuted"
   ],
   "note": "Proved for the scalars themselves; two parts are false of the code and refuted: the least energy of cold gas is taken at the electron fraction diluted by the added matter, before the fraction is put back (fixup.c:225 comes before 230), and matter added by the floors brings electrons."
  },
  {
   "property": "C123",
   "status": "proved",
   "theorems": [
    "C123_uniform",
    "C123_between",
    "C123_linear",
    "C123_courant_refuted"
   ],
   "note": "Edge values are arbitrary inputs, so this holds for every reconstruction giving such values; C123_courant_refuted shows the condition on the step in C123_linear is not implied by the code's Courant limit. Inversion assumed to succeed."
  },
  {
   "property": "C124",
   "status": "partial",
   "theorems": [
    "C124_restarted",
    "C124_started",
    "C124_too_low",
    "C124_mean_refuted",
    "C124_first_report",
    "C124_first_row",
    "C124_log_row",
    "C124_share",
    "C124_share_refuted",
    "C124_nested",
    "C124_nested_refuted"
   ],
   "note": "Proved after a restart and without the printing of neutrino kinds; the other parts are false of the code (timers_reset at nstep 1 does not move nstep_start; print_rad_types runs after TIMER_ALL stops; fixup_utoprim calls fixup inside TIMER_FIXUP) and refuted."
  },
  {
   "property": "C125",
   "status": "partial",
   "theorems": [
    "C125_share",
    "C125_percent",
    "C125_placement",
    "C125_index",
    "C125_empty",
    "C125_percent_refuted"
   ],
   "note": "Proved whenever the radiation has weight; refuted without it: with tracers only, or no packets, every number is 0/0 (diag.c:639)."
  },
  {
   "property": "C126",
   "status": "partial",
   "theorems": [
    "C126_rows",
    "C126_files",
    "C126_off",
    "C126_restart",
    "C126_restart_refuted"
   ],
   "note": "Proved within one run; refuted for a continued one: the static track_id (io.c:307) starts from 0 again and H5F_ACC_TRUNC (io.c:353) destroys the earlier files."
  },
  {
   "property": "C127",
   "status": "partial",
   "theorems": [
    "C127_first",
    "C127_never",
    "C127_parameters_refuted",
    "C127_first_adjustment",
    "C127_rate_refuted",
    "C127_continued",
    "C127_continued_refuted",
    "C127_scattering"
   ],
   "note": "First times and the factor of emission are proved, and continuation when the counters of all processes are equal. Refuted: with MKS tune_scatt is overwritten (rad_utils.c:56) and with cold electrons both t0 (rad_utils.c:71-72); in other metrics without t0 nothing is tuned up to twice tf; the first adjustment counts two intervals against the number wanted in one and halves a correct rate; a continued run gives every process the first one's counters (io.c:212-213, 2333)."
  },
  {
   "property": "C128",
   "status": "partial",
   "theorems": [
    "C128_right",
    "C128_vectors",
    "C128_vectors_refuted",
    "C128_Jrad_refuted",
    "C128_cells",
    "C128_complete",
    "C128_shells",
    "C128_shells_refuted"
   ],
   "note": "Proved for coordinates, scalars, tensors and primitive variables when Rout_vis is at most Rout. Refuted: vectors (jcon, Jrad) name the .xmf file itself (fname for dname, xdmf_output.c:243); Jrad has another shape (io.c:974); Rout_vis beyond Rout selects zones that do not exist (xdmf_output.c:44)."
  },
  {
   "property": "C129",
   "status": "partial",
   "theorems": [
    "C129_energy",
    "C129_zone",
    "C129_blind",
    "C129_jet_refuted",
    "C129_sum",
    "C129_sum_refuted"
   ],
   "note": "False of the code: diag.c:174 adds -U[U1], the radial momentum flux, in place of the energy flux -U[UU] (C129_jet_refuted: a fluid at rest is reported with a flux, and an outward Poynting flux as a negative number; C129_blind: reversing the flow does not change the number). Proved: what component UU is (C129_energy), what a zone contributes (C129_zone), both in flat space, and that the shell is summed once if the first processes have more than five zones across (C129_sum); otherwise nothing is reported (C129_sum_refuted)."
  },
  {
   "property": "C13",
   "status": "proved",
   "theorems": [
    "C13_offsets"
   ],
   "note": "Offsets over exact integers."
  },
  {
   "property": "C130",
   "status": "partial",
   "theorems": [
    "C130_emission",
    "C130_absorbing",
    "C130_scattering",
    "C130_absorption_refuted",
    "C130_upscattering_refuted",
    "C130_size",
    "C130_range",
    "C130_lists",
    "C130_ghost",
    "C130_outside_refuted"
   ],
   "note": "False of the code in two respects. The radiation terms enter the residual (lines 122-123) with the wrong sign: electrons that only absorb are estimated cooler and electrons that only upscatter hotter (C130_absorbing, C130_scattering for every root; C130_absorption_refuted, C130_upscattering_refuted). A packet beyond the ghost zones is counted outside the array before the test (C130_outside_refuted). Proved: emission (C130_emission), size of every term in cgs (C130_size), the range given a root finder that stays in its interval (C130_range), and the lists (C130_lists, C130_ghost). Line 73 as written does not compile; micro is taken to be meant. gsl's root finder is an argument."
  },
  {
   "property": "C131",
   "status": "partial",
   "theorems": [
    "C131_formula",
    "C131_no_field",
    "C131_sum",
    "C131_finite",
    "C131_cold",
    "C131_cold_refuted",
    "C131_field"
   ],
   "note": "False where a zone has matter and zero pressure: pow(0,-2) is infinite, the exponential zero, and the whole sum is not a number (C131_cold for every such list, C131_cold_refuted). Proved otherwise: the formula, the limit of no field, the sum, finiteness and sign, growth with the field. Exact extended reals; the equation of state and the zones' order over processes are not part of it."
  },
  {
   "property": "C132",
   "status": "partial",
   "theorems": [
    "C132_path",
    "C132_last",
    "C132_unset",
    "C132_unset_refuted",
    "C132_long_refuted",
    "C132_fluid",
    "C132_fluid_complete",
    "C132_own_file",
    "C132_own_file_refuted"
   ],
   "note": "False in three respects: without -p (or with -p as last word) the unset array is used as the path (C132_unset, C132_unset_refuted); a path of 2048 characters is copied past the end (C132_long_refuted); a dump or restart file of the program has its primitives under \"P\" where init_fluid_restart opens \"p\", so that nothing is read and nothing noticed (C132_own_file, C132_own_file_refuted). Proved: the path taken otherwise, and the transfer of a dataset \"p\" between any two decompositions. The extents of the dataset are taken to be those of the run, which the code does not check."
  },
  {
   "property": "C133",
   "status": "partial",
   "theorems": [
    "C133_distinct",
    "C133_few_threads",
    "C133_defined",
    "C133_default_seed_refuted",
    "C133_many_threads",
    "C133_many_threads_refuted",
    "C133_restart",
    "C133_one_part",
    "C133_restart_refuted",
    "C133_kept"
   ],
   "note": "With up to 157 threads all seeds differ; up to 300 there is one collision (first thread of process 0, whose seed 0 becomes 4357, and thread 157 of process 14). Refuted: that collision, more than 300 threads, and fresh numbers after a restart (the generators are seeded again). What gsl makes of the seed is taken for granted, gsl not being in the repository."
  },
  {
   "property": "C134",
   "status": "partial",
   "theorems": [
    "C134_range",
    "C134_balanced",
    "C134_idle",
    "C134_exact",
    "C134_empty",
    "C134_range_refuted",
    "C134_balanced_refuted"
   ],
   "note": "Range, and the values in the balanced and the idle case, for any monotone rounding; the converses without rounding only. Refuted: with the rounding of C to float it is 0 for 2^24 and 2^24 + 1 packets. Refuted where no process has any packet: 0/0 is not a number. That the counts are not negative is a hypothesis."
  },
  {
   "property": "C14",
   "status": "proved",
   "theorems": [
    "C14_terminates",
    "C14_sources",
    "C14_complete",
    "C14_hopeless",
    "C14_leftover",
    "C14_poisoned_refuted"
   ],
   "note": "fixup1zone is an oracle; completeness assumes it does not raise its own failure flag (true for a positive semidefinite spatial metric, C67_gamma_defined); with failures the completeness claim is refuted."
  },
  {
   "property": "C15",
   "status": "partial",
   "theorems": [
    "C15_codes",
    "C15_field",
    "C15_untouched",
    "C15_negative",
    "C15_positive",
    "C15_nan_accepted",
    "C15_success_refuted"
   ],
   "note": "All parts proved for every input including NaN and infinities; 'return 0 implies positive density, non-negative energy' needs finite results: a NaN conserved energy is accepted as converged (refuted)."
  },
  {
   "property": "C16",
   "status": "proved",
   "theorems": [
    "C16_step",
    "C16_result",
    "C16_consulted",
    "C16_start"
   ],
   "note": "Any error function, extended-real results."
  },
  {
   "property": "C17",
   "status": "partial",
   "theorems": [
    "C17_residual",
    "C17_recovered",
    "C17_fixed_point_partial",
    "C17_exact_refuted"
   ],
   "note": "Adiabatic gas, any 3+1 metric, field and scalars. phys.c adds SMALL to the density, so the residual at the true unknown is -SMALL (gam-1)/gam (refuted as exact); everything but the energy (off by SMALL/gam) is recovered exactly. Full fixed point only under a slope condition and without the floor."
  },
  {
   "property": "C18",
   "status": "partial",
   "theorems": [
    "C18_success",
    "C18_failure",
    "C18_time",
    "C18_pushers",
    "C18_last_refuted"
   ],
   "note": "Success: full step, coarsest good subdivision, null within tolerance. Failure exactly when the first nine subdivisions are bad; the last clause of the claim is refuted because the tenth attempt is never accepted."
  },
  {
   "property": "C19",
   "status": "proved",
   "theorems": [
    "C19_conserved",
    "C19_mks",
    "C19_straight"
   ],
   "note": "For any inverse metric as a function of position; plus straight lines in Minkowski space."
  },
  {
   "property": "C20",
   "status": "partial",
   "theorems": [
    "C20_absorb",
    "C20_scatter",
    "C20_nothing",
    "C20_one_process_partial",
    "C20_interacts_refuted"
   ],
   "note": "The choice is characterised completely. The claim holds for one scattering process; with several the packet interacts only if it reaches absorption or all the scatterings."
  },
  {
   "property": "C21",
   "status": "partial",
   "theorems": [
    "C21_conserved",
    "C21_nonnegative",
    "C21_removed",
    "C21_passed",
    "C21_failed",
    "C21_failed_refuted"
   ],
   "note": "Over whole runs of the interaction loop; one step at a bad, skipped or free place changes nothing but the packet removed. The last clause (failed scatterings) is refuted: they lose w/bias."
  },
  {
   "property": "C22",
   "status": "proved",
   "theorems": [
    "C22_absorb",
    "C22_zone",
    "C22_conserved",
    "C22_push_failed",
    "C22_push_failed_refuted"
   ],
   "note": "Absorption in any geometry; scattering and whole runs along straight paths. Refuted only for scattered packets whose first push fails, which the claim does not cover."
  },
  {
   "property": "C23",
   "status": "partial",
   "theorems": [
    "C23_at_least_one",
    "C23_bounded_partial",
    "C23_bounded_refuted",
    "C23_rebalanced",
    "C23_single"
   ],
   "note": "Biases are at least one for all inputs including NaN; the sum is bounded by 1/2 plus the optical depth; the claimed bound is refuted in thick zones."
  },
  {
   "property": "C24",
   "status": "partial",
   "theorems": [
    "C24_times_partial",
    "C24_untouched",
    "C24_birth",
    "C24_cap_refuted"
   ],
   "note": "The cap does not exist: after 100 interactions the packet is taken again from the start of the step. Order and range of interaction times proved up to 100; tracers and packets of no weight are untouched and nothing interacts before its birth, without that limit."
  },
  {
   "property": "C25",
   "status": "partial",
   "theorems": [
    "C25_terminates",
    "C25_result",
    "C25_continuous",
    "C25_complete",
    "C25_complete_refuted",
    "C25_in_range_refuted",
    "C25_tolerance_refuted"
   ],
   "note": "Termination, the meaning of success, completeness and accuracy of the bisection branch proved for every function; the in-range and tolerance claims are false for the secant branch and refuted with witnesses. Exact reals."
  },
  {
   "property": "C26",
   "status": "partial",
   "theorems": [
    "C26_first",
    "C26_unknown",
    "C26_registered",
    "C26_exact_refuted"
   ],
   "note": "Lookup characterised for every table; every registered name of every build of the shipped problems finds itself; the claim for unregistered keys is false (prefix match) and refuted."
  },
  {
   "property": "C27",
   "status": "partial",
   "theorems": [
    "C27_all_set_partial",
    "C27_all_set_refuted",
    "C27_complete_file",
    "C27_layout"
   ],
   "note": "True for files that set no parameter twice; false in general (assignments are counted, not parameters), refuted. A file with one line per registered name is accepted with every value in its own slot."
  },
  {
   "property": "C28",
   "status": "partial",
   "theorems": [
    "C28_never_past",
    "C28_reaches",
    "C28_growth",
    "C28_growth_refuted",
    "C28_never_past_refuted",
    "C28_reaches_refuted"
   ],
   "note": "Proved for runs whose first step fits (and, without radiation, limits bounded below); the unrestricted claims are false and refuted: the first step is not clipped, the small-step fallback exceeds the growth factor, a vanishing limit stalls. Exact reals."
  },
  {
   "property": "C29",
   "status": "proved",
   "theorems": [
    "C29_numbered",
    "C29_increasing",
    "C29_on_time"
   ],
   "note": "Every run of the loop, exact times; restarted runs start from the counters in the restart file and are not covered."
  },
  {
   "property": "C30",
   "status": "partial",
   "theorems": [
    "C30_rank",
    "C30_unique_partial",
    "C30_even_partial",
    "C30_refuted",
    "C30_full_refuted"
   ],
   "note": "False in general: a process may make more than 1.5 times its share and run into the identifiers of the next one, also when all zones have tracers. Unique within a process, and in a run when no process exceeds 1.5 times its share, e.g. even distributions with at least two tracers per cell."
  },
  {
   "property": "C31",
   "status": "partial",
   "theorems": [
    "C31_count",
    "C31_exists",
    "C31_terminates",
    "C31_even",
    "C31_no_cells",
    "C31_overflow_refuted"
   ],
   "note": "Holds for every run that comes to an end; without tracer cells there is a division by zero, and numbers near INT_MAX overflow."
  },
  {
   "property": "C32",
   "status": "proved",
   "theorems": [
    "C32_node",
    "C32_partition",
    "C32_exact",
    "C32_grid",
    "C32_inside",
    "C32_outer"
   ],
   "note": "any number of nodes and any polynomial that fits them; the 27-zone interpolation is exact on triquadratics and stays inside the array for positions at least one zone inside the ghost zones; C32_outer shows it does not beyond"
  },
  {
   "property": "C33",
   "status": "proved",
   "theorems": [
    "C33_divergence",
    "C33_diagnostic",
    "C33_conserved",
    "C33_consistent"
   ],
   "note": "exact reals, any number of blocks, corners on process boundaries included; fluxes before flux_ct arbitrary but agreeing on shared faces"
  },
  {
   "property": "C34",
   "status": "proved",
   "theorems": [
    "C34_totals",
    "C34_periodic",
    "C34_ct_keeps"
   ],
   "note": "totals of the conserved values handed to the inversion"
  },
  {
   "property": "C35",
   "status": "proved",
   "theorems": [
    "C35_consistent",
    "C35_degenerate",
    "C35_reflect",
    "C35_dissipation",
    "C35_dissipation_least",
    "C35_upwind"
   ],
   "note": "physical flux and characteristic speeds are parameters"
  },
  {
   "property": "C36",
   "status": "proved",
   "theorems": [
    "C36_linear",
    "C36_linear_mc"
   ],
   "note": "exact reals; linear MC scheme as dispatched and linear_mc"
  },
  {
   "property": "C37",
   "status": "proved",
   "theorems": [
    "C37_convex",
    "C37_between",
    "C37_candidates",
    "C37_quadratic",
    "C37_smooth",
    "C37_weights_order",
    "C37_mirror"
   ],
   "note": "exact reals; weights positive and add to one, exact on quadratics, on quartics where smoothness values agree, mirror symmetric"
  },
  {
   "property": "C38",
   "status": "proved",
   "theorems": [
    "C38_limited",
    "C38_bounds",
    "C38_neighbours",
    "C38_upstream",
    "C38_relaxed",
    "C38_limit",
    "C38_linear",
    "C38_inactive",
    "C38_high_order",
    "C38_constant",
    "C38_mirror",
    "C38_average_is_integral"
   ],
   "note": "exact reals; limited value is the median and within the bounds, bounds characterised, unlimited value exact for averages of quartics"
  },
  {
   "property": "C39",
   "status": "proved",
   "theorems": [
    "C39_inverse",
    "C39_raise_lower",
    "C39_boyer_lindquist",
    "C39_boyer_lindquist_det"
   ],
   "note": "exact reals; on the axis the code replaces sin by 1e-20, excluded"
  },
  {
   "property": "C40",
   "status": "proved",
   "theorems": [
    "C40_velocity",
    "C40_lapse",
    "C40_field"
   ],
   "note": "every metric in 3+1 form, exact reals"
  },
  {
   "property": "C41",
   "status": "proved",
   "theorems": [
    "C41_symmetric",
    "C41_compatible"
   ],
   "note": "exact reals; set_gcov is any field of symmetric metrics"
  },
  {
   "property": "C42",
   "status": "partial",
   "theorems": [
    "C42_orthonormal",
    "C42_roundtrip",
    "C42_time_leg",
    "C42_defined",
    "C42_defined_refuted"
   ],
   "note": "orthonormal and inverse whenever no division by zero; that is guaranteed for independent start vectors but refuted in general by a slice with oblique axes"
  },
  {
   "property": "C43",
   "status": "proved",
   "theorems": [
    "C43_null",
    "C43_null_cov",
    "C43_ergoregion_refuted"
   ],
   "note": "as stated for g_tt < 0; the refuted theorem records that the hypothesis is needed (ergoregion)"
  },
  {
   "property": "C44",
   "status": "proved",
   "theorems": [
    "C44_step",
    "C44_involution",
    "C44_totals"
   ],
   "note": "oscillate per packet and over a packet list, any moments and random numbers. local_osc_count is not modelled."
  },
  {
   "property": "C45",
   "status": "proved",
   "theorems": [
    "C45_range",
    "C45_value",
    "C45_basis"
   ],
   "note": "Exact reals; moments of any history of calls."
  },
  {
   "property": "C46",
   "status": "partial",
   "theorems": [
    "C46_sum",
    "C46_bin",
    "C46_alone",
    "C46_equal",
    "C46_first_partial",
    "C46_current_refuted",
    "C46_dump_refuted"
   ],
   "note": "False of the code: local_moments is never set to zero, so each call adds to all earlier ones, and each dump adds one more. Proved: what a bin counts for, the exact value over any history; only the first call gives the claimed value."
  },
  {
   "property": "C47",
   "status": "partial",
   "theorems": [
    "C47_inside_partial",
    "C47_end_outside",
    "C47_clamp_lost",
    "C47_above_refuted",
    "C47_rounding",
    "C47_adiabat_refuted",
    "C47_find"
   ],
   "note": "False of the code at the upper end, where the entry after the last is read; in double precision also for every abscissa above the table, because xmax - SMALL rounds to xmax. Proved for all other abscissae, infinities included. The adiabats of the tabulated equation of state pass the index of the last point instead of the one after it."
  },
  {
   "property": "C48",
   "status": "partial",
   "theorems": [
    "C48_stencil_partial",
    "C48_defined_partial",
    "C48_edge_refuted",
    "C48_edge_index",
    "C48_nan_outside"
   ],
   "note": "False at the upper end of the densities (catch_lrho compares with > where the others use >=) and for NaN; proved for all other arguments, infinities included."
  },
  {
   "property": "C49",
   "status": "partial",
   "theorems": [
    "C49_between_writes_partial",
    "C49_previous_kept",
    "C49_usable_refuted"
   ],
   "note": "False as stated: the pointer file is rewritten before the restart file exists. Proved: usable exactly outside a write; the two newest finished files survive every crash point."
  },
  {
   "property": "C50",
   "status": "partial",
   "theorems": [
    "C50_two_newest",
    "C50_one_each",
    "C50_at_most_three_partial",
    "C50_permanent",
    "C50_at_most_three_refuted"
   ],
   "note": "Proved for every crash point of a single run; with repeated crashes and restarts leftovers accumulate beyond three (refuted)."
  },
  {
   "property": "C51",
   "status": "partial",
   "theorems": [
    "C51_restored_partial",
    "C51_flags_refuted"
   ],
   "note": "All fields copied by copy_photon are restored for every layout; is_tracked and has_oscillated are not (refuted)."
  },
  {
   "property": "C52",
   "status": "partial",
   "theorems": [
    "C52_lost",
    "C52_continue_refuted"
   ],
   "note": "The claim is false of the code: restart_init resets the accumulators after reading them. Proved that all are zero after a restart; the claim refuted with a witness."
  },
  {
   "property": "C53",
   "status": "partial",
   "theorems": [
    "C53_exact_partial",
    "C53_counters",
    "C53_exact_refuted"
   ],
   "note": "dump_id and fdump_id are ints accessed as doubles in every build (refuted); all other variables exact."
  },
  {
   "property": "C54",
   "status": "partial",
   "theorems": [
    "C54_columns_partial",
    "C54_xyz",
    "C54_xyz_refuted",
    "C54_single_refuted",
    "C54_bcov_refuted"
   ],
   "note": "Proved for all columns but x, y, z and bcov, for any lists, threads and processes, when no process has exactly one tracer. Refuted for x, y, z (io.c:2075-2077 read the first elements of Xcart for every tracer; out of bounds with a single tracer) and for bcov (io.c:2105 copies bcon)."
  },
  {
   "property": "C55",
   "status": "partial",
   "theorems": [
    "C55_cleared_partial",
    "C55_in_bounds",
    "C55_radG_kept",
    "C55_radG_zones",
    "C55_light_refuted"
   ],
   "note": "All accumulators but radG_int are cleared; radG_int only in part (refuted for every build with fewer types than components)."
  },
  {
   "property": "C56",
   "status": "partial",
   "theorems": [
    "C56_one_thread_partial",
    "C56_race_refuted",
    "C56_race_any",
    "C56_stale"
   ],
   "note": "Proved for one thread; refuted for two (shared lw, lT) even with sequentially consistent memory; also a file of another frequency range is used unchecked"
  },
  {
   "property": "C57",
   "status": "partial",
   "theorems": [
    "C57_pressure_w",
    "C57_inverse",
    "C57_temperature",
    "C57_enthalpy",
    "C57_sound_bounds",
    "C57_sound_is_derivative",
    "C57_entropy",
    "C57_poly_refuted",
    "C57_entropy_is",
    "C57_poly"
   ],
   "note": "Ideal gas: proved in full over the reals (conversions inverse, enthalpy = rho + u + p, sound speed in [0,1) and equal to dp/de on adiabats, entropy constant on adiabats). Partial because the same claim is false of the polytropic equation of state (eos_poly.c uses u where u/rho is meant)."
  },
  {
   "property": "C58",
   "status": "partial",
   "theorems": [
    "C58_bounds",
    "C58_keeps",
    "C58_nan",
    "C58_ceiling",
    "C58_gamp_refuted"
   ],
   "note": "Proved for positive energy with the total entropy that belongs to it (which fixup1zone sets just before): for any electron entropy incl. NaN and infinities the temperature ratio ends within the limits. Partial: the limits are in terms of the index gam; with the ion index gamp used by coulomb() they can be exceeded."
  },
  {
   "property": "C59",
   "status": "proved",
   "theorems": [
    "C59_parity",
    "C59_exchange",
    "C59_identity",
    "C59_range"
   ],
   "note": "Any permutation length; the symbol on all index quadruples."
  },
  {
   "property": "C60",
   "status": "partial",
   "theorems": [
    "C60_neutrino_partial",
    "C60_neutrino_outside",
    "C60_positive",
    "C60_flat_refuted",
    "C60_accept",
    "C60_multiscatt",
    "C60_klein_nishina",
    "C60_klein_nishina_tight",
    "C60_energy",
    "C60_target_light",
    "C60_target_neutrino",
    "C60_couplings",
    "C60_ions"
   ],
   "note": "The neutrino bound holds exactly when the largest energy is at most the electron rest energy, refuted above; all other envelopes proved in real arithmetic"
  },
  {
   "property": "C61",
   "status": "partial",
   "theorems": [
    "C61_pair",
    "C61_ergosphere_refuted",
    "C61_conserved",
    "C61_number",
    "C61_killed"
   ],
   "note": "Pairs cancel in the fluid frame and the fluid loses what the packets carry, for every emission; weights are equal where the time coordinate is timelike. Refuted inside an ergosphere, where one packet of a pair can get weight zero."
  },
  {
   "property": "C62",
   "status": "partial",
   "theorems": [
    "C62_refuted",
    "C62_lag",
    "C62_draws"
   ],
   "note": "False: coord() overwrites the time with the global one, so the position is half a step older than t0. Position in space proved."
  },
  {
   "property": "C63",
   "status": "partial",
   "theorems": [
    "C63_emission",
    "C63_emission_target",
    "C63_scattering",
    "C63_scattering_target",
    "C63_idle_scattering",
    "C63_idle_emission",
    "C63_idle_emission_refuted",
    "C63_history",
    "C63_when",
    "C63_drift_refuted",
    "C63_negative",
    "C63_when_scattering",
    "C63_counters"
   ],
   "note": "Limits hold for every count and history; unchanged when nothing was scattered, but multiplied by 4/3 when nothing was made. Early scattering adjustments put off the next one without limit."
  },
  {
   "property": "C64",
   "status": "partial",
   "theorems": [
    "C64_record_partial",
    "C64_above",
    "C64_pole_refuted",
    "C64_azimuth_refuted",
    "C64_wrap_refuted",
    "C64_low_refuted",
    "C64_direction_partial",
    "C64_direction_refuted"
   ],
   "note": "The claim is false at the lower axis, for negative azimuth and just below the frequency range (witnesses); proved everywhere else, in real arithmetic"
  },
  {
   "property": "C65",
   "status": "partial",
   "theorems": [
    "C65_ends_partial",
    "C65_spacetime",
    "C65_recursion",
    "C65_refuted"
   ],
   "note": "False as stated: fail() runs diag(DIAG_FINAL), whose loop over zones (diag.c:142-149) calls get_state without looking at 'failed', so a zone with squared velocity below -1e-10 makes fail() call itself without end. Proved to end otherwise, in particular whenever the spatial metric is positive definite. One process; the other routines called by diag are taken to return."
  },
  {
   "property": "C66",
   "status": "proved",
   "theorems": [
    "C66_total",
    "C66_root"
   ],
   "note": "One bin of the spectrum, any number of ranks, any history of records, reductions and resets."
  },
  {
   "property": "C67",
   "status": "proved",
   "theorems": [
    "C67_cap",
    "C67_gamma_defined"
   ],
   "note": "cap block of fixup1zone; positive definite spatial metric"
  },
  {
   "property": "C68",
   "status": "partial",
   "theorems": [
    "C68_no_inflow_partial",
    "C68_inner_partial",
    "C68_outer_refuted",
    "C68_inner_refuted"
   ],
   "note": "true unless one of the two clamps on the speed is active; refuted with witnesses there"
  },
  {
   "property": "C69",
   "status": "proved",
   "theorems": [
    "C69_prune"
   ],
   "note": "Closed under the global context."
  },
  {
   "property": "C70",
   "status": "proved",
   "theorems": [
    "C70_courant"
   ],
   "note": "positive speeds; a zero speed divides by zero in the code and is excluded"
  },
  {
   "property": "C71",
   "status": "proved",
   "theorems": [
    "C71_kerr_schild",
    "C71_determinant",
    "C71_code_coordinates",
    "C71_volume"
   ],
   "note": "exact reals"
  },
  {
   "property": "C72",
   "status": "partial",
   "theorems": [
    "C72_ut_constant",
    "C72_normalised_refuted"
   ],
   "note": "false of the code: sign missing; refuted with witness and characterised"
  },
  {
   "property": "C73",
   "status": "proved",
   "theorems": [
    "C73_roundtrip",
    "C73_roundtrip_four"
   ],
   "note": "exact reals, 3+1 metrics"
  },
  {
   "property": "C74",
   "status": "partial",
   "theorems": [
    "C74_reproduced_refuted"
   ],
   "note": "Refuted with a finite witness."
  },
  {
   "property": "C75",
   "status": "proved",
   "theorems": [
    "C75_table_composition"
   ],
   "note": "Up to the floor SMALL."
  },
  {
   "property": "C76",
   "status": "proved",
   "theorems": [
    "C76_linear",
    "C76_gives_up"
   ],
   "note": "Exact arithmetic."
  },
  {
   "property": "C77",
   "status": "proved",
   "theorems": [
    "C77_balanced"
   ],
   "note": "All thread counts and starting threads below the thread count."
  },
  {
   "property": "C78",
   "status": "proved",
   "theorems": [
    "C78_read_written",
    "C78_written_read",
    "C78_no_clash"
   ],
   "note": "All combinations of the compile-time options the header depends on."
  },
  {
   "property": "C79",
   "status": "partial",
   "theorems": [
    "C79_round_trip",
    "C79_in_bounds",
    "C79_disjoint",
    "C79_covered_partial",
    "C79_covered_refuted"
   ],
   "note": "Coverage of the file needs the process counts to divide the grid (refuted otherwise); all other parts hold for any decomposition."
  },
  {
   "property": "C80",
   "status": "partial",
   "theorems": [
    "C80_time",
    "C80_exits",
    "C80_complete",
    "C80_conserved",
    "C80_newborn",
    "C80_on_path_refuted"
   ],
   "note": "Holds for packets with a complete history; refuted for packets made by a scattering in the second half of the step, whose oldest stored state is zero."
  },
  {
   "property": "C81",
   "status": "partial",
   "theorems": [
    "C81_bin",
    "C81_nan_outside",
    "C81_cosine_bin",
    "C81_centre",
    "C81_cosine_partial",
    "C81_cosine_refuted"
   ],
   "note": "Bins proved for every extended real; the cosine is right for diagonal spatial metrics without shift and refuted for others"
  },
  {
   "property": "C82",
   "status": "partial",
   "theorems": [
    "C82_exact",
    "C82_bounded",
    "C82_minmax",
    "C82_two_partial",
    "C82_two_refuted",
    "C82_catch_refuted",
    "C82_catch"
   ],
   "note": "Three-dimensional part proved. Two-dimensional part false: MMA_ELEM lacks parentheses, so MMA_ELEM(irho, iY + 1) is entry (irho + 1, iY); right only at the tabulated electron fractions."
  },
  {
   "property": "C83",
   "status": "proved",
   "theorems": [
    "C83_particle",
    "C83_boost",
    "C83_rest",
    "C83_scattered",
    "C83_angle",
    "C83_frame_refuted",
    "C83_gamma",
    "C83_clamp"
   ],
   "note": "Real arithmetic, with the regularising small number kept and its effect bounded; a random direction exactly along the packet gives not-a-number"
  },
  {
   "property": "C84",
   "status": "proved",
   "theorems": [
    "C84_lookup",
    "C84_truncate",
    "C84_inside",
    "C84_exact"
   ],
   "note": "Real arithmetic; every range with positive ends"
  },
  {
   "property": "C85",
   "status": "proved",
   "theorems": [
    "C85_total",
    "C85_accuracy",
    "C85_abort_unreachable"
   ],
   "note": "Real arithmetic"
  },
  {
   "property": "C86",
   "status": "proved",
   "theorems": [
    "C86_sampling",
    "C86_node",
    "C86_inside",
    "C86_dark_refuted",
    "C86_angle",
    "C86_weight"
   ],
   "note": "Exact arithmetic; the numbers come from a generator on [0,1). A table of zeros accepts everything."
  },
  {
   "property": "C87",
   "status": "proved",
   "theorems": [
    "C87_not_early",
    "C87_logs",
    "C87_permanent",
    "C87_temporary",
    "C87_recent"
   ],
   "note": "Exact real times, fresh start."
  },
  {
   "property": "C88",
   "status": "proved",
   "theorems": [
    "C88_cell",
    "C88_total",
    "C88_place",
    "C88_threads",
    "C88_report",
    "C88_report_sampled"
   ],
   "note": "exact arithmetic for positions and masses"
  },
  {
   "property": "C89",
   "status": "proved",
   "theorems": [
    "C89_force",
    "C89_second_order",
    "C89_raised"
   ],
   "note": "any inverse metric; smoothness of the solution and a Lipschitz bound on a region containing the end point and the predictor are hypotheses"
  },
  {
   "property": "C90",
   "status": "partial",
   "theorems": [
    "C90_init",
    "C90_fraction",
    "C90_heat_partial",
    "C90_heat_general",
    "C90_heat_refuted",
    "C90_coulomb_sign",
    "C90_coulomb_amount",
    "C90_temperatures",
    "C90_equilibrium_refuted",
    "C90_radiation_partial",
    "C90_coulomb_rate"
   ],
   "note": "Heat: exact when Ps and Pf have the same density, in general off by a power of the density ratio (so the full statement is refuted). Coulomb: direction and amount proved for the temperatures the code computes; these differ from the kinetic ones by MP/(MP+ME), so equilibrium is not stationary. Radiation: exact when the density at the half step and end agree."
  },
  {
   "property": "C91",
   "status": "partial",
   "theorems": [
    "C91_gamma",
    "C91_flag",
    "C91_untouched",
    "C91_raised",
    "C91_limits_partial",
    "C91_limits_refuted",
    "C91_at_rest",
    "C91_drift",
    "C91_parallel",
    "C91_stored",
    "C91_velocity_refuted",
    "C91_scale",
    "C91_along"
   ],
   "note": "Proved for every space-time: always finishes, Lorentz factor at most 50, flag exact, nothing else touched, limits hold in strongly magnetised zones and when the inversion fails, drift velocity and parallel velocity as intended. Refuted: after an exact inversion in the weak branch the density can be below its floor; and the velocity is stored without its Lorentz factor (the sign error of C72)."
  },
  {
   "property": "C92",
   "status": "proved",
   "theorems": [
    "C92_speeds",
    "C92_light"
   ],
   "note": "Ideal gas (EOS_TYPE_GAMMA), exact reals, 1 < gam <= 2, density not exactly -SMALL. The NaN checks and the continuation after fail() are not modelled: no fail() is reached."
  },
  {
   "property": "C93",
   "status": "proved",
   "theorems": [
    "C93_bound",
    "C93_attained",
    "C93_zone",
    "C93_step",
    "C93_fluid"
   ],
   "note": "Metric at zone centres only, as the code computes it, exact reals. With radiation step.c:136 replaces the time step from the fluxes, so the characteristic speeds at faces, where the metric differs, are not covered by this bound."
  },
  {
   "property": "C94",
   "status": "proved",
   "theorems": [
    "C94_jacobian",
    "C94_cartesian",
    "C94_inverse",
    "C94_inverse_spherical",
    "C94_inverse_cartesian"
   ],
   "note": "METRIC == MKS, exact reals. poly_alpha is a natural number (pow of a negative number is NaN otherwise). Cartesian derivatives more than 1e-20 off the axis, where the code shifts the angle; inverses where the angle increases with X2 (see C95) and, for Cartesian coordinates, sin(th) > 0."
  },
  {
   "property": "C95",
   "status": "partial",
   "theorems": [
    "C95_poles",
    "C95_increasing",
    "C95_range",
    "C95_metric",
    "C95_odd_refuted",
    "C95_ghost_refuted"
   ],
   "note": "Proved for even poly_alpha (shipped: 14), 0 < hslope < 2, mks_smooth >= 0, and X1 at or outside the inner edge. False for odd poly_alpha (pole missed), and inside the inner edge, where the ghost zones are, the angle can decrease for some parameters, refuted. The witness is not the shipped parameter set."
  },
  {
   "property": "C96",
   "status": "partial",
   "theorems": [
    "C96_horizon",
    "C96_isco",
    "C96_retrograde",
    "C96_edge",
    "C96_edge_refuted"
   ],
   "note": "Exact reals. The grid needs at least 6 zones in X1: with fewer the zone width is negative (refuted). For negative spin Risco is that of orbits turning with the hole, not against it."
  },
  {
   "property": "C97",
   "status": "proved",
   "theorems": [
    "C97_spherical"
   ],
   "note": "atan2 as specified by the C standard, without signed zeros; the axis, where the azimuth is arbitrary, is left out."
  },
  {
   "property": "C98",
   "status": "partial",
   "theorems": [
    "C98_light",
    "C98_thomson",
    "C98_cold_refuted",
    "C98_neutrino",
    "C98_lookup_light",
    "C98_lookup_neutrino"
   ],
   "note": "The Thomson shortcut of total_cross_lkup is taken on w*thetae < 1e-6 before the temperature is looked at, so cold scatterers are given the Thomson cross-section for light of any energy (C98_cold_refuted). At the temperatures of the table it is right to half a percent of the count of the midpoint rule, which is not itself evaluated. Not-a-number checks and floating-point rounding are left out."
  },
  {
   "property": "C99",
   "status": "partial",
   "theorems": [
    "C99_tensor",
    "C99_charge_partial",
    "C99_ampere_partial",
    "C99_sign_refuted",
    "C99_neutral"
   ],
   "note": "The current has the opposite sign: with F^{0i} = E^i and F^{12} = B^3, as Fcon_calc has them, Maxwell's equations are D_nu F^{mu nu} = 4 pi j^mu, and current_calc takes D_mu F^{mu nu} (C99_sign_refuted). The magnitude is proved for flat space with metric eta; for other metrics the tensor and the neutrality of a periodic box are proved. Only the branch nstep != 0."
  }
 ]
}