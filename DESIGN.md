# Formal model of nubhlight: design

Source: `/repo` (lanl/nubhlight, pinned commit), read as text; nothing was
compiled or run.  Model and proofs: Coq 8.16.1, `/verif/rocq/theories`.

## Trusted base

* Coq's kernel (and `coqc`/`vm_compute` as part of it).
* The reading of the C code into Gallina.  Every definition cites file and
  lines.  Nothing links the model to the binary other than this reading.
* Axioms: theorems about lists, integers, heaps, files and schedules are closed
  under the global context.  Theorems about real numbers use Coq's standard
  Reals, whose axioms are `ClassicalDedekindReals.sig_forall_dec`,
  `ClassicalDedekindReals.sig_not_dec` and
  `FunctionalExtensionality.functional_extensionality_dep`.  Some also use
  `Classical_Prop.classic`, which lemmas of the libraries used rely on.  All four are axioms of the standard library.  `Print
  Assumptions` stands under each property theorem, and its output is collected
  in the last section.  No other axioms; none of our own.
* `coqchk` and `vcheck` report more names than that, such as
  `Coq.ssr.ssrunder.Under_rel`, the `EnumDef`/`SubsetDef`/`BigOp`/`PermDef`
  modules of mathcomp and `RbaseSymbolsImpl`.  They are module parameters that
  the loaded libraries seal.  No theorem depends on them as axioms.

## Global simplifications

* `double` is modelled by `R` (or by `Z`/`Q` where only comparisons and
  addition occur).  Rounding is not modelled, except in `TabRound.v` (C47).
  NaN and infinities are modelled only in files that use the extended reals of
  `XLib.v`, for instance in C15, C16, C23, C47, C48 and C58.  Where the
  code's behaviour on division by zero or on an out-of-range index is
  undefined, the model yields a distinct error outcome (`None`, an error
  constructor), or the theorem carries the precondition explicitly.
* OpenMP regions are modelled per thread, except where the property is about
  scheduling (C56), where an interleaving semantics is used.
* MPI calls are modelled by their specified effect on the tuple of processes
  (`MPI_Sendrecv` as simultaneous exchange with the Cartesian neighbour,
  reductions as sums).  Deadlock and network failure are not modelled.
* HDF5 is modelled by its effect on an abstract file (dataset regions;
  all-or-nothing per call is *not* assumed in the crash model).

## Layout

Each area has four files: `XModel.v` (definitions transcribing the code),
`XSpec.v` where a separate specification vocabulary is needed,
`XProofs.v` (lemmas), `XProps.v` (property theorems only, each closed by
`exact`, followed by `Print Assumptions` and by an `Example` showing that the
hypotheses are met by a concrete non-trivial case).

A property that is false of the faithful model gets a theorem with suffix
`_refuted` exhibiting the witness, and (if something weaker is true) a theorem
with suffix `_partial`.

## Plan per property

| id | model | proof |
|----|-------|-------|
| C01, C02 | heap `loc -> option node`, `list_remove`, `swap_ph` as heap transformers with null/dangling dereference as error | list-segment predicate; refinement to list deletion / cons |
| C03, C04 | the `while` loops over the heap model with an arbitrary outcome oracle | loop invariant; refinement to `filter`/`partition`, counters as lengths |
| C05 | process grid as Z^3 torus, packets with integer-scaled positions, the sort and three direction passes of `sync_mpi_photons` | conservation as permutation; ownership refuted by a triple crossing; partial under explicit hypothesis; leak of in-range packet refuted |
| C06 | the two nested loops | induction on threads; permutation; ceiling arithmetic |
| C07, C08 | `global_start/stop`, `N=NTOT/NCPU`, hyperslabs | integer division; refutation by 5 zones on 2 processes |
| C09 | `coord`, `Xtoijk` with C truncation | real arithmetic, `up`/truncation lemma |
| C10 | six sweeps as functional updates on `rank -> zone -> value` | algebra of modular indices |
| C11 | three sweeps with buffers | sums over ranks and zones |
| C12 | index maps of `bound_prim` | arithmetic; X3R outflow refuted |
| C13 | `mpi_accumulate_int` | induction |
| C14 | grid as finite map, sweep and `do/while` | termination measure (bad zones + consecutive failures); reachability |
| C15, C16 | `Utoprim` control flow over extended reals (NaN, infinities) with EOS oracle | case analysis, inequality |
| C17 | algebra of Q, D, B vectors for a 3+1 metric | field identities |
| C18 | attempt loop with oracle | induction on attempts; last attempt refuted |
| C19 | `push` substep | induction |
| C20-C24 | `interact` decision logic over R | case analysis; bias-sum, failed-scatter and cap refuted, rest proved |
| C25 | `root_bisect`, `root_secant`, `find_root` over R with arbitrary `f` | bracket invariant; secant range refuted |
| C26, C27 | parameter table as list of strings, `strncmp`, counter | list reasoning; prefix/duplicate refuted, partial under prefix-free / duplicate-free |
| C28, C29 | main loop as transition system with arbitrary dt limits | invariants |
| C30, C31 | id assignment | arithmetic; collision refuted, partial under balanced distribution |
| C32 | Lagrange basis | field identities |
| C33, C34 | fluxes as `Z -> Z -> Z -> R` | ring identities, telescoping sums |
| C35-C38 | scalar formulas over R | case analysis, `nra` |
| C39-C43 | 4-vectors as `nat -> R` or tuples, matrices | ring/field identities |
| C44-C46 | type arithmetic, formulas, accumulation state | arithmetic, history refutation |
| C47, C48 | table lookup with bounds-checked reads | arithmetic; edge refuted |
| C49, C50 | file-system trace semantics, every prefix is a crash point | invariants; pointer refuted |
| C51-C55 | records of saved fields, byte-sized objects, column buffers | list reasoning; several refuted |
| C56 | two-thread interleaving semantics with shared temporaries | reachable bad state; sequential correctness |
| C57, C58 | formulas | field, inequality |
| C59 | `pp`, `antisym` | induction, finite case analysis |
| C60 | formulas | refuted by witness |
| C61, C62 | `sample_photon` | algebra; overwrite of time refuted |
| C63 | formula | inequality |
| C64 | bin computation | truncation arithmetic; negative angle / pole refuted |
| C65 | call graph as recursion with fuel | no fuel suffices |
| C66 | tuple of processes with two buffers | induction over history |
| C67, C68 | formulas | inequality |
| C69 | the pruning loop over the heap model | as C03 |
| C70 | `fluxcalc`'s time-step limit | inequality |
| C71 | `set_gcov` in Kerr-Schild form, code coordinates | 3+1 form exhibited |
| C72, C73 | `ut_calc_3vel`, `ucon_to_utcon` | field identities; sign refuted |
| C74-C76 | residual, composition and secant iteration of `Utoprim` | algebra; C74 refuted by a finite witness |
| C77, C78 | dealing of packets to threads; header fields per option | list reasoning, finite case analysis over options |
| C79 | `write_array`/`read_array` as maps on global indices | index arithmetic |
| C80 | interpolation on the three stored states of a packet | algebra; zero history refuted |
| C81 | angle bins of local distributions | truncation arithmetic; oblique metrics refuted |
| C82 | tri- and bilinear table interpolation | algebra; macro precedence refuted |
| C83-C85 | `sample_gas_particle`, `boost`, `sample_mu`, table lookup, Klein-Nishina | algebra, analysis |
| C86 | rejection sampling in frequency | inequality |
| C87 | log and restart schedule | loop invariants |
| C88 | tracer masses and positions; the total mass reported (`TMassModel.v`, get_total_tracer_mass over all threads and processes, radiation packets among the tracers) | sums, inequality |
| C89 | one step of the integrator | Taylor expansion with remainder |
| C90 | electron heating, Coulomb, radiation force | algebra; density ratio refuted |
| C91 | `fixup1zone` with inversion as oracle | geometry of the 3+1 split |
| C92 | `mhd_vchar`, ideal gas, errors as outcomes | quadratic form of the wave condition on the 3+1 split |
| C93 | light crossing times of `coord.c` | Cauchy-Schwarz for causal vectors |
| C94 | `bl_coord`, `cart_coord` and the three Jacobians; poly_alpha a natural number | derivatives (Coquelicot), bounds on the regularisation |
| C95 | polar angle and `set_gcov` in code coordinates | mean value theorem; odd exponent and ghost zones refuted |
| C96 | radii of `set_points` | quartic of the stable orbit factored; uniqueness by a monotone parametrisation |
| C97 | `cart_to_sph` with `atan2` by quadrants | trigonometry |
| C98 | `total_cross_num`, `dNdgammae`, `boostcross` and `total_cross_lkup` over a generic Bessel function and table; the loops over reals with a bound on their passes | induction over the loops; three derivatives of the Klein-Nishina formula; polynomial sums; witness for the shortcut at low temperature |
| C99 | `current_calc`, `Fcon_calc` with `ucon_calc`, `bcon` and the permutation symbol | cases over the indices, `field`; telescoping sums; a sheared field for the sign |
| C100 | `Bnu_inv`, `alpha_inv_abs`, gray and bremsstrahlung emissivities | Taylor bounds of the exponential by repeated derivatives; integrals split at the series switch |
| C101 | `jnu_synch`, `Jnu_synch`, `J_synch`, table lookups over arbitrary tables (None: outside the array); the values of the tables are arbitrary | primitive in the cube root of the frequency, improper integral, integral of the cubed sine; powers of two bounded by twelfth powers |
| C102 | flat neutrino emissivities | constant on the band |
| C103 | `get_fluid_zone` (velocity, field, temperature cut), `get_fluid_nu`, `get_bk_angle` | 3+1 split, Cauchy-Schwarz on vectors orthogonal to the velocity |
| C104 | `scatterer_number_density`, `scatterer_dimensionless_temp` | arithmetic; measured masses for the refutation |
| C105 | `set_Rmunu` on packets after interpolation, any distribution over threads | permutations, sums over zones, convexity of the causal cone |
| C106 | the lepton bookkeeping of emission, absorption, scattering, losses, `apply_rad_force`, `count_leptons`; the emission is that of C61 | invariant over event sequences; refuted by the extra factor u^t |
| C107 | `set_units`, the optical depths of `interact` | algebra on the 3+1 split |
| C108 | `get_dnz` with an exact quadrature, rounding, which zones have fresh microphysics | substitution in integrals (Coquelicot); cases over options; refuted for zones leaving the atmosphere |
| C109 | `EOS_SC_fill` over `find_root`, `fill_max_min_2d`, the `catch_*` functions and unit conversions | piecewise linear functions with bounded slopes; the result of the root finder (C25); refuted between electron fractions |
| C110 | `EOS_SC_get_minu`, `EOS_SC_rho_floor`, `EOS_SC_u_floor`, the cold floor, `EOS_SC_gamma`, the sound speed table | monotone exponentials; refuted for the cold floor and the index (units) |
| C111 | enthalpy tables with their shifts, `catch_w`, `catch_press`, `EOS_SC_pressure_rho0_w`, `EOS_SC_u_press`, over exact reals with the search of the root finder | inversion at the points of the table by the bounds of C109; refuted between two temperatures (log of a sum) and, for `EOS_SC_u_press`, between two electron fractions (no monotone catch after the bounds of C82; the secant leaves the table) |
| C112 | `sync_Jrad`, `sync_radtype_vec`: the reduction of C11 followed by the six clearing loops, one component, iterated over the steps since a dump | additivity of the sum over depositors, invariant `ghosts are zero`, induction over the steps |
| C113 | `bound_rad_isactive`, `rad_error_check`, the decision of `bound_superphotons` for one packet, and its iteration over steps with births; real arithmetic, any coordinate map | a verdict invariant carried through the seven edge tests; induction over packets and steps; three witnesses where the statement fails (order of camera and error test, u_t > 0 in Kerr-Schild at a = 4/5, r = 9/5, cut at the axis) |
| C114 | Tabulated neutrino opacities (`OpacModel.v`): the element-access macros, the five loops of `init_opac_emis_hdf` that put a table on the groups of the run (with stores to a buffer that starts uninitialised), `rho2lrho`, `T2lT`, `catch_ye`, `interp_3d_to_1d`, `fill_opac_emis_hdf`, `jnu_hdf`, `alpha_nu_hdf`, `int_jnudnudOmega_hdf` (the last three also serve `opac_emis_neutrino.c`). HDF5 reading, overflow of int indices and rounding are left out | Loop invariant over the five loops with injectivity and surjectivity of the slot; cells through the table lemmas of C47/C48; trilinear blend as nested linear interpolation; trapezoidal rule with the excess at the ends; refuted at the coinciding highest frequency and for the total |
| C115 | Cooling times (`CoolModel.v`): `get_dt_cool_rad_zone`, `set_cooling_time`, `get_min_dt_cool` with the minimum over processes, the test of `get_dnz` for zones that make photons, the radiation part of the step in `step.c` on top of `TimeModel.step_time`, `get_dt_oscillations`. The emissivity of a zone is given as an extended real; ESTIMATE_THETAE and rounding are left out | Induction over zones and processes with extended reals; refuted for steps below SMALL and for the atmosphere in the dumps |
| C116 | Histograms of origins (`RzModel.v`): `generate_rz_histograms`, `reset_dump_variables` for its arrays, the widths of `init_params`, the call in `dump` and the reset after it, `coord` at CENT, both forms of `cart_coord`. The choice of bin takes the rounding functions as arguments; positions and sums of weights are exact; `made_on` is a field of the specification only | Induction over packets and processes; bins by truncation of quotients; double and single precision with Flocq for the refutation at the edge |
| C117 | Flux diagnostics (`DiagModel.v`): `diag_flux`, and of `diag` the totals of mass and energy, the greatest divergence, Phi, phi, the search for `stopi_rad`, the luminosity and the efficiency, over a Cartesian decomposition of any size. Fields are functions of the global zone; the jet flux (C129), the EHT luminosity (C131) and the printing are left out; sums are exact | Splitting of sums into blocks, exchange and telescoping of sums; refuted by instances |
| C118 | Adiabats (`AdiaModel.v`): `catch_s`, `catch_lrho`, `ent_f_adiabat`, `find_adiabat_0d`, `adiabat_lrho_min_max`, `EOS_SC_find_adiabat_1d` on top of the root finder and interpolation already modelled; `EOS_SC_get_polytrope` with its table; `u_shift` (OFFSET_U); `compare_doubles`/`qsort` as a sorted list, `find_median`, `fill_mdn_buffer`, `median_filter` on arrays with bounds checked. Exact reals. `EOS_SC_isoentropy_hm1` and printing are not modelled; after a failed search at a node the unused enthalpy is left out. | Indices of the ends of the interval from the specification of `find_index`; induction over the nodes; fuel by `C25_terminates`; what a root is by the growth of the table (C109). The filter by an invariant over the three loops: which entries are done. Median by sorting and counting. Refutations on a 3 by 2 by 2 table of entropy 3 + T - rho: highest entropy reads index -1, lowest gives no node. |
| C119 | reconstruct_lr_ppm and para of reconstruction.c with their array reads (code the dispatcher refuses to run), over exact reals; para's divisions over extended reals | the limited second differences characterised by sign (PpmProofs), interface values of monotone data between their neighbours, the parabola's derivative as a convex combination of its end values; decreasing data by negation; refutations by computation on uniform data and on x^2 |
| C120 | EOS_SC_isoentropy_hm1, lT_f_adiabat, EOS_SC_hm1_min_adiabat and interp_1d as they call it, over exact reals; entries of lT outside imin..imax are undefined; find_root as modelled for C25 | the index computed from the too-wide spacing is bounded by hand for every abscissa; the search by C25's completeness; refutations on a three-node line over a 4x2x2 table, where every value of the function is computed |
| C121 | opac_emis and opac_emis_to_hdf storing into arrays of known size (a store outside or an int overflow is None), the axes, lnugroup, and what init_opac_emis_hdf gets from the file; the Fortran routine is an arbitrary function of density, fraction, temperature and entry; HDF5 left out | loop invariants over the five nested loops with C114's slot injectivity; reading back by composing with C114's regrid theorem |
| C122 | `fixup_passive`, `init_passives`, the three hooks, the kinds set in init_core, and the scalars' part of `fixup1zone` (primtoflux, Utoprim, cold floors); what the floors do to the basic variables is an input | induction over the loop of scalars; two refutations with a concrete zone |
| C123 | primtoflux for RHO and scalars, `lr_to_flux` (FluxModel) at the six faces, update of a zone, recovery of the scalar; edge values and characteristic speeds are inputs | each face's flux is written as a non-negative part times the value before it plus a non-positive part times the value behind it; the new value is then a weighted mean |
| C124 | `timing.c` and the order in which the main loop starts, stops and resets timers; clock readings are arbitrary reals; barriers not modelled | induction over the steps of a run and the jobs of a step; refutations with two-step runs |
| C125 | print_rad_types on all ranks, counters as an array with bounds, quotients in extended reals; atomic additions in the order of a list | sums over lists against filters by type; permutation invariance; witness with tracers only |
| C126 | track_ph: counting, filling a buffer of that size (None past its end), directory of files and the static number; rows made by an oracle; HDF5 otherwise not modelled | induction on lists and on the sequence of logs; witness of two runs in one directory |
| C127 | init_superphoton_resolution, with update_resolution of C63 after it; the restart header as a copy of the first process's counters to all; overflow of the counters not modelled | induction on histories; the first two adjustments computed for every interval and wanted number; witnesses of ignored parameters and of a continued run |
| C128 | each DataItem of xdmf_output.c as a record (file, dataset, size, slab), the datasets of grid.h5 and of a dump as a list of names and sizes, bl_i_of_r over exact reals; XML text and precision not modelled | case analysis on the lists for every configuration; truncation of logarithms; witnesses for the vectors, Jrad and a radius beyond the grid |
| C129 | Electromagnetic flux of the jet (`JetModel.v`): of `diag` the lines 162-176 and 193, with `primtoflux` and `mhd_calc` for direction 1 and magnetic = 1. `get_state` is that of `FloorModel.v`. The metric of the model is arbitrary; the theorems on a zone are for Minkowski's metric, where the fields have their textbook meaning. | `JetSpec.v` defines the electric field of a conductor, Poynting's vector and Maxwell's stress without the model. The identities are polynomial after clearing the Lorentz factor, with its square eliminated (`JetProofs.v`). The sum follows the proof for Phi in C117. Refuted: the code takes component U1 instead of UU. |
| C130 | Estimate of the electron temperature (`EstModel.v`): `dEdt` and `estimate_Thetae` of estimate_thetae.c, with the two passes that count the packets of each zone and fill its arrays (one thread; the threads have arrays of their own). Emission, absorption and scattering coefficients are arguments, gsl's root finder too. Line 73 passes an undeclared variable to `get_J`; `micro` is taken to be meant | Signs of sums and of `1 - exp(-x)`; the amplification of line 100 exceeds one at every positive temperature. `EstSpec.v` has the energies in erg, without the code's units. Lists by induction with the filled part and the room left as invariant. Refuted by instances with explicit roots |
| C131 | Luminosity proxy (`EhtModel.v`): lines 152-161 and 194 of `diag`, over extended reals with the rules of C for `pow`, `exp` and division by zero; pressure and b.b are arguments, the zones of all processes one list | The cube root is characterised by its cube, not by `Rpower`; sums by induction. Refuted by a zone of zero pressure |
| C132 | Command line and start from a file (`CmdModel.v`): the loop over `argv` in `main`, with an unset and an overrun array as outcomes, and `init_fluid_restart` over the slabs of `SlabModel.v`; a file is a list of named datasets | Induction on the words before and after; the transfer from the lemmas of C79 for two decompositions. Refuted by instances |
| C133 | `RngModel.v`: the seeds of the random number generators (random.c:14-23, main.c:282) and their draws over restarts (main.c:111-114); gsl itself is not in the repository, so its treatment of the seed (modulo 2^32, 0 replaced by 4357) is taken for granted | linear arithmetic over all ranks and threads; refuted for thread 157 of process 14 against the first thread, for more than 300 threads, and for a restarted run |
| C134 | `LoadModel.v`: load imbalance (main.c:180-184) over extended reals, with the roundings to float and double as arguments; counts are taken not to be negative | greatest and least of a list by induction; monotonicity of the roundings, nothing else of them. Refuted where there are no packets, and by two numbers with the same float (Flocq) |

## Not modelled

* Rounding of `double` except where stated.  Compilation options are fixed per
  area and named in the file headers.
* HDF5, MPI and GSL internals; random numbers are arbitrary inputs (C133 has their seeds).
* The readers of equation-of-state and opacity tables, and opacity models
  (`opac_emis_*.c`), apart from the lookups named above.
* Problem set-ups (`prob/`), Python scripts, and the build scripts.
* In `scattering.c`: the checks at the end of `scatter_superphoton`.
* Of `init_final`, `dump_grid` and the writing of `jcon`: nothing.

## Mutation log

`seeded/LOG.jsonl` has one line per wrong program tried.  `theorems_failed`
lists the theorems whose proofs no longer go through.  That can include, beside
the theorem whose claim the edit breaks, others that share a lemma with it and
whose statements may still be true.  Edits found to be equivalent to the
original are removed from the log even when a proof script broke on them.

## Assumptions of each theorem

What `Print Assumptions` lists for each theorem of `MANIFEST.json` (703 theorems).
All axioms named here are those of Coq's standard library.

### Closed under the global context (107)

`C01_list_remove`, `C02_swap_ph`, `C02_drain`, `C03_push_pass`, `C04_bound_pass`,
`C05_conserved`, `C05_ownership_partial`, `C05_counters`, `C05_ownership_refuted`,
`C06_distribute`, `C07_partition_partial`, `C07_uneven_refuted`, `C08_zone_regions`,
`C08_face_regions`, `C08_write_read`, `C10_ghosts`, `C10_narrow_refuted`,
`C11_reduction`, `C11_total`, `C11_thin_refuted`, `C112_history`, `C112_total`,
`C112_again`, `C112_force_refuted`, `C12_face_partial`, `C12_mirror`, `C12_polar_twice`,
`C12_primitives`, `C12_source_in_range`, `C12_x3r_outflow_refuted`, `C126_rows`,
`C128_right`, `C128_vectors`, `C128_vectors_refuted`, `C128_Jrad_refuted`, `C128_cells`,
`C128_complete`, `C13_offsets`, `C130_lists`, `C130_ghost`, `C132_path`, `C132_last`,
`C132_unset`, `C132_unset_refuted`, `C132_long_refuted`, `C132_fluid`,
`C132_fluid_complete`, `C132_own_file`, `C132_own_file_refuted`, `C133_distinct`,
`C133_few_threads`, `C133_defined`, `C133_default_seed_refuted`, `C133_many_threads`,
`C133_many_threads_refuted`, `C133_restart`, `C133_one_part`, `C133_restart_refuted`,
`C133_kept`, `C14_terminates`, `C14_sources`, `C14_complete`, `C14_hopeless`,
`C14_leftover`, `C14_poisoned_refuted`, `C22_zone`, `C26_first`, `C26_unknown`,
`C26_registered`, `C26_exact_refuted`, `C27_all_set_partial`, `C27_all_set_refuted`,
`C27_complete_file`, `C27_layout`, `C44_involution`, `C49_between_writes_partial`,
`C49_previous_kept`, `C49_usable_refuted`, `C50_two_newest`, `C50_one_each`,
`C50_at_most_three_partial`, `C50_permanent`, `C50_at_most_three_refuted`,
`C51_restored_partial`, `C51_flags_refuted`, `C53_exact_partial`, `C53_counters`,
`C53_exact_refuted`, `C54_columns_partial`, `C54_xyz`, `C56_one_thread_partial`,
`C56_race_any`, `C56_stale`, `C59_parity`, `C59_exchange`, `C59_identity`, `C59_range`,
`C69_prune`, `C77_balanced`, `C78_read_written`, `C78_written_read`, `C78_no_clash`,
`C79_round_trip`, `C79_in_bounds`, `C79_disjoint`, `C79_covered_partial`,
`C79_covered_refuted`.

### `ClassicalDedekindReals.sig_forall_dec` (7)

`C130_outside_refuted`, `C52_lost`, `C54_single_refuted`, `C55_cleared_partial`,
`C55_in_bounds`, `C55_radG_kept`, `C55_radG_zones`.

### `ClassicalDedekindReals.sig_forall_dec`, `FunctionalExtensionality.functional_extensionality_dep` (308)

`C09_centre`, `C09_position`, `C09_below_refuted`, `C09_places`, `C104_nucleons`,
`C104_half`, `C104_nuclei_refuted`, `C104_same_mass`, `C104_stops`, `C105_order`,
`C105_numbers`, `C105_momentum`, `C105_tensor`, `C106_drift`, `C106_calm`,
`C106_refuted`, `C106_round_refuted`, `C108_rounding`, `C108_fresh`,
`C108_fresh_refuted`, `C108_fallback_refuted`, `C109_grows`, `C110_sound`, `C115_zone`,
`C115_least`, `C115_step`, `C115_step_refuted`, `C115_output_partial`,
`C115_output_refuted`, `C115_oscillations`, `C116_bins_partial`, `C116_total`,
`C117_rates`, `C117_totals`, `C117_balance`, `C117_divb`, `C117_flux_partial`,
`C117_flux_refuted`, `C117_luminosity_partial`, `C117_luminosity_processes`,
`C117_luminosity_refuted`, `C117_face_refuted`, `C117_efficiency_partial`,
`C117_efficiency_refuted`, `C118_terminates`, `C118_adiabat_partial`, `C118_interval`,
`C118_found`, `C118_outside`, `C118_outside_refuted`, `C118_highest`,
`C118_empty_refuted`, `C118_filter`, `C118_filter_bounds`, `C118_filter_spike`,
`C119_interface`, `C119_monotone`, `C119_limits`, `C119_parabola`, `C119_negation`,
`C119_inside`, `C119_outside`, `C119_inside_refuted`, `C119_para_inside`,
`C119_para_monotone`, `C119_para_uniform`, `C119_para_monotone_refuted`,
`C119_para_parabola_refuted`, `C120_reads`, `C120_single_refuted`, `C120_error`,
`C120_node_refuted`, `C121_axes`, `C121_ends`, `C122_round`, `C122_numbers`,
`C122_intrinsic`, `C122_basics`, `C122_cold`, `C122_diluted`, `C122_cold_refuted`,
`C122_leptons_refuted`, `C123_uniform`, `C123_between`, `C123_linear`,
`C123_courant_refuted`, `C124_restarted`, `C124_started`, `C124_too_low`,
`C124_mean_refuted`, `C124_first_report`, `C124_first_row`, `C124_log_row`,
`C124_share`, `C124_share_refuted`, `C124_nested`, `C124_nested_refuted`, `C125_share`,
`C125_percent`, `C125_placement`, `C125_index`, `C125_empty`, `C125_percent_refuted`,
`C126_files`, `C126_off`, `C126_restart`, `C126_restart_refuted`, `C127_first`,
`C127_never`, `C127_parameters_refuted`, `C127_first_adjustment`, `C127_rate_refuted`,
`C127_continued`, `C127_continued_refuted`, `C127_scattering`, `C129_sum`,
`C129_sum_refuted`, `C134_range`, `C134_balanced`, `C134_idle`, `C134_exact`,
`C134_empty`, `C134_range_refuted`, `C16_step`, `C16_result`, `C16_consulted`,
`C18_success`, `C18_failure`, `C18_time`, `C18_pushers`, `C18_last_refuted`,
`C19_conserved`, `C19_mks`, `C19_straight`, `C20_absorb`, `C20_scatter`, `C20_nothing`,
`C20_one_process_partial`, `C20_interacts_refuted`, `C21_conserved`, `C21_nonnegative`,
`C21_removed`, `C21_passed`, `C21_failed`, `C21_failed_refuted`, `C22_absorb`,
`C22_conserved`, `C22_push_failed`, `C22_push_failed_refuted`, `C23_at_least_one`,
`C23_bounded_partial`, `C23_bounded_refuted`, `C23_rebalanced`, `C23_single`,
`C24_times_partial`, `C24_untouched`, `C24_birth`, `C24_cap_refuted`, `C25_terminates`,
`C25_result`, `C25_complete`, `C25_complete_refuted`, `C25_in_range_refuted`,
`C25_tolerance_refuted`, `C28_never_past`, `C28_reaches`, `C28_growth`,
`C28_growth_refuted`, `C28_never_past_refuted`, `C28_reaches_refuted`, `C29_numbered`,
`C29_increasing`, `C29_on_time`, `C30_rank`, `C30_unique_partial`, `C30_even_partial`,
`C30_refuted`, `C30_full_refuted`, `C31_count`, `C31_exists`, `C31_terminates`,
`C31_even`, `C31_no_cells`, `C31_overflow_refuted`, `C32_node`, `C32_partition`,
`C32_exact`, `C32_grid`, `C32_inside`, `C32_outer`, `C33_divergence`, `C33_diagnostic`,
`C33_conserved`, `C33_consistent`, `C34_totals`, `C34_periodic`, `C34_ct_keeps`,
`C35_consistent`, `C35_degenerate`, `C35_reflect`, `C35_dissipation`,
`C35_dissipation_least`, `C35_upwind`, `C36_linear`, `C36_linear_mc`, `C37_convex`,
`C37_between`, `C37_candidates`, `C37_quadratic`, `C37_smooth`, `C37_weights_order`,
`C37_mirror`, `C38_limited`, `C38_bounds`, `C38_neighbours`, `C38_upstream`,
`C38_relaxed`, `C38_limit`, `C38_linear`, `C38_inactive`, `C38_high_order`,
`C38_constant`, `C38_mirror`, `C38_average_is_integral`, `C40_field`, `C41_symmetric`,
`C41_compatible`, `C45_basis`, `C47_inside_partial`, `C47_end_outside`, `C47_rounding`,
`C47_adiabat_refuted`, `C47_find`, `C48_stencil_partial`, `C48_defined_partial`,
`C48_edge_refuted`, `C48_edge_index`, `C48_nan_outside`, `C52_continue_refuted`,
`C54_xyz_refuted`, `C54_bcov_refuted`, `C55_light_refuted`, `C56_race_refuted`,
`C57_pressure_w`, `C57_inverse`, `C57_temperature`, `C57_enthalpy`, `C60_positive`,
`C60_accept`, `C60_multiscatt`, `C60_klein_nishina`, `C60_klein_nishina_tight`,
`C60_target_neutrino`, `C60_couplings`, `C60_ions`, `C61_number`, `C63_emission`,
`C63_emission_target`, `C63_scattering`, `C63_scattering_target`, `C63_idle_scattering`,
`C63_idle_emission`, `C63_idle_emission_refuted`, `C63_history`, `C63_when`,
`C63_drift_refuted`, `C63_negative`, `C63_when_scattering`, `C63_counters`, `C66_total`,
`C66_root`, `C70_courant`, `C71_code_coordinates`, `C76_linear`, `C76_gives_up`,
`C80_time`, `C80_exits`, `C80_complete`, `C80_conserved`, `C80_newborn`,
`C80_on_path_refuted`, `C81_bin`, `C81_nan_outside`, `C81_cosine_bin`, `C81_centre`,
`C82_exact`, `C82_bounded`, `C82_minmax`, `C82_two_partial`, `C82_two_refuted`,
`C82_catch_refuted`, `C82_catch`, `C83_gamma`, `C83_clamp`, `C84_truncate`,
`C84_inside`, `C87_not_early`, `C87_logs`, `C87_permanent`, `C87_temporary`,
`C87_recent`, `C88_cell`, `C88_total`, `C88_place`, `C88_threads`, `C88_report`,
`C88_report_sampled`, `C89_raised`.

### `ClassicalDedekindReals.sig_forall_dec`, `ClassicalDedekindReals.sig_not_dec`, `FunctionalExtensionality.functional_extensionality_dep` (126)

`C102_total`, `C102_kinds`, `C102_band`, `C103_velocity`, `C103_unit`, `C103_field`,
`C103_frequency`, `C103_cut`, `C107_absorption`, `C107_scattering`, `C107_units`,
`C113_active`, `C113_stop`, `C113_supported`, `C113_packet`, `C113_once`,
`C113_camera_refuted`, `C113_tracer_refuted`, `C113_axis_refuted`,
`C116_histograms_partial`, `C116_dumps`, `C116_moved_refuted`, `C116_tracer_refuted`,
`C116_negative_refuted`, `C116_coordinates`, `C117_phi_partial`, `C117_phi_inflow`,
`C117_phi_refuted`, `C129_energy`, `C129_zone`, `C129_blind`, `C129_jet_refuted`,
`C15_codes`, `C15_field`, `C15_untouched`, `C15_negative`, `C15_positive`,
`C15_nan_accepted`, `C15_success_refuted`, `C16_start`, `C17_residual`, `C17_recovered`,
`C17_fixed_point_partial`, `C17_exact_refuted`, `C25_continuous`, `C39_inverse`,
`C39_raise_lower`, `C39_boyer_lindquist`, `C39_boyer_lindquist_det`, `C40_velocity`,
`C40_lapse`, `C42_orthonormal`, `C42_roundtrip`, `C42_time_leg`, `C42_defined`,
`C42_defined_refuted`, `C43_null`, `C43_null_cov`, `C43_ergoregion_refuted`, `C44_step`,
`C44_totals`, `C45_range`, `C45_value`, `C46_sum`, `C46_bin`, `C46_alone`, `C46_equal`,
`C46_first_partial`, `C46_current_refuted`, `C46_dump_refuted`, `C57_sound_bounds`,
`C57_sound_is_derivative`, `C60_neutrino_partial`, `C60_neutrino_outside`,
`C60_flat_refuted`, `C60_energy`, `C65_ends_partial`, `C65_spacetime`, `C65_recursion`,
`C65_refuted`, `C67_cap`, `C67_gamma_defined`, `C68_no_inflow_partial`,
`C68_inner_partial`, `C68_outer_refuted`, `C68_inner_refuted`, `C71_kerr_schild`,
`C71_determinant`, `C71_volume`, `C72_ut_constant`, `C72_normalised_refuted`,
`C73_roundtrip`, `C73_roundtrip_four`, `C74_reproduced_refuted`,
`C75_table_composition`, `C81_cosine_partial`, `C81_cosine_refuted`, `C83_particle`,
`C83_boost`, `C83_rest`, `C83_scattered`, `C83_angle`, `C83_frame_refuted`,
`C91_at_rest`, `C91_drift`, `C91_parallel`, `C91_stored`, `C91_along`, `C92_speeds`,
`C92_light`, `C93_bound`, `C93_attained`, `C93_zone`, `C93_step`, `C93_fluid`,
`C94_inverse`, `C94_inverse_spherical`, `C94_inverse_cartesian`, `C95_poles`,
`C95_odd_refuted`, `C96_horizon`, `C99_tensor`, `C99_charge_partial`,
`C99_ampere_partial`, `C99_sign_refuted`, `C99_neutral`.

### `ClassicalDedekindReals.sig_forall_dec`, `ClassicalDedekindReals.sig_not_dec`, `Classical_Prop.classic`, `FunctionalExtensionality.functional_extensionality_dep` (155)

`C100_planck`, `C100_kirchhoff`, `C100_gray`, `C100_gray_refuted`, `C100_brem`,
`C100_brem_spectrum`, `C101_power`, `C101_total_refuted`, `C101_sphere`, `C101_bessel`,
`C101_bessel_node`, `C101_average`, `C101_end_refuted`, `C103_angle`, `C106_emission`,
`C108_energy`, `C109_total`, `C109_inverse`, `C109_inverse_refuted`, `C109_cold`,
`C109_hot`, `C110_least`, `C110_floor`, `C110_cold_refuted`, `C110_index`,
`C110_index_stuck`, `C110_index_refuted`, `C111_shift`, `C111_total`, `C111_pressure`,
`C111_pressure_refuted`, `C111_energy_total`, `C111_energy`, `C111_energy_refuted`,
`C111_cold`, `C111_hot`, `C111_energy_cold`, `C111_energy_hot`, `C114_groups`,
`C114_groups_outside`, `C114_fill`, `C114_exact`, `C114_frequency`, `C114_group`,
`C114_frequency_outside`, `C114_bounded`, `C114_total`, `C114_total_refuted`,
`C116_edge`, `C116_edge_refuted`, `C118_polytrope`, `C118_polytrope_gas`, `C118_shift`,
`C120_found`, `C120_enthalpy_refuted`, `C120_units`, `C120_floor`, `C121_written`,
`C121_fourth_refuted`, `C121_overflow_refuted`, `C121_reread`, `C121_reread_refuted`,
`C128_shells`, `C128_shells_refuted`, `C130_emission`, `C130_absorbing`,
`C130_scattering`, `C130_absorption_refuted`, `C130_upscattering_refuted`, `C130_size`,
`C130_range`, `C131_formula`, `C131_no_field`, `C131_sum`, `C131_finite`, `C131_cold`,
`C131_cold_refuted`, `C131_field`, `C134_balanced_refuted`, `C47_clamp_lost`,
`C47_above_refuted`, `C57_entropy`, `C57_poly_refuted`, `C57_entropy_is`, `C57_poly`,
`C58_bounds`, `C58_keeps`, `C58_nan`, `C58_ceiling`, `C58_gamp_refuted`,
`C60_target_light`, `C61_pair`, `C61_ergosphere_refuted`, `C61_conserved`, `C61_killed`,
`C62_refuted`, `C62_lag`, `C62_draws`, `C64_record_partial`, `C64_above`,
`C64_pole_refuted`, `C64_azimuth_refuted`, `C64_wrap_refuted`, `C64_low_refuted`,
`C64_direction_partial`, `C64_direction_refuted`, `C84_lookup`, `C84_exact`,
`C85_total`, `C85_accuracy`, `C85_abort_unreachable`, `C86_sampling`, `C86_node`,
`C86_inside`, `C86_dark_refuted`, `C86_angle`, `C86_weight`, `C89_force`,
`C89_second_order`, `C90_init`, `C90_fraction`, `C90_heat_partial`, `C90_heat_general`,
`C90_heat_refuted`, `C90_coulomb_sign`, `C90_coulomb_amount`, `C90_temperatures`,
`C90_equilibrium_refuted`, `C90_radiation_partial`, `C90_coulomb_rate`, `C91_gamma`,
`C91_flag`, `C91_untouched`, `C91_raised`, `C91_limits_partial`, `C91_limits_refuted`,
`C91_velocity_refuted`, `C91_scale`, `C94_jacobian`, `C94_cartesian`, `C95_increasing`,
`C95_range`, `C95_metric`, `C95_ghost_refuted`, `C96_isco`, `C96_retrograde`,
`C96_edge`, `C96_edge_refuted`, `C97_spherical`, `C98_light`, `C98_thomson`,
`C98_cold_refuted`, `C98_neutrino`, `C98_lookup_light`, `C98_lookup_neutrino`.
