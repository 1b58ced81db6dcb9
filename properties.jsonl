{"id": "C01", "title": "Removing a packet from a thread's packet list removes exactly that packet", "statement": "Deleting the packet under the cursor of a linked packet list frees exactly that packet, keeps every other packet with unchanged contents and order, leaves the cursor on the packet that followed, and never dereferences a freed or null pointer.", "quantifier": "every heap, every well-formed list, every cursor position (head, middle, last)", "why_tests_cant": "pointer surgery has to be right for every list length and position; a test sees a few shapes and a dangling pointer usually still 'works'", "anchors": ["core/rad_utils.c:list_remove"]}
{"id": "C02", "title": "Moving the head of one packet list to another neither loses nor duplicates packets", "statement": "Transferring the head packet of a source list to a destination list leaves the remaining source list and puts that very packet in front of the old destination list; draining a whole list this way delivers every packet exactly once, in reverse order.", "quantifier": "every pair of disjoint lists in every heap", "why_tests_cant": "loss or duplication of one packet among 10^7 is invisible in a physics test", "anchors": ["core/rad_utils.c:swap_ph", "core/bounds.c:bound_superphotons"]}
{"id": "C03", "title": "The packet-push pass keeps survivors, drops failures and keeps the counters honest", "statement": "After pushing all packets of all threads, each thread's list contains exactly the packets whose push succeeded (or that did not need a push), in the original order; the lost counter grows by the number removed, the packet total by the number that survive, and removed packets are freed.", "quantifier": "every list and every pattern of per-packet push outcomes", "why_tests_cant": "outcome patterns are exponential in the list length", "anchors": ["core/push_superphotons.c:push_superphotons", "core/rad_utils.c:list_remove"]}
{"id": "C04", "title": "Boundary pass: each packet is kept, lost or handed over, and the counters say so", "statement": "After the local part of the boundary pass every packet of every thread list is in exactly one of three places: still in its list, counted as lost, or in the hand-over list; the lost counter grows by the number lost, the total shrinks by the number lost, and the tracer total shrinks by the number of lost tracers.", "quantifier": "every set of thread lists and every classification of packets", "why_tests_cant": "needs all interleavings of keep/lose/hand-over along a list", "anchors": ["core/bounds.c:bound_superphotons", "core/bounds.c:rad_mpi_transport"]}
{"id": "C05", "title": "Inter-process packet exchange conserves packets and puts each on the owner of its position", "statement": "The packet exchange neither loses nor duplicates packets over all processes, and after it every exchanged packet is held by the process whose sub-domain contains its (wrapped) position.", "quantifier": "every process grid, every packet position within one sub-domain of its sender, every boundary wrap", "why_tests_cant": "failures need a packet crossing three sub-domain faces at once on a grid of at least three processes around the periodic direction; no test reaches it", "anchors": ["core/mpi.c:sync_mpi_photons", "core/bounds.c:bound_rad_transport", "core/bounds.c:rad_mpi_transport"]}
{"id": "C06", "title": "Received packets are distributed over threads without loss", "statement": "Handing out a list of packets to the OpenMP threads delivers each packet to exactly one thread whatever the random starting thread, and no thread receives more than ceil(n/nthreads).", "quantifier": "every number of packets, every number of threads, every starting thread", "why_tests_cant": "depends on arithmetic of ceilings and modulus for all sizes", "anchors": ["core/mpi.c:sync_mpi_photons"]}
{"id": "C07", "title": "Every zone of the global grid is owned by exactly one process", "statement": "For every accepted configuration the index ranges owned by the processes partition the global index range and each has the compiled local size.", "quantifier": "every global size and process count per direction", "why_tests_cant": "the failing configurations (sizes not divisible by process counts) are accepted silently and simply not tested", "anchors": ["core/mpi.c:init_mpi", "core/decs.h:N1", "core/io.c:init_io"]}
{"id": "C08", "title": "Parallel output writes every file element exactly once", "statement": "The regions of the output file written by the different processes are disjoint and cover the array, for zone-centred arrays and for the corner/face array of the grid file, so that reading the file back gives each process its own block.", "quantifier": "every process grid", "why_tests_cant": "overlap/holes depend on all process coordinates; only multi-node runs exercise it", "anchors": ["core/io.c:init_io", "core/io.c:dump_grid", "core/io.c:write_array"]}
{"id": "C09", "title": "Locating the zone of a zone centre gives the zone back", "statement": "For every zone index the zone found for the coordinates of its centre is that zone, and every position inside a zone is attributed to it.", "quantifier": "every index, every origin and spacing, every process offset", "why_tests_cant": "real-valued positions", "anchors": ["core/coord.c:coord", "core/rad_utils.c:Xtoijk"]}
{"id": "C10", "title": "Ghost-zone exchange reproduces the global periodic field, corners included", "statement": "After the six directional exchanges in the order performed, every ghost zone (faces, edges and corners) of every process holds the value of the corresponding zone of the global periodic field.", "quantifier": "every process grid, every local block size not smaller than the ghost width, every field", "why_tests_cant": "edges/corners depend on ordering of exchanges; a wrong corner only shows up as a tiny asymmetry", "anchors": ["core/mpi.c:sync_mpi_boundaries_X1L", "core/mpi.c:sync_mpi_boundaries_X3R", "core/bounds.c:bound_prim"]}
{"id": "C11", "title": "Source terms deposited in ghost zones reach their owner exactly once", "statement": "After the reduction, the interior value on each process equals the sum over all processes of what was deposited for that zone (directly or in a ghost zone), so the global total over interior zones equals the global total deposited.", "quantifier": "every process grid (with at least 2 zones per block) and every deposit field, corners included", "why_tests_cant": "double counting of edge and corner deposits requires a rigorous accounting over the three sweeps", "anchors": ["core/mpi.c:sync_radG", "core/mpi.c:reduce_radG_buf"]}
{"id": "C12", "title": "Physical boundary conditions read the intended active zone", "statement": "Outflow ghost zones copy the nearest active zone and polar ghost zones copy the mirror zone with the normal vector components negated (so that reflecting twice is the identity); all indices stay inside the array.", "quantifier": "every block size and every ghost index of every face", "why_tests_cant": "a wrong source index on one face only matters for that boundary type", "anchors": ["core/bounds.c:bound_prim"]}
{"id": "C13", "title": "Process offsets from the prefix sum tile the packet file", "statement": "The per-process offsets computed for the packet output make the processes' regions consecutive, disjoint and covering, for any packet counts including zero.", "quantifier": "every number of processes and every tuple of counts", "why_tests_cant": "counts are arbitrary", "anchors": ["core/mpi.c:mpi_accumulate_int", "core/io.c:restart_write"]}
{"id": "C14", "title": "Bad-zone repair always terminates and repairs from good neighbours only", "statement": "The zone repair loop terminates for every pattern of bad zones; every zone reachable through neighbours from a good zone ends up repaired, and a repaired value is a convex combination of values of zones that were good or already repaired.", "quantifier": "every grid size and every failure pattern", "why_tests_cant": "patterns are exponential in the number of zones", "anchors": ["core/fixup.c:fixup_utoprim"]}
{"id": "C15", "title": "Conserved-to-primitive inversion: return codes and what they promise", "statement": "Return 0 implies positive density, non-negative internal energy; every failure code other than the sound speed one leaves all primitives except the magnetic field untouched; the magnetic field is always the conserved one divided by the metric determinant; negative conserved density always yields the documented error.", "quantifier": "every conserved vector, geometry, and primitive guess", "why_tests_cant": "real-valued inputs", "anchors": ["core/utop.c:Utoprim"]}
{"id": "C16", "title": "Conserved-to-primitive inversion: the iterate stays positive", "statement": "Starting from a positive guess the inversion's unknown stays strictly positive and within a factor [1/2,3] of the previous iterate, whatever the error function returns.", "quantifier": "every starting value and every error-function behaviour, every number of iterations", "why_tests_cant": "needs to hold for all error functions", "anchors": ["core/utop.c:Utoprim"]}
{"id": "C17", "title": "Exact primitives are a fixed point of the inversion", "statement": "If conserved variables were built from primitives with positive density, non-negative energy and subluminal velocity, then the true value of the unknown solves the inversion's error equation, and the primitives recovered at that value are the original ones.", "quantifier": "every primitive state, every metric given by lapse, shift and spatial metric", "why_tests_cant": "identity over a continuum of states", "anchors": ["core/utop.c:Utoprim", "core/utop.c:err_eqn", "core/utop.c:gamma_func", "core/phys.c:primtoflux", "core/phys.c:mhd_calc", "core/phys.c:bcon_calc", "core/phys.c:ucon_calc"]}
{"id": "C18", "title": "Packet pusher: success means advanced by the full step and still null", "statement": "A successful push advances the packet by exactly the requested coordinate time using 2^n equal substeps and leaves a wave vector that is null within tolerance; failure is reported only if no attempt passed the check.", "quantifier": "every outcome sequence of the nullness check", "why_tests_cant": "the last-attempt branch is only taken for rare orbits", "anchors": ["core/push_superphotons.c:push_X_K", "core/push_superphotons.c:push"]}
{"id": "C19", "title": "Packet pusher keeps the conserved momenta of the metric's symmetries exactly", "statement": "The covariant time component of the wave vector is unchanged by any number of pushes (and the azimuthal one in the axisymmetric metric).", "quantifier": "every trajectory, every step size and number of steps", "why_tests_cant": "drift tests sample a few orbits", "anchors": ["core/push_superphotons.c:push"]}
{"id": "C20", "title": "Interaction choice follows the sampled optical depths", "statement": "A packet interacts within a step iff its optical depth exceeds one of the sampled depths, the process chosen is the one reached first, and at most one interaction is performed at that point.", "quantifier": "every set of optical depths and random numbers", "why_tests_cant": "continuous random inputs", "anchors": ["core/interact.c:interact"]}
{"id": "C21", "title": "Biased scattering conserves packet weight", "statement": "When a biased scattering succeeds the weights of the scattered and the remaining packet add up to the original weight and both are non-negative; total weight is never changed by a failed scattering.", "quantifier": "every weight, every bias at least one, every success/failure outcome", "why_tests_cant": "failure branches are rare events", "anchors": ["core/interact.c:interact"]}
{"id": "C22", "title": "Absorption exchanges exactly the packet's momentum with the fluid", "statement": "Absorbing a packet adds weight times wave vector per unit step and zone volume to the zone's four-force, so that the total of packet momentum and fluid impulse is unchanged; the zone credited is the one containing the packet.", "quantifier": "every packet, zone and step", "why_tests_cant": "continuous values", "anchors": ["core/interact.c:interact", "core/make_superphotons.c:sample_photon"]}
{"id": "C23", "title": "Scattering biases are at least one and keep the expected number of scatterings below the safety bound", "statement": "After bounding, every scattering bias is at least one and the sum over processes of bias times optical depth does not exceed the safety factor.", "quantifier": "every number of processes, all biases and depths", "why_tests_cant": "continuous inputs", "anchors": ["core/interact.c:bound_all_biases", "core/interact.c:rebalance_biases"]}
{"id": "C24", "title": "The number of interactions of a packet per step is capped", "statement": "A packet undergoes at most the compiled maximum number of interactions per step.", "quantifier": "every sequence of sampled interactions", "why_tests_cant": "needs a long run of improbable samples", "anchors": ["core/interact.c:interact", "core/interact.c:MAX_INTERACTIONS"]}
{"id": "C25", "title": "Root finder: a reported root lies in the bracket and meets the tolerance", "statement": "When the root finder reports success, the root lies in the requested interval and the bisection result brackets a sign change narrower than tolerance.", "quantifier": "every function, every bracket and guess", "why_tests_cant": "over all functions", "anchors": ["core/root_finding.c:find_root", "core/root_finding.c:root_secant", "core/root_finding.c:root_bisect"]}
{"id": "C26", "title": "Run-time parameter lookup finds the parameter asked for", "statement": "Assigning a named run-time parameter changes the parameter registered under exactly that name and no other; unknown names are reported.", "quantifier": "every table of registered names and every key", "why_tests_cant": "depends on pairs of names where one is a prefix of another", "anchors": ["core/input.c:get_param", "core/input.c:set_param"]}
{"id": "C27", "title": "A run starts only if every registered parameter was set", "statement": "If reading the parameter file is accepted then every registered parameter has been assigned.", "quantifier": "every parameter file", "why_tests_cant": "needs files with duplicates compensating omissions", "anchors": ["core/input.c:read_params"]}
{"id": "C28", "title": "Simulation time advances to the final time and never past it", "statement": "Every time step is positive, grows at most by the safety factor, and never takes the time past the final time; the final time is reached exactly once no more steps are needed.", "quantifier": "every sequence of signal-speed limits", "why_tests_cant": "over all dt histories", "anchors": ["core/step.c:step", "core/main.c:main"]}
{"id": "C29", "title": "Output schedule: dumps are numbered consecutively, at most one per step, none skipped in number, and a final one is written", "statement": "Over any run, dump files get consecutive numbers starting at 0, at most one periodic dump is written per step, each at a time not earlier than its due time, and the final state is always dumped.", "quantifier": "every sequence of time steps and output intervals", "why_tests_cant": "over all histories", "anchors": ["core/main.c:main", "core/diag.c:diag", "core/io.c:dump"]}
{"id": "C30", "title": "Tracer identifiers are unique", "statement": "After sampling, all tracer packets in the run carry pairwise different identifiers.", "quantifier": "every distribution of cells over processes", "why_tests_cant": "uneven distributions are the failing ones", "anchors": ["core/tracers.c:sample_all_tracers", "core/tracers.c:sample_tracers_in_cell"]}
{"id": "C31", "title": "At least the requested number of tracers is created, spread evenly", "statement": "The number of tracers per tracer cell is the same on all cells, at least one, and the total is at least the requested number and exceeds it by fewer than the number of cells.", "quantifier": "every number of tracers and tracer cells", "why_tests_cant": "integer rounding for all pairs", "anchors": ["core/tracers.c:sample_all_tracers"]}
{"id": "C32", "title": "Tracer interpolation is exact on the polynomials it is built for", "statement": "Interpolation weights sum to one and interpolation reproduces every quadratic in each direction exactly; at a node it returns the nodal value.", "quantifier": "every three distinct nodes, every point, every polynomial of the degree", "why_tests_cant": "continuum", "anchors": ["core/tracers.c:lagrange_basis", "core/tracers.c:lagrange_interp_grid_3d"]}
{"id": "C33", "title": "Constrained transport keeps the discrete divergence of the magnetic field", "statement": "A conservative update with the constrained-transport fluxes leaves the corner-centred discrete divergence of the magnetic field exactly unchanged, for every zone, flux field and time step.", "quantifier": "every grid of fluxes", "why_tests_cant": "round-off hides indexing mistakes and only all-flux identity excludes them", "anchors": ["core/step.c:flux_ct", "core/step.c:advance", "core/diag.c:flux_ct_divb"]}
{"id": "C34", "title": "Finite-volume update conserves totals up to boundary fluxes", "statement": "The change of the grid total of each conserved quantity equals the boundary fluxes plus sources times the time step, in each direction and in three dimensions.", "quantifier": "every grid size and flux field", "why_tests_cant": "telescoping for all sizes", "anchors": ["core/step.c:advance"]}
{"id": "C35", "title": "Numerical flux is consistent and symmetric", "statement": "With equal left and right states the numerical flux equals the physical flux; exchanging left and right with reflected direction negates the flux; the dissipation is at least the local signal speed.", "quantifier": "every pair of states", "why_tests_cant": "continuum", "anchors": ["core/step.c:lr_to_flux"]}
{"id": "C36", "title": "Linear reconstruction creates no new extrema", "statement": "Reconstructed interface values of the limited linear scheme lie between the zone value and the neighbouring zone's value on that side, are exact for linear data, constant at extrema, and mirror-symmetric.", "quantifier": "every five zone values", "why_tests_cant": "continuum", "anchors": ["core/reconstruction.c:slope_lim", "core/reconstruction.c:linear_mc"]}
{"id": "C37", "title": "WENO reconstruction is a convex combination of the candidate stencils", "statement": "The nonlinear weights are positive and add to one, so interface values lie between the three candidate polynomials' values, constants and linear functions are reproduced, and mirrored data give mirrored output.", "quantifier": "every five zone values", "why_tests_cant": "continuum", "anchors": ["core/reconstruction.c:weno"]}
{"id": "C38", "title": "Monotonicity-preserving reconstruction stays within its bounds", "statement": "When the limiter is active the interface value is the median of its three arguments and lies within the computed minimum and maximum; constants are reproduced; mirrored data give mirrored output.", "quantifier": "every five zone values", "why_tests_cant": "continuum", "anchors": ["core/reconstruction.c:mp5", "core/reconstruction.c:mp5_subcalc"]}
{"id": "C39", "title": "Index raising and lowering are inverse; the closed-form metric inverse is an inverse", "statement": "Raising after lowering returns the vector; the Boyer-Lindquist contravariant metric is the inverse of the covariant one; the general 4x4 inverse used by the code is the inverse whenever the determinant is non-zero.", "quantifier": "every vector, every non-singular matrix, every radius/angle/spin off the singularities", "why_tests_cant": "continuum", "anchors": ["core/metric.c:lower", "core/metric.c:raise", "core/metric.c:bl_gcov_func", "core/metric.c:bl_gcon_func", "core/metric.c:invert", "core/metric.c:adjoint", "core/metric.c:determinant"]}
{"id": "C40", "title": "Four-velocities are normalised and the magnetic four-vector is orthogonal to them", "statement": "For every primitive velocity the derived four-velocity has u.u=-1 and positive time component; the derived magnetic four-vector satisfies b.u=0 and b.b=(B^2+(u.B)^2)/u0^2.", "quantifier": "every primitive state, every 3+1 metric", "why_tests_cant": "continuum", "anchors": ["core/phys.c:ucon_calc", "core/phys.c:bcon_calc", "core/phys.c:mhd_gamma_calc"]}
{"id": "C41", "title": "Connection coefficients are symmetric and metric-compatible", "statement": "The numerically assembled connection is symmetric in its lower indices and satisfies metric compatibility with the same finite-difference metric derivatives.", "quantifier": "every metric field", "why_tests_cant": "continuum", "anchors": ["core/metric.c:conn_func"]}
{"id": "C42", "title": "Tetrads are orthonormal and frame transformations invert each other", "statement": "The tetrad built from a four-velocity and trial vectors is orthonormal with respect to the metric and transforming to the tetrad frame and back gives the original vector.", "quantifier": "every metric, four-velocity and trial vector", "why_tests_cant": "continuum", "anchors": ["core/tetrads.c:make_tetrad", "core/tetrads.c:coord_to_tetrad", "core/tetrads.c:tetrad_to_coord", "core/tetrads.c:normalize", "core/tetrads.c:project_out"]}
{"id": "C43", "title": "Null normalisation makes wave vectors null", "statement": "After normalising the time component, the wave vector is null with respect to the metric and its spatial part is unchanged.", "quantifier": "every metric with negative time-time component and every spatial wave vector", "why_tests_cant": "continuum", "anchors": ["core/tetrads.c:normalize_null", "core/tetrads.c:normalize_null_cov"]}
{"id": "C44", "title": "Flavour oscillation preserves packet number and lepton class", "statement": "An oscillating packet keeps its weight, position and momentum, changes flavour only within particles or within antiparticles, and oscillating twice restores the flavour.", "quantifier": "every packet and type", "why_tests_cant": "history quantified", "anchors": ["core/oscillations.c:oscillate"]}
{"id": "C45", "title": "Flavour survival probabilities are probabilities", "statement": "The survival probability used for oscillation lies between the equilibrium value and one for all moment values.", "quantifier": "every moment pair", "why_tests_cant": "continuum", "anchors": ["core/oscillations.c:oscillate"]}
{"id": "C46", "title": "Angular moments reflect the current packet distribution", "statement": "The local angular moments used for oscillation at a step depend only on the packets present at that step.", "quantifier": "every history of steps", "why_tests_cant": "state carried between calls shows only over histories", "anchors": ["core/oscillations.c:compute_local_moments", "core/oscillations.c:accumulate_local_angles"]}
{"id": "C47", "title": "Table interpolation stays inside its table", "statement": "One-dimensional table interpolation never reads outside the table and returns a value between the two bracketing entries, for every abscissa.", "quantifier": "every table and abscissa", "why_tests_cant": "the failing point is a single real number", "anchors": ["core/util.c:interp_1d", "core/util.c:find_index"]}
{"id": "C48", "title": "Tabulated equation of state clamps its arguments into the table", "statement": "For every density, temperature and electron fraction the interpolation stencil lies inside the table.", "quantifier": "every argument triple", "why_tests_cant": "the failing point is on the table edge", "anchors": ["core/eos_stellar_collapse.c:EOS_SC_interp", "core/eos_stellar_collapse.c:catch_lrho", "core/eos_stellar_collapse.c:catch_lT", "core/eos_stellar_collapse.c:catch_ye"]}
{"id": "C49", "title": "A crash never leaves the run without a usable restart file", "statement": "At every crash point the file named by the 'last restart' pointer exists and is complete.", "quantifier": "every crash point of every sequence of restart writes", "why_tests_cant": "crash points", "anchors": ["core/io.c:restart_write", "core/io.c:restart_init"]}
{"id": "C50", "title": "Old restart files are pruned without removing the newest complete ones", "statement": "After any sequence of temporary restart writes the two newest temporary files exist, at most three ever exist, and permanent ones are never removed.", "quantifier": "every number of writes and every crash point", "why_tests_cant": "histories", "anchors": ["core/io.c:restart_write"]}
{"id": "C51", "title": "Restarting restores the packets", "statement": "Reading back a restart file yields the same multiset of packets with all physically relevant fields.", "quantifier": "every packet list, every number of processes and threads", "why_tests_cant": "all lists", "anchors": ["core/io.c:restart_write", "core/io.c:restart_read", "core/rad_utils.c:copy_photon"]}
{"id": "C52", "title": "Restarting restores the output accumulators", "statement": "After a restart the accumulated diagnostics continue from the values saved.", "quantifier": "every saved state", "why_tests_cant": "history dependent", "anchors": ["core/io.c:restart_init", "core/diag.c:reset_dump_variables"]}
{"id": "C53", "title": "Header reads and writes stay within the variable", "statement": "Saving or restoring a header variable accesses only the bytes of that variable.", "quantifier": "every header variable", "why_tests_cant": "undefined behaviour is not reliably observable", "anchors": ["core/io.c:restart_write", "core/io.c:restart_read", "core/io.c:dump_id"]}
{"id": "C54", "title": "Tracer output records each tracer's own position and fields", "statement": "In the tracer output each tracer's Cartesian coordinates are those of that tracer and all columns are in the same order.", "quantifier": "every list of tracers", "why_tests_cant": "all lists", "anchors": ["core/io.c:dump_tracers"]}
{"id": "C55", "title": "Output accumulators are all reset after a dump", "statement": "After resetting, every accumulator that is averaged over the dump interval is zero in every zone.", "quantifier": "every accumulator and every build configuration", "why_tests_cant": "configuration dependent sizes", "anchors": ["core/diag.c:reset_dump_variables"]}
{"id": "C56", "title": "The hot-cross-section table does not depend on thread scheduling", "statement": "The table built in parallel is the one built sequentially, whatever the interleaving of threads.", "quantifier": "every interleaving", "why_tests_cant": "schedules", "anchors": ["core/scattering.c:init_hc_table"]}
{"id": "C57", "title": "Ideal-gas equation of state is self-consistent", "statement": "Pressure, enthalpy, internal energy and entropy conversions are mutually inverse, and the sound speed is real and below light speed.", "quantifier": "every density, energy and adiabatic index between 1 and 2", "why_tests_cant": "continuum", "anchors": ["core/eos_gamma.c:EOS_Gamma_pressure_rho0_u", "core/eos_gamma.c:EOS_Gamma_sound_speed_rho0_u"]}
{"id": "C58", "title": "Electron entropy stays within its bounds", "statement": "After the electron fix-up the electron entropy lies within the bounds implied by the temperature-ratio limits.", "quantifier": "every state", "why_tests_cant": "continuum", "anchors": ["core/electrons.c:fixup_electrons_1zone"]}
{"id": "C59", "title": "The permutation symbol is the sign of the permutation", "statement": "The four-index antisymmetric symbol is zero on repeated indices, changes sign under exchange of two indices and is one on the identity.", "quantifier": "all index quadruples and any permutation length", "why_tests_cant": "sign errors in rarely used entries", "anchors": ["core/current.c:antisym", "core/current.c:pp"]}
{"id": "C60", "title": "Rejection envelopes bound the sampled density", "statement": "The maximum used in rejection sampling is an upper bound of the sampled cross-section.", "quantifier": "every frequency range and angle", "why_tests_cant": "continuum", "anchors": ["core/scattering.c:nu_cross", "core/scattering.c:nu_cross_max"]}
{"id": "C61", "title": "Emission creates balanced packet pairs", "statement": "Emission creates packets in pairs whose momenta cancel in the fluid frame, and the momentum removed from the fluid equals the momentum carried by the packets.", "quantifier": "every emission", "why_tests_cant": "continuum", "anchors": ["core/make_superphotons.c:sample_photon"]}
{"id": "C62", "title": "A new packet's recorded birth time equals its position's time", "statement": "The time stored in a newly emitted packet's position equals its stored birth time.", "quantifier": "every emission time and step", "why_tests_cant": "code-order dependent state", "anchors": ["core/make_superphotons.c:sample_photon", "core/coord.c:coord"]}
{"id": "C63", "title": "Packet-number tuning changes by bounded factors", "statement": "At each adjustment the emission and scattering resolution factors change by a factor within the documented limits, and are unchanged when nothing was made.", "quantifier": "every count history", "why_tests_cant": "histories", "anchors": ["core/rad_utils.c:update_superphoton_resolution"]}
{"id": "C64", "title": "Recorded packets fall into existing spectral bins", "statement": "Every escaping packet is recorded in exactly one existing bin or not recorded; no out-of-range bin is written.", "quantifier": "every direction and frequency", "why_tests_cant": "boundary angles", "anchors": ["core/rad_utils.c:get_nuLnu_bin", "core/rad_utils.c:bin_superphoton_direction", "core/diag.c:record_superphoton"]}
{"id": "C65", "title": "Error shutdown terminates", "statement": "When a zone's state is unphysical the error routine reports it and the program ends.", "quantifier": "every state containing an unphysical zone", "why_tests_cant": "recursion depth", "anchors": ["core/diag.c:fail", "core/diag.c:diag", "core/phys.c:ucon_calc"]}
{"id": "C66", "title": "Escaped-spectrum reduction preserves the total, however often it is repeated", "statement": "Summing the spectrum over processes before an output leaves the global total unchanged, so intermediate reductions do not double count.", "quantifier": "every number of processes and any sequence of accumulations and reductions", "why_tests_cant": "histories", "anchors": ["core/mpi.c:mpi_reduce_nuLnu"]}
{"id": "C67", "title": "Velocity limiting caps the Lorentz factor", "statement": "After the per-zone fix-up the Lorentz factor with respect to the normal observer does not exceed the ceiling and the direction of the velocity is unchanged.", "quantifier": "every velocity and spatial metric", "why_tests_cant": "continuum", "anchors": ["core/fixup.c:fixup1zone", "core/phys.c:mhd_gamma_calc"]}
{"id": "C68", "title": "Inflow check leaves no radial inflow", "statement": "After the inflow check at the inner (outer) radial boundary the zone's radial four-velocity is not directed into the domain.", "quantifier": "every state and metric", "why_tests_cant": "continuum", "anchors": ["core/bounds.c:inflow_check"]}
{"id": "C69", "title": "Tracer pruning removes exactly the tracers in repaired zones", "statement": "Pruning removes from a thread's list exactly the tracers that sit in a zone flagged as unreliable, frees them, and leaves all others in order.", "quantifier": "every list, heap and flag pattern", "why_tests_cant": "pointer surgery for every pattern of removals", "anchors": ["core/tracers.c:prune_tracers"]}
{"id": "C70", "title": "Time step obeys the Courant condition", "statement": "For positive speeds and spacings, the proposed time step is positive and the step times the sum over directions of speed over spacing equals the Courant number, so no signal crosses more than that fraction of a zone in any direction.", "quantifier": "all Courant numbers, zone sizes and maximal signal speeds", "why_tests_cant": "Speeds and spacings are continuous parameters; a run samples a few of them.", "anchors": ["core/step.c:343-353"]}
{"id": "C71", "title": "The Kerr-Schild metric is a space-time metric", "statement": "For every spin, positive radius and angle off the axis the covariant Kerr-Schild metric assembled by the code has a positive definite spatial part, lapse 1/sqrt(1+2r/rho^2), shift (2r/rho^2)/(1+2r/rho^2) in the radial direction and determinant -(rho^2 sin(theta))^2; a change of spatial coordinates keeps the 3+1 form and lapse, so the stored volume element is positive.", "quantifier": "every spin, radius, angle, every invertible spatial Jacobian", "why_tests_cant": "continuum", "anchors": ["core/coord.c:set_gcov", "core/coord.c:set_metric", "core/metric.c:gcon_func"]}
{"id": "C72", "title": "Coordinate three-velocities convert to the right time component", "statement": "For every slower-than-light coordinate velocity the conversion returns the u^t that makes the four-velocity (u^t, u^t v) normalised.", "quantifier": "every metric, every timelike coordinate velocity", "why_tests_cant": "the error does not depend on the sampled velocity in an obvious way", "anchors": ["core/fixup.c:ut_calc_3vel"]}
{"id": "C73", "title": "Primitive velocities and four-velocities convert back and forth without loss", "statement": "Converting primitive velocities to a four-velocity and back returns the primitives, and converting a normalised future-directed four-velocity to primitives and back returns the four-velocity.", "quantifier": "every 3+1 metric and every velocity", "why_tests_cant": "continuum", "anchors": ["core/phys.c:ucon_calc", "core/fixup.c:ucon_to_utcon"]}
{"id": "C74", "title": "Success of the inversion means the conserved variables are reproduced", "statement": "Whenever the inversion returns 0 with finite primitives, mapping those primitives back gives the conserved variables it was called with. (False: the flag raised for a negative velocity square is dropped by the callers, so momentum exceeding energy is accepted with the absolute value of that square.)", "quantifier": "every finite conserved vector and guess", "why_tests_cant": "failure needs a specific unphysical conserved state; tests use states built from primitives", "anchors": ["core/utop.c:Utoprim", "core/utop.c:gamma_func", "core/utop.c:err_eqn"]}
{"id": "C75", "title": "The composition used by a tabulated equation of state during inversion is the primitive one", "statement": "The electron fraction computed from the conserved variable that the inversion stores in the equation-of-state cache equals the primitive electron fraction times rho/(rho+SMALL).", "quantifier": "every primitive state, metric and volume element", "why_tests_cant": "identity over a continuum of states; the cache slot is reused with a different meaning", "anchors": ["core/utop.c:Utoprim", "core/eos.c:EOS_pressure_rho0_w", "core/phys.c:primtoflux"]}
{"id": "C76", "title": "The inversion's iteration finds the root of linear residuals and gives up otherwise", "statement": "For a residual a(W-r) with a root r between 2^-8 and 3^8 times the starting value, the Halley step followed by at most eight limited secant steps ends at r or where |residual| <= 1e-10 W; with r <= 0 the iteration reports failure.", "quantifier": "every slope, root and start", "why_tests_cant": "continuum of starting values, including roots many limited steps away", "anchors": ["core/utop.c:Utoprim"]}
{"id": "C77", "title": "Restart deals packets out evenly over threads", "statement": "After a restart no thread of a process holds more than one packet more than another.", "quantifier": "every number of packets, threads and every random starting thread", "why_tests_cant": "all counts and starting threads", "anchors": ["core/io.c:restart_read"]}
{"id": "C78", "title": "Restart reader and writer agree on the header", "statement": "In every build every header variable read from a restart file was written under the same name with the same type, everything written that can change is read back, and no name is written twice.", "quantifier": "every combination of compile-time options", "why_tests_cant": "each build exercises one combination", "anchors": ["core/io.c:restart_write", "core/io.c:restart_read"]}
{"id": "C79", "title": "Grid arrays survive output and restart for every decomposition", "statement": "The blocks of the file that the processes write are disjoint and within bounds, cover the file when the grid divides evenly, and reading back restores every active zone and touches no ghost zone.", "quantifier": "every grid size, number of processes per dimension, array rank and order of writes", "why_tests_cant": "all decompositions", "anchors": ["core/io.c:write_array", "core/io.c:read_array", "core/mpi.c:init_mpi"]}
{"id": "C80", "title": "Interpolation along a packet's path returns a point of the path at the time asked for", "statement": "Interpolating a packet's stored history at a time no later than its present returns a state at exactly that time which lies between two stored states and keeps the conserved momenta; later times end the program. This also holds for packets made earlier in the same step.", "quantifier": "every history, time, metric and tolerance", "why_tests_cant": "The result depends on how many pushes the packet has had; packets made by scattering in the second half of a step have an incomplete history.", "anchors": ["core/rad_utils.c:429-530", "core/interact.c:178-186", "core/interact.c:583-597"]}
{"id": "C82", "title": "Table interpolation reproduces the tabulated function and its bounds", "statement": "Three-dimensional interpolation in the equation of state is exact for functions linear in each variable and stays within the entries of the table; the bounds used to clamp energies, enthalpies and pressures are those interpolated at the density and electron fraction at hand.", "quantifier": "every equally spaced table and argument", "why_tests_cant": "continuum of arguments and tables; wrong entries give plausible values", "anchors": ["core/eos_stellar_collapse.c:EOS_SC_interp", "core/eos_stellar_collapse.c:interp_2d", "core/eos_stellar_collapse.c:catch_var_2d", "core/eos_stellar_collapse.h:MMA_ELEM"]}
{"id": "C81", "title": "Local angular distributions: every packet falls into the bin of its direction", "statement": "The radius and direction-cosine bins of the local angular distributions exist for every value, contain the value when it is inside the grid, and the bin centres written to the grid file fall into their own bins; the cosine binned is that of the angle to the basis vector.", "quantifier": "every value, number of bins and width; every metric and momentum", "why_tests_cant": "clamping at both ends, infinities, non-orthogonal metrics", "anchors": ["core/oscillations.c:get_local_angle_bins", "core/io.c:dump_grid"]}
{"id": "C83", "title": "Scattering kinematics", "statement": "The particle a packet scatters off lies on its mass shell at the sampled angle; boosts keep the square of a four-vector; the scattered packet leaves at the sampled angle and energy in the particle's frame, is null and has positive energy; the angle sampled is distributed as it should.", "quantifier": "every packet momentum, Lorentz factor, angle and random number", "why_tests_cant": "continuum; the small-number regularisation must be shown harmless for all energies", "anchors": ["core/scattering.c:sample_gas_particle", "core/scattering.c:boost", "core/scattering.c:sample_scattered_rad", "core/scattering.c:sample_mu"]}
{"id": "C84", "title": "Hot cross-section lookup stays inside its table", "statement": "For every energy and temperature the lookup reads four existing neighbouring entries and returns a value between their extremes.", "quantifier": "every energy, temperature, table and range", "why_tests_cant": "continuum, table edges", "anchors": ["core/scattering.c:interpolate_hc_table"]}
{"id": "C85", "title": "Klein-Nishina total cross-section is positive and below Thomson", "statement": "The programmed total cross-section lies in (0, 1] Thomson, its low-energy series agrees with the exact formula, and the abort for a boosted cross-section above two is unreachable.", "quantifier": "every photon energy, angle and electron Lorentz factor", "why_tests_cant": "continuum, cancellation at low energy", "anchors": ["core/scattering.c:hc_klein_nishina", "core/scattering.c:boostcross"]}
{"id": "C86", "title": "Emission frequencies are sampled inside the tabulated spectrum", "statement": "Drawing an emission frequency never reads outside the tabulated spectrum, accepts with a probability between the two neighbouring tabulated relative numbers, and returns a frequency in the range.", "quantifier": "every emissivity, weight, table size and sequence of draws", "why_tests_cant": "random draws near bin edges and unbounded rejection loops", "anchors": ["core/make_superphotons.c:get_dndlnu", "core/make_superphotons.c:sample_photon", "core/rad_utils.c:linear_interp_log"]}
{"id": "C87", "title": "Log entries and restart files keep their schedules", "statement": "Log entries and permanent restart files are never written before they are due, and (with steps shorter than the interval) each is written less than one interval late; temporary restart files are written at exactly the multiples of DNr.", "quantifier": "every sequence of time steps and output intervals", "why_tests_cant": "over all histories", "anchors": ["core/main.c:main"]}
{"id": "C89", "title": "Packets obey the geodesic equation to second order", "statement": "The force used for a packet is minus half the gradient of the inverse metric contracted with its momentum, over K^t; one push deviates from the solution of the equations of motion by at most a constant times the cube of the step; after every push the contravariant momentum is the covariant one raised at the new position.", "quantifier": "every metric, every state, every step, every smooth solution", "why_tests_cant": "continuum of metrics and steps; order of accuracy is a statement about all step sizes", "anchors": ["core/push_superphotons.c:get_K_source", "core/push_superphotons.c:push"]}
{"id": "C88", "title": "Tracers carry exactly the mass of their cells and lie inside them", "statement": "The tracers made in a cell lie inside that cell, name it as their origin and have masses that add up to the cell's; the tracers of a process have the mass of its tracer cells, and the total that is reported is the mass of all tracer cells of the grid; threads get equally many up to one.", "quantifier": "every grid, distribution of tracer cells, sequence of random numbers and number of threads", "why_tests_cant": "all sequences of random numbers", "anchors": ["core/tracers.c:sample_tracers_in_cell", "core/tracers.c:sample_all_tracers", "core/tracers.c:set_tracer", "core/tracers.c:get_total_tracer_mass"]}
{"id": "C90", "title": "Electron heating, Coulomb exchange and radiation exchange deliver the right energy", "statement": "The heating fraction lies in (0,1); the electrons receive exactly that fraction of the dissipated energy; Coulomb exchange heats the electrons exactly when the ions are hotter and changes their energy by Qc Dt/u^t; radiation changes it by minus the four-force along the velocity.", "quantifier": "every density, energy, entropy, field strength, set of positive constants and positive Bessel function", "why_tests_cant": "continuum of states", "anchors": ["core/electrons.c:heat_electrons_zone", "core/electrons.c:get_fel", "core/electrons.c:coulomb", "core/electrons.c:apply_rad_force_e"]}
{"id": "C91", "title": "Floors on density and energy hold and keep momentum", "statement": "After the floors density, energy, magnetisation and temperature meet their limits and the Lorentz factor is at most 50; zones within the limits are left alone and zones outside are marked; in strongly magnetised zones the drift velocity is kept, and the momentum along the field is conserved; elsewhere matter is added at rest.", "quantifier": "every space-time metric, state and behaviour of the inversion", "why_tests_cant": "continuum of states and metrics", "anchors": ["core/fixup.c:fixup1zone", "core/fixup.c:get_scale", "core/eos_gamma.c:EOS_Gamma_set_floors"]}
{"id": "C92", "title": "Characteristic speeds are the fast-wave speeds and do not exceed light", "statement": "For an ideal gas with 1 < gam <= 2 mhd_vchar raises no error, and the two speeds it returns are exactly the coordinate speeds of fronts moving at the fast magnetosonic speed (at least 1e-20 squared) relative to the fluid; the fluid velocity lies strictly between them and neither exceeds the coordinate speed of light in that direction.", "quantifier": "every space-time metric, every state (density and energy of either sign, any velocity and field), every direction", "why_tests_cant": "continuum of states and metrics", "anchors": ["core/phys.c:mhd_vchar", "core/eos_gamma.c:EOS_Gamma_sound_speed_rho0_u"]}
{"id": "C93", "title": "Light crossing times bound every causal speed", "statement": "The speed used for the light crossing time of a zone is the largest coordinate speed of light at its centre, and is attained; a step of at most cour times dt_light_min meets the Courant condition, summed over the three directions, for everything causal and for the characteristic speeds of any fluid state, at every zone centre.", "quantifier": "every space-time metric, list of zones, zone widths, causal vector and fluid state", "why_tests_cant": "continuum of metrics and states", "anchors": ["core/coord.c:set_grid", "core/step.c:step"]}
{"id": "C94", "title": "Jacobians of the code coordinates are the derivatives and invert each other", "statement": "The contravariant matrices written to the grid file are the partial derivatives of Boyer-Lindquist and of Cartesian coordinates with respect to code coordinates, and the covariant ones are their inverses up to the 1e-20 added to the denominators.", "quantifier": "every point, hslope, positive poly_xt, natural poly_alpha, mks_smooth, with and without DEREFINE_POLES", "why_tests_cant": "continuum of points and parameters", "anchors": ["core/coord.c:jac_harm_to_bl", "core/coord.c:jac_bl_to_cart", "core/coord.c:jac_harm_to_cart", "core/coord.c:cart_coord"]}
{"id": "C95", "title": "The polar angle runs from pole to pole and the metric of the grid is a space-time metric", "statement": "X2 from 0 to 1 maps onto the polar angles 0 to pi, symmetric about the equator and strictly increasing, and the metric set_gcov computes there is a 3+1 space-time metric, on the axis and in the ghost zones too.", "quantifier": "every point and every value of the coordinate parameters", "why_tests_cant": "continuum of points and parameters", "anchors": ["core/coord.c:th_of_X", "core/coord.c:bl_coord", "core/coord.c:set_gcov", "core/coord.c:set_points"]}
{"id": "C96", "title": "Horizon, innermost stable orbit and inner edge of the grid", "statement": "Reh is the outer horizon, Risco the only radius outside it at which the energy of circular orbits turning with the hole is stationary, and the grid puts the horizon 5.5 zones from its inner edge and ends at Rout, with a positive zone width.", "quantifier": "every spin below one, outer radius beyond the horizon and number of zones", "why_tests_cant": "continuum of spins", "anchors": ["core/coord.c:set_points"]}
{"id": "C97", "title": "cart_to_sph undoes spherical coordinates", "statement": "For positive radius, polar angle between 0 and pi and azimuth in [0, 2 pi) cart_to_sph returns exactly the radius and angles the Cartesian coordinates were made from.", "quantifier": "every radius and pair of angles off the axis", "why_tests_cant": "continuum of points", "anchors": ["core/coord.c:cart_to_sph"]}
{"id": "C98", "title": "Thermally averaged cross-sections", "statement": "total_cross_num ends and returns the average of the boosted cross-section over the Maxwell-Juettner distribution and over directions (for light positive, at most Thomson and short of it at most in proportion to the energy; for neutrinos the energy squared times the mean of gamma^2 (1 + v^2)); total_cross_lkup never leaves its table or falls back on the integral, and each of its shortcuts agrees with the average it replaces.", "quantifier": "every energy, temperature, target, table, and every positive Bessel function", "why_tests_cant": "The shortcuts, the truncation and the table meet at thresholds of energy and temperature that span twenty-seven decades; a test samples some of them.", "anchors": ["core/scattering.c:768-812", "core/scattering.c:813-854", "core/scattering.c:856-897", "core/scattering.c:899-913", "core/scattering.c:915-941"]}
{"id": "C99", "title": "The four-current written to dumps is that of Maxwell's equations", "statement": "Fcon_calc returns the field tensor of a perfect conductor (antisymmetric, no electric field in the fluid frame, dual b u - u b); current_calc is its divergence with central differences of time-centred fields; in flat space this is div E and curl B - dE/dt over 4 pi; a periodic box carries no total charge.", "quantifier": "every state of the fluid, metric, zone, spacing and step", "why_tests_cant": "The current is only an output: no test compares it, a wrong sign or index leaves every evolution unchanged, and the claim is an identity between sums over all states.", "anchors": ["core/current.c:17-75", "core/current.c:78-101", "core/step.c:37-42"]}
{"id": "C100", "title": "Emission and absorption of light agree with Planck and Kirchhoff", "statement": "Bnu_inv is Planck's law to 1e-13 on both sides of its series switch; alpha_inv_abs times Planck's law is the emissivity (Kirchhoff); gray absorption is the opacity at every frequency; the bremsstrahlung emissivity falls as exp(-h nu/kT) and J_brem is its integral over all frequencies and directions. J_gray is not the integral of jnu_gray.", "quantifier": "every frequency, temperature, density, emissivity and positive constants", "why_tests_cant": "The series and the exponential meet at one frequency per temperature; that two formulas are derivative and integral of each other is a statement about all frequencies.", "anchors": ["core/radiation.c:12-28", "core/radiation.c:30-82", "core/emissivity.c:171-225", "core/emissivity.c:430-440"]}
{"id": "C101", "title": "Synchrotron emissivity, its tables and its total", "statement": "J_synch is jnu_synch integrated over all frequencies and directions; the tabulated angle integrand times its prefactor is the emissivity times the sine of the angle; the table lookups stay in their arrays, between their neighbours, and exact at the nodes. J_synch is too large by the factor Thetae, and both lookups read one entry behind the array at the upper end.", "quantifier": "every temperature, field, density, frequency, angle and table", "why_tests_cant": "The total is an improper double integral; the overrun happens at a single temperature.", "anchors": ["core/emissivity.c:228-343", "core/emissivity.c:346-384", "core/emissivity.c:387-418"]}
{"id": "C102", "title": "Flat neutrino source", "statement": "J_flat is the integral of Jnu_flat over its band, nothing is emitted outside it, and only the selected kind of neutrino is emitted with weight 2 Ye or 1 - 2 Ye, independent of the band.", "quantifier": "every band, unit, electron fraction and pair of kinds", "why_tests_cant": "Tests use one band and one kind.", "anchors": ["core/emissivity.c:443-468"]}
{"id": "C103", "title": "The radiation sees the fluid of the fluid solver", "statement": "get_fluid_zone computes the same four-velocity and (in other units) the same magnetic four-vector as the fluid solver: unit, future directed, orthogonal; the frequency of a superphoton in the fluid frame is positive; get_bk_angle returns the angle between wave vector and field in the rest frame and never needs its repair of cosines beyond one; magnetised zones are made cold by sigma.", "quantifier": "every metric in 3+1 form, velocity, field, null wave vector and unit", "why_tests_cant": "Two independent pieces of code must agree for all metrics and states; the clamp in get_bk_angle hides disagreement.", "anchors": ["core/rad_utils.c:183-192", "core/rad_utils.c:303-368", "core/radiation.c:85-123"]}
{"id": "C104", "title": "Scatterers of neutrinos are counted by their mass", "statement": "The number density of each scatterer times its mass is its share of the density, and the temperature of the scatterer uses the same mass; the program stops exactly for heavy neutrinos on electrons. False for nuclei and alpha particles: their mass is taken as A (m_n + m_p), twice that of A nucleons, so half are counted.", "quantifier": "every composition, density, mean mass number, temperature and interaction", "why_tests_cant": "A factor of two in an opacity passes every consistency test of the transport.", "anchors": ["core/rad_utils.c:196-278"]}
{"id": "C105", "title": "Radiation stress tensor", "statement": "The stress tensor, packet counts and number densities that set_Rmunu gathers do not depend on the order of packets or their distribution over threads; summed over zones they give the number of packets that are not tracers, the number of particles and the total four-momentum; for null packets the tensor is symmetric and traceless and satisfies the dominant energy condition.", "quantifier": "all lists of packets on all threads, all zones, all space-times", "why_tests_cant": "unbounded lists and continuum of metrics and observers", "anchors": ["core/rad_utils.c:set_Rmunu"]}
{"id": "C106", "title": "Lepton number of gas plus neutrinos", "statement": "In every step the electron lepton number of the gas, plus that of the neutrino packets, plus that of the packets lost, is conserved.", "quantifier": "all sequences of emissions, absorptions, scatterings and losses", "why_tests_cant": "unbounded sequences; test problems have fluid at rest in flat space, where u^t is 1", "anchors": ["core/make_superphotons.c:sample_photon", "core/interact.c:interact", "core/step.c:apply_rad_force", "core/rad_utils.c:record_lepton_flux", "core/diag.c:count_leptons"]}
{"id": "C107", "title": "Units and optical depths", "statement": "The units fit together (mass, energy, field and packet energy), and the optical depth of a path segment is the absorption coefficient (or number density times cross section) at the frequency in the fluid frame times the length of the segment in that frame.", "quantifier": "all parameters, space-times, fluid velocities, null wave vectors and durations", "why_tests_cant": "continuum", "anchors": ["core/util.c:set_units", "core/interact.c:interact", "core/radiation.c:alpha_inv_scatt"]}
{"id": "C108", "title": "Expected emission", "statement": "The expected energy of the packets made in a zone is the emissivity integrated over frequency times volume and time, whatever the weights; rounding the number of packets keeps its mean; a zone that emits has had its microphysics computed in the same step.", "quantifier": "all emissivities, weights, expected numbers, zones and options", "why_tests_cant": "continuum; probabilities", "anchors": ["core/make_superphotons.c:get_dnz", "core/make_superphotons.c:make_superphotons", "core/rad_utils.c:precompute_microphysics"]}
{"id": "C109", "title": "Temperature of a state in the tabulated equation of state", "statement": "For tables growing with temperature, filling the auxiliary quantities of any state of positive density ends with a temperature in the table, and a state whose energy belongs to a temperature of the table is given that temperature back, within the tolerances of the search.", "quantifier": "all tables, units, shifts, states and initial guesses", "why_tests_cant": "continuum of states and tables; the root search is a loop without bound", "anchors": ["core/eos_stellar_collapse.c:EOS_SC_fill", "core/eos_stellar_collapse.c:find_lT", "core/eos_stellar_collapse.c:catch_var_2d_monotone", "core/eos_stellar_collapse.c:fill_max_min_2d", "core/eos_stellar_collapse.c:EOS_SC_get_u_of_T"]}
{"id": "C110", "title": "Least energy, floors and adiabatic index of the tabulated equation of state", "statement": "The least energy at a density is the least over the temperatures of the table; the floors set a density in the table and at least its least energy, and so does the cold floor; the adiabatic index returned is that of the gas.", "quantifier": "all tables, units, densities, temperatures and fields", "why_tests_cant": "continuum; units are powers of ten apart only in physical runs", "anchors": ["core/eos_stellar_collapse.c:EOS_SC_get_minu", "core/eos_stellar_collapse.c:EOS_SC_u_floor", "core/fixup.c:fixup1zone", "core/eos_stellar_collapse.c:EOS_SC_gamma"]}
{"id": "C111", "title": "Pressure from enthalpy and energy from pressure invert the equation-of-state tables", "statement": "With tables that rise with temperature: the logs of the enthalpy tables are logs of positive numbers; EOS_SC_pressure_rho0_w gives every density, enthalpy, electron fraction and guess a positive pressure, and at a point of the table gives back the pressure P from the enthalpy rho + u + P up to the tolerances of the search; EOS_SC_u_press gives back the energy whose temperature has the given pressure.", "quantifier": "all evenly spaced axes, tables of any size, unit factors, shifts, states, guesses and amounts of fuel", "why_tests_cant": "A test compares a few states at table points; that the interpolated enthalpy is not the sum of the interpolated energy and pressure, and that the search of EOS_SC_u_press can leave the table between two electron fractions, needs every table and every state.", "anchors": ["core/eos_stellar_collapse.c:420-493", "core/eos_stellar_collapse.c:649-652", "core/eos_stellar_collapse.c:703-776", "core/eos_stellar_collapse.c:778-835", "core/eos_stellar_collapse.c:1467-1485"]}
{"id": "C112", "title": "Radiation diagnostics summed over steps and processes", "statement": "Between two dumps, the radiation diagnostics of a zone (emitted, absorbed and scattered power, numbers of emissions and absorptions) are the sum over all steps of everything any process deposited for that zone, including deposits a process made in its ghost copies of the zone; each deposit with an owner is counted exactly once in the total over all processes, and the ghost zones are left empty, so a second synchronisation changes nothing.", "quantifier": "all domain decompositions with at least two zones per process and direction, all boundary types, all numbers of steps, all deposits", "why_tests_cant": "The array is not reset between steps, so that a ghost value left over is counted again in each later step; whether this happens depends on the decomposition and on the history.", "anchors": ["core/mpi.c:sync_Jrad", "core/mpi.c:sync_radtype_vec", "core/mpi.c:sync_radG", "core/bounds.c:429-432", "core/diag.c:28-32", "core/step.c:118"]}
{"id": "C113", "title": "Packets leave the radiation domain only at its edges, and the camera counts each once", "statement": "A superphoton stays in the simulation after a step exactly if its position is known and inside every non-periodic edge, and it has weight and positive energy; tracers leave at the outer edge of the gas, radiation at that of the radiation; the program stops only for a packet beyond an edge of a kind not implemented. The camera takes exactly the packets of radiation beyond the outer edge, only sound ones, and over a whole run no packet twice nor any that goes on; tracers are lost only through an edge.", "quantifier": "all edge kinds, coordinate maps, positions, weights, momenta and histories with births in every step", "why_tests_cant": "The order of the tests matters only for the rare packet that fails two of them at once, and the sign of u_t only in counter-rotating flow inside the ergosphere; a test would have to hit these.", "anchors": ["core/bounds.c:bound_rad_isactive", "core/bounds.c:rad_error_check", "core/bounds.c:bound_superphotons", "core/tracers.c:push_tracers"]}
{"id": "C114", "title": "Tabulated neutrino opacities and emissivities", "statement": "Putting the tabulated emissivities and opacities on the frequency groups of the run fills every element of the table and none outside, each with the linear interpolant in log frequency between two neighbouring tabulated frequencies of the same density, temperature, electron fraction and species. For every density, temperature and electron fraction that is a number, the code finds a cell inside the table containing the point moved onto it, and interpolates every group of every species linearly in log density, log temperature and electron fraction between that group's own eight entries. At every frequency the emissivity and the opacity lie within the bounds of the table, are those of the group at the frequency of a group, and the total emissivity is the integral of the spectrum.", "quantifier": "all equally spaced tables of any size, any number of species and groups, all arguments including infinite ones, all frequencies", "why_tests_cant": "Tests sample a few states inside one table; the ends of the axes, arguments off the table, coinciding highest frequencies and the layout for arbitrary sizes need proof.", "anchors": ["core/opac_emis_hdf.c:34-39", "core/opac_emis_hdf.c:64-148", "core/opac_emis_hdf.c:150-284", "core/opac_emis_neutrino.c:53-64", "core/opac_emis_neutrino.c:90-137", "core/util.c:96-107"]}
{"id": "C115", "title": "Cooling times and the time step with radiation", "statement": "The cooling time of a zone is positive and is the time in which it radiates its internal energy; the time that limits the step is the least over exactly the zones of all processes that make photons, so that in a step no such zone radiates more than the fraction cour_cool of its internal energy, and the step neither exceeds the light-crossing limit nor 1.3 times the last step. The cooling times written to the dumps have that same least value. Oscillations are switched on exactly if somewhere the oscillation time is no longer than the step.", "quantifier": "all zones on any number of processes, all internal energies of either sign, emissivities infinite or not a number, all units and step parameters", "why_tests_cant": "The limits are minima over all zones of all processes with excluded regions; a zone wrongly left out or included shows only in rare states.", "anchors": ["core/rad_utils.c:677-683", "core/rad_utils.c:685-711", "core/rad_utils.c:713-746", "core/step.c:132-172", "core/make_superphotons.c:376-402", "core/oscillations.c:13-27"]}
{"id": "C116", "title": "Histograms of where packets were made", "statement": "At every dump the histograms of distance from the axis and of height hold, on every process, the total weight of the packets of all threads and processes by the bin of the centre of the zone each was made in, with what lies beyond the range counted at its edge; the histograms of oscillated packets hold those alone. Every bin is inside the arrays, the bins add up to the total weight, tracers are not counted, and nothing is left of earlier dumps.", "quantifier": "all packets on any number of threads and processes, all zones and coordinates, all ranges and numbers of bins, all sequences of dumps, exact arithmetic and double precision", "why_tests_cant": "Packets beyond the range, packets that changed process and the rounding at the edge are met only in particular states.", "anchors": ["core/diag.c:24-50", "core/diag.c:571-619", "core/input.c:250-253", "core/io.c:1175-1195", "core/coord.c:40-61", "core/coord.c:129-147", "core/make_superphotons.c:212-215"]}
{"id": "C117", "title": "Accretion rates, luminosity and totals of the log", "statement": "Whatever the decomposition into processes, the log has the fluxes of mass and energy through the inner edge of the grid and face 5, the mass and energy of all zones, the greatest divergence, the magnetic flux through shell 5 and phi, the luminosity through the last shell inside the radiation domain, and the efficiency as luminosity over accretion rate; the mass changes by the rate written and the outflow at the outer edge.", "quantifier": "all decompositions, all numbers of zones, all fields, all positions of the edge of the radiation domain", "why_tests_cant": "Tests run one decomposition; a sum counting a shell once for every process or a local rate in place of the global one looks plausible in the log.", "anchors": ["core/diag.c:99-124", "core/diag.c:126-222", "core/diag.c:362-384", "core/mpi.c:606-610", "core/mpi.c:654-666", "core/step.c:210-222"]}
{"id": "C118", "title": "Adiabats, polytropes and the preparation of the tables", "statement": "Tracing an adiabat ends, stays inside the tables, and gives a temperature at every node of a non-empty interval of densities with the entropy asked for within the tolerance, and the extremes of the enthalpy over them; the polytrope of a node has its pressure in code units; the energy shift makes every energy positive; the median filter stays inside the table, replaces exactly the inner entries off by more than ten times the median around them, and makes no new extremes.", "quantifier": "all evenly spaced axes, all tables rising with temperature, all entropies and electron fractions, all table sizes and contents for the filter", "why_tests_cant": "Tests use one table and a moderate entropy; the entropies at the ends of the table and tables with spikes near their edges are not tried.", "anchors": ["core/eos_stellar_collapse.c:340-345", "core/eos_stellar_collapse.c:395-418", "core/eos_stellar_collapse.c:534-549", "core/eos_stellar_collapse.c:943-1079", "core/eos_stellar_collapse.c:1264-1311", "core/util.c:78-93"]}
{"id": "C119", "title": "Parabolic reconstruction", "statement": "The parabolic reconstruction functions (reconstruct_lr_ppm and para) give edge values between a zone and its neighbours, with a monotone parabola, wherever the zone averages are monotone; interface values are exact for cubics and parabolas are reproduced; limiting only moves edges towards the average; no read leaves the array. Refuted parts: reconstruct_lr_ppm reads one entry before the array with the three ghost zones of the code, and para returns NaN for uniform data and beside the extremum of a parabola.", "quantifier": "all real zone averages, all array lengths and zone counts", "why_tests_cant": "the dispatcher exits before calling this code, so no test runs it; the NaN needs exactly equal values and the stray read is of a value not used", "anchors": ["core/reconstruction.c:283-388", "core/reconstruction.c:539-671", "core/decs.h:65"]}
{"id": "C120", "title": "States of given enthalpy on an adiabat", "statement": "Looking up the temperature along a traced adiabat reads only temperatures that were written and returns the node's temperature at a node; EOS_SC_isoentropy_hm1 finds every enthalpy between those at the ends of the adiabat, the state returned has that enthalpy, and its density and energy are those of the tables in code units; enthalpies at or above EOS_SC_hm1_min_adiabat are looked for unchanged. Refuted parts: with a single node the lookup divides 0 by 0, with more the temperature at a node is not that of the node, and the state found can miss the enthalpy by a tenth of a decade although the adiabat passes through it.", "quantifier": "all evenly spaced axes, all adiabats with their nodes, all tables, enthalpies, guesses and units", "why_tests_cant": "Tests use an adiabat with many nodes, where the interpolation error is small; short adiabats at the ends of the table and enthalpies inside the jump are not tried.", "anchors": ["core/eos_stellar_collapse.c:1020-1022", "core/eos_stellar_collapse.c:1092-1145", "core/eos_stellar_collapse.c:1207-1231", "core/util.c:96-107"]}
{"id": "C121", "title": "Writing the table of opacities", "statement": "opac_emis_to_hdf stores nothing outside its arrays; every element of the tables written is stored, and the element a reader takes for a group of a species at a node holds what the opacity routine gave there, emissivities converted from per MeV to per Hz; the axes are evenly spaced between the bounds of the equation of state; and a run that reads the file finds, at frequencies that were written, the values that were written. Refuted parts: with four species the entries of the fourth are never computed, the size overflows an int for a table of 391 by 163 by 66 nodes with 201 groups of three species, and a run with the frequencies of the one that wrote the file reads past the end of the table.", "quantifier": "all table sizes, bounds and numbers of groups, all opacity routines, all frequency ranges of the runs that write and read", "why_tests_cant": "The opacity library is not distributed with the code, so no test writes a table; a species or axis exchanged gives a table of plausible values.", "anchors": ["core/opac_emis_neutrino.c:147-183", "core/opac_emis_neutrino.c:186-268", "core/eos_stellar_collapse.c:1242-1258", "core/opac_emis_hdf.c:64-148"]}
{"id": "C122", "title": "The floors leave advected fractions alone", "statement": "Whatever the density and energy floors do to a zone, scalars carried per baryon keep the value they had before, brought into the range of the table (electron fractions) or between 0 and 1 (marker of the atmosphere); scalars per volume keep their conserved density when matter is added in the normal frame; a scalar is recovered from its conserved density; the energy given to cold gas is the least one of the density and electron fraction the zone is left with; no electrons are added.", "quantifier": "all primitive variables, numbers and kinds of scalars, ranges of the table, outcomes of the floors and of the inversion", "why_tests_cant": "The floors act on few zones, and a wrong electron fraction there only shows as a slightly wrong temperature of gas of no dynamical weight.", "anchors": ["core/passive.c:13-35", "core/fixup.c:108-231", "core/eos_stellar_collapse.c:563-579", "core/phys.c:45-54", "core/utop.c:183-192", "core/main.c:313-319"]}
{"id": "C123", "title": "Transport keeps advected fractions uniform and in range", "statement": "One update of a zone leaves a scalar per baryon that is uniform around it unchanged, however the gas moves; and keeps it in the range of the values in the zone and at its neighbours' edges, when the gas is not faster than its signals and not too much mass can leave through the faces in the step.", "quantifier": "all states at the faces, metrics, time steps, zone sizes, characteristic speeds", "why_tests_cant": "Tests advect a few profiles on flat space; the claim is for every flow, every metric and every reconstruction giving the edge values.", "anchors": ["core/step.c:207-220", "core/step.c:300-345", "core/step.c:396-427", "core/phys.c:45-54", "core/utop.c:183-192"]}
{"id": "C124", "title": "Performance timers", "statement": "The time per step shown for each timer is the time spent in its jobs divided by the number of steps they were done in; shares of the whole lie between 0 and 100 per cent; a timer started within its own job still shows the job's duration. Refuted parts: from the start the first step is counted but its time is not, the first report and the first row of the log are not numbers, the kinds of neutrinos are printed after the whole was stopped but timed as a part of it, and the mending of failed inversions restarts its own timer.", "quantifier": "all clock readings, numbers of steps, jobs in each step, report intervals", "why_tests_cant": "Timings differ from run to run, so a test can only check that something is printed.", "anchors": ["core/timing.c:11-111", "core/main.c:144-266", "core/fixup.c:15-20", "core/fixup.c:264-359", "core/diag.c:253-316", "core/diag.c:622-660"]}
{"id": "C125", "title": "Shares of the species in the radiation", "statement": "The percentages print_rad_types prints are, for every distribution of packets over ranks and threads and every order of the atomic additions, each species' part of the total weight of the radiation packets: tracers are left out, the numbers lie between 0 and 100 and add up to 100, and the array of counters is never left unless a packet has an unknown type.", "quantifier": "for all lists of packets on all ranks, three or four species", "why_tests_cant": "the number and placement of packets is unbounded and the order of the additions is up to the scheduler; an empty radiation field gives 0/0 only in runs where nothing has been emitted", "anchors": ["core/diag.c:622-660", "core/mpi.c:606-610", "core/decs.h:165-171"]}
{"id": "C126", "title": "Files of tracked packets", "statement": "Each time the log is written with Nph_to_track > 0, every rank fills its buffer exactly, with its tracked packets in order, and the file written holds them until the end, also if the run is continued from a restart file.", "quantifier": "for all packet lists, numbers of ranks and threads, sequences of logs and restarts", "why_tests_cant": "a buffer overrun depends on two loops agreeing for all lists; loss of files needs a continued run and a look at files of the earlier one", "anchors": ["core/io.c:305-385", "core/diag.c:320-322"]}
{"id": "C127", "title": "How the tuning of the packet number begins and is continued", "statement": "The factors and times that tune the number of packets start from the parameters tune_emiss, tune_scatt, t0_tune_emiss and t0_tune_scatt (two intervals after the start when no time is given), tuning takes place within a run, packets made at exactly the wanted rate leave the factor of emission alone, and a run continued from a restart file is tuned as the uninterrupted one.", "quantifier": "for all parameters, numbers of processes and histories of packet counts", "why_tests_cant": "the adjustments depend on the whole history of counts on all processes; that a parameter has no effect, or that a continued run differs, needs two runs compared", "anchors": ["core/rad_utils.c:42-75", "core/rad_utils.c:77-157", "core/io.c:1362-1370", "core/io.c:1640-1648", "core/io.c:2324-2334"]}
{"id": "C128", "title": "Metadata for visualisation describe what the files hold", "statement": "Every item of the XDMF file written with a dump names a dataset that exists in the file it names, states that dataset's size, and selects a slab inside it; all attributes are given on the cells of the mesh, and every primitive variable and every component of the metric and Jacobians is described.", "quantifier": "for all grid sizes, numbers of variables, options and radii", "why_tests_cant": "the code writes the text without ever opening what it describes; whether names, sizes and slabs fit has to hold for every configuration", "anchors": ["core/xdmf_output.c:40-272", "core/io.c:388-640", "core/io.c:908-1054", "core/io.c:1202-1204", "core/coord.c:73-77"]}
{"id": "C129", "title": "Electromagnetic flux of the jet", "statement": "The number jet_EM_flux of the log is the outward flux of electromagnetic energy through the shell of zones 5 of the whole grid: each zone of that shell whose magnetisation b^2/rho exceeds one contributes, once over all processes, minus the component T^1_0 of the electromagnetic stress-energy tensor times the volume factor and the coordinate area; in flat space, Poynting's vector.", "quantifier": "all primitive states with positive density in Minkowski's metric; all fields, grids and Cartesian decompositions for the sum", "why_tests_cant": "No test of the suite reads the jet column of the log; a wrong component has the right magnitude in a highly magnetised flow and is only seen by comparison with Poynting's vector for an arbitrary state.", "anchors": ["core/diag.c:162-176", "core/diag.c:193", "core/phys.c:12-55", "core/phys.c:66-92"]}
{"id": "C130", "title": "Estimate of the electron temperature", "statement": "With ESTIMATE_THETAE, the residual whose root is taken for the temperature at the end of the step is the energy balance stated in the code (the internal energy changes by minus emission plus absorption minus upscattering, each in erg per cubic centimetre and second); so electrons that only emit cool, that only absorb heat and that only upscatter cool. The estimate is within a factor of two of the old temperature. The packets of each zone are collected completely and in order, without an access outside an array, and a packet outside the zones of the process ends the run.", "quantifier": "all zones, constants and coefficients with physical signs, all lists of packets, all grids, all counters left by earlier calls", "why_tests_cant": "No test switches the estimate on, and as it stands the file does not compile with it (an undeclared variable at line 73).", "anchors": ["core/estimate_thetae.c:21-300", "core/util.c:143-152"]}
{"id": "C131", "title": "Luminosity proxy of the log", "statement": "The number lum_eht of the log is the sum over all zones of rho^3 P^-2 exp(-0.2 (rho^2/(B P^2))^(1/3)) times the volume of the zone, a finite number that is not negative, for every state with positive density and no negative pressure or field squared; a zone without field contributes nothing and a stronger field contributes more.", "quantifier": "all densities, pressures, field strengths and volumes; all lists of zones", "why_tests_cant": "Tests print the number for a few tori with floors; the limits of zero field and zero pressure, where infinities meet zeros, are not reached.", "anchors": ["core/diag.c:152-161", "core/diag.c:194"]}
{"id": "C132", "title": "Command line and start from a file", "statement": "The parameter file is the word after the last -p of the command line, of any length, and a run without one is refused. With init_from_grmhd set, every active zone of every process, in any decomposition, gets the primitives the given file has for that zone of the whole grid, ghost zones are left, and the files the program itself writes can be given.", "quantifier": "all command lines; all grids, decompositions of writer and reader, files and contents of memory", "why_tests_cant": "No test starts from a file or leaves out the parameter file, and a failed read of a dataset gives no message.", "anchors": ["core/main.c:91-129", "core/io.c:1794-1856", "core/io.c:44-46", "core/io.c:908", "core/io.c:1403"]}
{"id": "C133", "title": "Random numbers of processes, threads and restarts", "statement": "The generators of different threads of a run, on all processes, are seeded differently, so that no two of them draw the same numbers; no seed leaves the range of int; and a run that is stopped and restarted goes on with numbers it has not drawn before.", "quantifier": "all ranks, threads and numbers of them; all generators that depend on the seed only; all sequences of restarts and numbers of draws", "why_tests_cant": "Equal streams give plausible results; the collisions need many threads or processes, and no test compares the numbers drawn before and after a restart.", "anchors": ["core/random.c:14-23", "core/main.c:102-114", "core/main.c:277-282"]}
{"id": "C134", "title": "Load imbalance is between 0 and 1", "statement": "The load imbalance of the log is a number between 0 and 1: 0 exactly if all processes have equally many packets, 1 exactly if one has none.", "quantifier": "all numbers of processes and of packets on each, and all monotone roundings in which 0 and 1 are exact", "why_tests_cant": "The value is only printed; no test has processes without packets.", "anchors": ["core/main.c:180-184", "core/diag.c:283", "core/diag.c:476-486", "core/mpi.c:588-604"]}
