{"id": "C01", "title": "Runs limited by iteration count do exactly the requested number of steps", "statement": "With params.time_stepping.USE_T_END False and no stop request, sim.time_stepping.start() performs exactly max(0, it_end - it_start) time steps, and returns with it = max(it_start, it_end) and t = t_start + the sum of the time steps used.", "quantifier": "every starting (it, t), every it_end, every sequence of time steps and states the solver produces", "why_tests_cant": "A test runs one or two steps with one dt; the claim is about loops of any length and any dt history, including restarts with it_start > it_end.", "anchors": ["fluidsim/base/time_stepping/base.py: TimeSteppingBase0.main_loop, start, one_time_step"]}
{"id": "C02", "title": "Runs limited by end time stop at the first step that reaches it", "statement": "With USE_T_END True and no stop request, whenever start() returns t >= t_end; if at least one step was done the time before the last step was < t_end (the overshoot is smaller than the last step); no step is done when t_start >= t_end. If every step is at least some d > 0 then start() returns after at most ceil((t_end - t_start)/d) steps.", "quantifier": "every start time, end time and sequence of positive time steps", "why_tests_cant": "Depends on the whole (unbounded) history of adaptive time steps.", "anchors": ["fluidsim/base/time_stepping/base.py: TimeSteppingBase0.main_loop, one_time_step"]}
{"id": "C03", "title": "A stop request lets the current step finish and no other one start", "statement": "When SIGUSR2/SIGTERM arrives or max_elapsed is exceeded, the run never abandons a step half way: the step during which the request is noticed is completed (state advanced, t += deltat, it += 1) and no further step is started; without a request no step is skipped.", "quantifier": "every moment at which the signal may arrive (before, between or inside any step) and every clock reading sequence", "why_tests_cant": "Signals and clocks are asynchronous; a test can exercise only a few interleavings.", "anchors": ["fluidsim/base/time_stepping/base.py: one_time_step, main_loop, TimeSteppingBase0.__init__ (handler_signals)", "fluidsim/base/solvers/base.py: SimulBase handlers"]}
{"id": "C04", "title": "The reported name of the stop signal is the signal received", "statement": "The message printed when a run is stopped by a signal names the signal that was received.", "quantifier": "every signal for which the code installs a handler", "why_tests_cant": "Tests do not read the message for every signal and handler combination.", "anchors": ["fluidsim/base/time_stepping/base.py: one_time_step, handler_signals", "fluidsim/base/solvers/base.py: SIGTERM handler"]}
{"id": "C05", "title": "Forcing and outputs always see the time and iteration of the current state", "statement": "At each step the time step, the forcing and then the outputs are computed for the state before the step with t = t_start + sum of all previous steps and it = it_start + number of previous steps; t and it are incremented once per step, after the state.", "quantifier": "every step of every run", "why_tests_cant": "Ordering and bookkeeping over unbounded histories.", "anchors": ["fluidsim/base/time_stepping/base.py: one_time_step"]}
{"id": "C06", "title": "The adaptive time step respects the CFL and maximum limits up to 2 %", "statement": "After each adaptive update the time step used is positive and at most 1.02*min(CFL/(max local frequency), deltat_max); the time step is left unchanged exactly when the limit moved by at most 2 % relative to the new limit.", "quantifier": "every history of velocity maxima (including zero), every previous time step", "why_tests_cant": "Hysteresis: the value depends on the complete history.", "anchors": ["fluidsim/base/time_stepping/base.py: _compute_time_increment_CLF_from_tmp and callers"]}
{"id": "C07", "title": "The time step never exceeds params.time_stepping.deltat_max", "statement": "With adaptive time stepping the time step never exceeds deltat_max.", "quantifier": "every history of velocity maxima and parameter changes", "why_tests_cant": "The 2 % hysteresis only shows for particular histories.", "anchors": ["fluidsim/base/time_stepping/base.py: _compute_time_increment_CLF_from_tmp, _init_compute_time_step"]}
{"id": "C08", "title": "Solvers with waves keep the time step below the wave limit", "statement": "For a pseudo-spectral solver that defines the complex (wave) frequencies, the automatically computed limit 0.78*pi/max frequency is enforced on the time step.", "quantifier": "every solver frequency and every deltat_max given by the user", "why_tests_cant": "Needs the order of all initialisation effects for arbitrary parameter values.", "anchors": ["fluidsim/base/time_stepping/pseudo_spect.py: init_from_params, _init_freq_lin", "fluidsim/base/time_stepping/base.py: _init_compute_time_step"]}
{"id": "C09", "title": "All MPI processes advance with the same time step", "statement": "With several processes and adaptive time stepping all processes hold the same deltat after every step, whatever the local maxima are.", "quantifier": "every number of processes and every history of local maxima", "why_tests_cant": "Quantifies over process counts and schedules.", "anchors": ["fluidsim/base/time_stepping/base.py: compute_time_increment_CLF_*, max_abs"]}
{"id": "C10", "title": "The linear (diffusion) factors always belong to the time step in use", "statement": "In every step the exponential factors used are exp(-f*dt) and exp(-f*dt/2) for the dt of this very step, even when dt changes at each step or returns to an earlier value.", "quantifier": "every history of time steps", "why_tests_cant": "Cache coherence over histories.", "anchors": ["fluidsim/base/time_stepping/simple.py: ExactLinearCoefs"]}
{"id": "C11", "title": "Each time scheme computes its documented formula despite buffer reuse", "statement": "For Euler, RK2, RK2_trapezoid and RK4 (and the phase-shifted Euler/RK2 variants) the new state equals the documented integrating-factor formula of the old state, for any nonlinear term, although temporary arrays are shared and overwritten in place.", "quantifier": "every nonlinear term, linear operator, time step and state", "why_tests_cant": "In-place aliasing errors only show for particular nonlinear terms; the claim is an identity for all of them.", "anchors": ["fluidsim/base/time_stepping/pseudo_spect.py: _time_step_Euler, _time_step_RK2, _time_step_RK2_trapezoid, _time_step_RK4, step_Euler, step_like_RK2", "fluidsim/base/time_stepping/simple.py"]}
{"id": "C12", "title": "The linear terms are integrated exactly and never amplify", "statement": "When the nonlinear term vanishes every scheme multiplies each mode by exactly exp(-f*dt); n steps of sizes dt_i give exp(-f*sum dt_i); with f >= 0 no mode amplitude grows.", "quantifier": "every n, every sequence of time steps, every frequency", "why_tests_cant": "Unbounded number of steps.", "anchors": ["fluidsim/base/time_stepping/pseudo_spect.py: all _time_step_* methods", "fluidsim/base/time_stepping/simple.py: ExactLinearCoefs", "fluidsim/base/solvers/pseudo_spect.py: compute_freq_diss"]}
{"id": "C13", "title": "The schemes have the claimed order on linear problems", "statement": "On dy/dt = lambda*y with no exactly-integrated part one RK4 step multiplies y by the Taylor polynomial of exp(lambda*dt) of degree 4, RK2 and RK2_trapezoid by that of degree 2, Euler by that of degree 1, so the local error is at most C*dt^(p+1).", "quantifier": "every lambda, dt and y", "why_tests_cant": "An identity over the reals.", "anchors": ["fluidsim/base/time_stepping/pseudo_spect.py: _time_step_RK4, _time_step_RK2, _time_step_RK2_trapezoid, _time_step_Euler", "fluidsim/base/time_stepping/simple.py"]}
{"id": "C14", "title": "The implicit finite-difference step conserves the norm for advection", "statement": "The finite-difference time step with an antisymmetric linear operator and no other tendency preserves the sum of squares exactly, for any time step; with a dissipative operator the sum of squares cannot increase.", "quantifier": "every size, every antisymmetric or dissipative matrix, every time step and state", "why_tests_cant": "For all matrices and sizes.", "anchors": ["fluidsim/base/time_stepping/finite_diff.py: TimeSteppingFiniteDiffCrankNicolson"]}
{"id": "C15", "title": "Phase-shifted evaluations cancel aliasing errors that fold in one direction", "statement": "Averaging the quadratic term computed on two grids shifted by alpha and beta (|alpha-beta| = 1/2 in every direction) removes exactly all contributions whose aliased wavenumber folds in an odd number of directions and keeps unaliased ones unchanged.", "quantifier": "every pair of fields, every resolution, every shift alpha", "why_tests_cant": "An identity over all fields and resolutions.", "anchors": ["fluidsim/base/time_stepping/pseudo_spect.py: _time_step_RK2_phaseshift*, mean_with_phaseshift", "fluidsim/operators/operators2d.py: get_phases_random", "fluidsim/operators/operators3d.py: get_phases_random"]}
{"id": "C16", "title": "Random phase pairs differ by half a grid step and stay within half a grid step", "statement": "Every pair (alpha, beta) of random shifts returned for phase-shifting satisfies |alpha - beta| = 1/2 and both lie in [-1/2, 1/2] in each direction.", "quantifier": "every value of the random generator", "why_tests_cant": "Random input.", "anchors": ["fluidsim/operators/operators1d.py: get_phases_random", "fluidsim/operators/operators2d.py: get_phases_random", "fluidsim/operators/operators3d.py: get_phases_random"]}
{"id": "C17", "title": "The 2/3 rule leaves no aliased contribution in the kept modes", "statement": "When the field and the tendencies are truncated with coef_dealiasing <= 2/3, no product of two kept modes is aliased onto a kept mode.", "quantifier": "every resolution and every pair of kept modes", "why_tests_cant": "All resolutions (the boundary case depends on divisibility by 3).", "anchors": ["fluidsim/operators/operators1d.py: OperatorsPseudoSpectral1D.__init__", "fluidsim/operators/base.py: _reinit_truncation"]}
{"id": "C18", "title": "Truncation no_multiple_aliases removes all multiply aliased contributions", "statement": "With truncation_shape='no_multiple_aliases' no product of two kept modes is aliased in two or more directions at once onto a kept mode.", "quantifier": "every resolution, every coef_dealiasing, every pair of kept modes", "why_tests_cant": "A counterexample needs particular wavevectors; absence needs all of them.", "anchors": ["fluidsim/operators/base.py: _reinit_truncation", "fluidsim/operators/operators2d.py: get_region_multiple_aliases", "fluidsim/operators/operators3d.py: get_region_multiple_aliases"]}
{"id": "C19", "title": "Phase-shifting with random pairs alternates the two shifts of a pair", "statement": "For the schemes *_phaseshift_random each pair of phases is used in the two orders before it is replaced (with the default parameters), and at each step the two phases returned form one of the current pairs.", "quantifier": "every number of steps, every nb_pairs/nb_steps_compute_new_pair, every random draw", "why_tests_cant": "History dependent, in-place renewal of arrays.", "anchors": ["fluidsim/base/time_stepping/pseudo_spect.py: _init_phaseshift_random, _get_phaseshift_random"]}
{"id": "C20", "title": "Computed variables returned by the state are never out of date", "statement": "sim.state.get_var(key) returns the value computed from the current state, whatever sequence of steps, reads and assignments was done before.", "quantifier": "every history of time steps, get_var, clear_computed and assignments", "why_tests_cant": "Cache invalidation over all histories.", "anchors": ["fluidsim/base/state.py: StateBase.get_var, compute, clear_computed, __setitem__", "fluidsim/base/state.py: StatePseudoSpectral"]}
{"id": "C21", "title": "Initialising the state from some variables zeroes all the others", "statement": "state.init_statephys_from(**kw)/init_statespect_from(**kw) leaves exactly the given variables set and every other state variable zero, and rejects an unknown name with ValueError.", "quantifier": "every set of keys and values, every previous state", "why_tests_cant": "All subsets of keys.", "anchors": ["fluidsim/base/state.py: init_statephys_from, init_statespect_from"]}
{"id": "C22", "title": "Periodic outputs are neither missed nor doubled", "statement": "For an output saved every period: two successive saves are at least (elapsed-time outputs) or in different period slots (slot outputs) apart, and if every step is shorter than d the next save happens at most period + d after the previous one; each slot is saved at most once.", "quantifier": "every sequence of time steps and every period", "why_tests_cant": "Unbounded step histories, floor arithmetic.", "anchors": ["fluidsim/base/output/base.py: SpecificOutput._online_save, _has_to_online_save", "fluidsim/base/output/spatial_means.py: SpatialMeansBase.__call__", "fluidsim/base/output/print_stdout.py: _online_print"]}
{"id": "C23", "title": "Output files keep one record of every variable per saved time", "statement": "After any number of saves and restarts, the time axis of an output file and every saved variable have the same length and record i of each variable was computed at times[i]; times are non-decreasing.", "quantifier": "every history of saves and restarts", "why_tests_cant": "Histories.", "anchors": ["fluidsim/base/output/base.py: SpecificOutput._init_files, _create_file_from_dict_arrays, _add_dict_arrays_to_file"]}
{"id": "C24", "title": "A crash while saving leaves the previous records readable", "statement": "If the process dies at any point while a record is being appended, every earlier record of every variable is unchanged, the lengths differ by at most one, and the common prefix is still consistent.", "quantifier": "every crash point inside any save of any history", "why_tests_cant": "Crash points.", "anchors": ["fluidsim/base/output/base.py: SpecificOutput._add_dict_arrays_to_file"]}
{"id": "C25", "title": "A saved state file is never overwritten by a different state", "statement": "Saving the state twice at the same (rounded) time either does nothing (same iteration) or writes another file; no save ever replaces a file holding another iteration.", "quantifier": "every history of saves, times and iterations", "why_tests_cant": "Name collisions appear only for particular rounding.", "anchors": ["fluidsim/base/output/phys_fields.py: PhysFieldsBase.save"]}
{"id": "C26", "title": "The final state is always on disk after the run", "statement": "If state saving is enabled, after the end of the simulation a file with the state at the final time exists.", "quantifier": "every sequence of steps and saves", "why_tests_cant": "Histories.", "anchors": ["fluidsim/base/output/base.py: end_of_simul", "fluidsim/base/output/phys_fields.py: _online_save, save"]}
{"id": "C27", "title": "Looking up a state file by approximate time returns a closest one", "statement": "The file chosen for t_approx has a time at minimal distance from t_approx among all files of the directory, and 'last' gives a file of maximal time.", "quantifier": "every non-empty set of files and every t_approx", "why_tests_cant": "All sets of files.", "anchors": ["fluidsim/util/util.py: name_file_from_time_approx", "lib/fluidsim_core/output/phys_fields.py: get_closest_time_file"]}
{"id": "C28", "title": "Without a time the lexicographically last state file is the latest one", "statement": "With no approximate time given, the file loaded is the one with the largest time.", "quantifier": "every set of state files a run can produce", "why_tests_cant": "Depends on the widths of all file names ever produced.", "anchors": ["fluidsim/util/util.py: name_file_from_time_approx", "fluidsim/base/output/phys_fields.py: save"]}
{"id": "C29", "title": "Fields interpolated in time are the linear interpolation of the saved ones", "statement": "For a time between the first and last saved times the field returned is the linear interpolation between the two bracketing files (exact at file times); it is a weighted mean with weights summing to one for any requested time.", "quantifier": "every increasing list of file times and every requested time", "why_tests_cant": "All lists and times, including out-of-range times.", "anchors": ["lib/fluidsim_core/output/phys_fields.py: SetOfPhysFieldFilesBase.get_field_to_plot"]}
{"id": "C30", "title": "Each run gets its own new result directory", "statement": "The directory chosen for a new run did not exist before, whatever directories exist, and moving a finished run never replaces an existing directory.", "quantifier": "every set of existing directories", "why_tests_cant": "All sets of existing names.", "anchors": ["lib/fluidsim_core/output/base.py: OutputCore._init_path_run", "fluidsim/base/output/base.py: end_of_simul"]}
{"id": "C31", "title": "The forcing is computed once per simulation time", "statement": "However many times outputs or the user ask for the forcing to be computed, it is recomputed only when the simulation time is larger than at the last computation; repeated calls at the same time do not consume random numbers.", "quantifier": "every interleaving of compute calls and steps", "why_tests_cant": "Interleavings.", "anchors": ["fluidsim/base/forcing/base.py: ForcingBase.compute"]}
{"id": "C32", "title": "Normalized forcing injects exactly the requested rate", "statement": "For a nonzero raw forcing the normalisation coefficient R solves dt*<f,f>*R^2/2 + <f,u>*R = P, so that a forward step with the forcing R*f increases the energy by exactly P*dt; real roots exist for every P >= 0 and the selected root is the documented one.", "quantifier": "every state, raw forcing, dt and rate P >= 0, every choice of root", "why_tests_cant": "Identity for all states.", "anchors": ["fluidsim/base/forcing/specific.py: NormalizedForcing.normalize_forcingc_2nd_degree_eq, coef_normalization_from_abc"]}
{"id": "C33", "title": "Proportional forcing injects exactly the requested rate", "statement": "With proportional forcing a forward step of the forced modes increases the forced quantity by exactly forcing_rate*dt.", "quantifier": "every state with nonzero energy in the forced band, dt > 0, rate >= 0", "why_tests_cant": "Identity for all states.", "anchors": ["fluidsim/base/forcing/specific.py: Proportional.forcingc_from_state / compute"]}
{"id": "C34", "title": "Time-correlated random forcing continues identically after a restart", "statement": "A run restarted from the forcing state file at any time produces at every later time the same forcing as the uninterrupted run.", "quantifier": "every random generator, every restart time, every history of seeds", "why_tests_cant": "Crash/restart points and random generator state.", "anchors": ["fluidsim/base/forcing/specific.py: TimeCorrelatedRandomPseudoSpectral"]}
{"id": "C35", "title": "Time-correlated random forcing is a continuous blend of successive random fields", "statement": "Between two changes the forcing moves from the old to the new random field: it equals the old one at the change time and the new one a period later and is a convex combination in between.", "quantifier": "every time and every pair of random fields", "why_tests_cant": "Continuum of times.", "anchors": ["fluidsim/base/forcing/specific.py: TimeCorrelatedRandomPseudoSpectral.forcingc_raw_each_time, compute_forcingc_raw"]}
{"id": "C36", "title": "Dealiasing zeroes exactly the masked modes", "statement": "After dealiasing, every masked mode of every variable is 0 and every other mode is unchanged; repeating it changes nothing; the looped and vectorised versions agree.", "quantifier": "every array shape, mask and set of variables", "why_tests_cant": "All shapes and masks.", "anchors": ["fluidsim/operators/operators2d.py: dealiasing_setofvar, dealiasing_variable", "fluidsim/operators/operators3d.py: dealiasing_setofvar, dealiasing_variable, dealiasing_setofvar_numpy"]}
{"id": "C37", "title": "Projection onto real fields gives Hermitian-symmetric spectra", "statement": "project_fft_on_realX_seq makes the kx=0 and kx=max columns Hermitian symmetric, leaves already symmetric arrays unchanged and is idempotent.", "quantifier": "every array and every even/odd ny", "why_tests_cant": "All shapes.", "anchors": ["fluidsim/operators/operators2d.py: project_fft_on_realX_seq"]}
{"id": "C38", "title": "Coarse forcing arrays are placed on the right wavenumbers and read back unchanged", "statement": "put_coarse_array_in_array_fft stores each coarse coefficient at the same wavenumber of the fine grid and nothing else, coarse_seq_from_fft_loc reads back exactly these coefficients, and arrays with nonzero Nyquist modes are rejected.", "quantifier": "every pair of resolutions with coarse <= fine, every array", "why_tests_cant": "All sizes and arrays.", "anchors": ["fluidsim/operators/operators2d.py: put_coarse_array_in_array_fft, coarse_seq_from_fft_loc", "fluidsim/operators/operators3d.py: put_coarse_array_in_array_fft, coarse_seq_from_fft_loc, _ik_from_ikc"]}
{"id": "C39", "title": "Changing the resolution of a state keeps the coefficients of all common wavenumbers", "statement": "After changing the resolution (fill_field_fft_2d, fill_field_fft_3d) every wavenumber present in both grids (Nyquist excluded) keeps its coefficient and every other coefficient of the new grid is zero.", "quantifier": "every pair of resolutions and every field", "why_tests_cant": "All pairs of (odd, even, larger, smaller) sizes.", "anchors": ["fluidsim/base/init_fields.py: fill_field_fft_2d, fill_field_fft_3d", "fluidsim/util/mini_oper_modif_resol.py: fill_field_fft_3d"]}
{"id": "C40", "title": "Mode indices and wavenumbers correspond one to one", "statement": "For every axis size the map from array index to signed wavenumber and back are inverse of each other, for every supported array layout, and every index lies in the array.", "quantifier": "every axis size, index, layout", "why_tests_cant": "All sizes.", "anchors": ["fluidsim/operators/operators3d.py: _kadim_from_ik, _ik_from_kadim, i012_from_ixyz, ixyz_from_i012, kadim_from_ik012rank, ik012rank_from_kadim"]}
{"id": "C41", "title": "Each wavenumber is owned by exactly one process", "statement": "where_is_wavenumber returns a process and local indices inside its local array, whose global position is the requested wavenumber, for every distribution of rows over processes.", "quantifier": "every number of processes, every (possibly uneven) distribution", "why_tests_cant": "All process counts and distributions.", "anchors": ["fluidsim/operators/operators2d.py: where_is_wavenumber", "fluidsim/operators/operators3d.py: where_is_wavenumber"]}
{"id": "C42", "title": "Velocity decompositions are exact orthogonal projections", "statement": "For each wavevector the perpendicular, poloidal, toroidal and radial projections are idempotent and orthogonal, the projected field is divergence free, poloidal + toroidal + radial parts give back the vector, and vp/vt and rotz/divh round trips are exact (zero horizontal wavenumber treated as documented).", "quantifier": "every wavevector and complex vector", "why_tests_cant": "Identity for all vectors.", "anchors": ["fluidsim/operators/operators3d.py: project_kradial3d, project_poloidal, project_toroidal, vpfft_from_vecfft, vecfft_from_vpfft, vtfft_from_vecfft, vecfft_from_vtfft, vxvyfft_from_rotzfft, vxvyfft_from_divhfft, urudfft_from_vxvyfft"]}
{"id": "C43", "title": "Laplacian and inverse Laplacian undo each other on nonzero modes", "statement": "invlaplacian(laplacian(f)) = f for every nonzero wavenumber and the mean mode is set to zero, for every even order.", "quantifier": "every order, array and wavenumber", "why_tests_cant": "All arrays and orders.", "anchors": ["fluidsim/operators/operators2d.py: laplacian_fft, invlaplacian_fft, laplacian2_fft, invlaplacian2_fft"]}
{"id": "C44", "title": "Merging parameters keeps the user's values and adds the missing ones", "statement": "params |= other keeps every existing value, adds every missing attribute and child of other (recursively) and nothing else; merging twice is the same as once.", "quantifier": "every pair of nested parameter containers", "why_tests_cant": "All trees.", "anchors": ["lib/fluidsim_core/params.py: Parameters.__ior__", "fluidsim/base/params.py: merge_params"]}
{"id": "C45", "title": "Extending a solver class does not change the original class", "statement": "extend_simul_class(Simul, extension) returns a new class whose solver information includes the extension and leaves the original class (and other classes extended from it) unchanged.", "quantifier": "every sequence of extensions", "why_tests_cant": "Sequences of extensions sharing state.", "anchors": ["lib/fluidsim_core/extend_simul.py: extend_simul_class"]}
{"id": "C46", "title": "A running simulation's lock is removed only by its owner", "statement": "The lock file of a run directory exists from initialisation until the end of the run that created it; ending (normally, by exception or by signal, possibly repeatedly) a simulation never removes the lock of another one.", "quantifier": "every interleaving of starts, ends and signals of processes using the directory", "why_tests_cant": "Interleavings of processes.", "anchors": ["fluidsim/base/solvers/base.py: SimulBase.__init__, __enter__, __exit__, release_lock"]}
{"id": "C47", "title": "Files that are temporarily locked are opened as soon as possible within the waiting time", "statement": "open_patient returns the opened file if the resource becomes available before the total waiting time, retries only on the 'temporarily unavailable' error, propagates any other error at once, and stops after the total waiting time.", "quantifier": "every sequence of open outcomes", "why_tests_cant": "All failure sequences.", "anchors": ["fluidsim/util/util.py: open_patient"]}
{"id": "C48", "title": "fluidsim-restart --it_end N restarts with it_end = N", "statement": "The command line options of fluidsim-restart set t_end and it_end to the given values (or add to them for the add-to options) and a run that has nothing to compute is refused.", "quantifier": "every combination of options and stored parameters", "why_tests_cant": "All option combinations.", "anchors": ["fluidsim/util/scripts/restart.py: Restarter._set_params_time_stepping, _check_params_time_stepping", "lib/fluidsim_core/scripts/restart.py: RestarterABC.restart"]}
{"id": "C49", "title": "Finite-difference derivatives are periodic centred differences with the right mesh sizes", "statement": "px, py, pxx, pyy of the periodic finite-difference operators are the second-order centred differences with the mesh size of their own direction, have zero mean, and px/py are antisymmetric.", "quantifier": "every grid size, domain size and array", "why_tests_cant": "All sizes and aspect ratios.", "anchors": ["fluidsim/operators/op_finitediff1d.py", "fluidsim/operators/op_finitediff2d.py"]}
{"id": "C50", "title": "The 0D models keep their invariants and steady states", "statement": "The predator-prey tendencies conserve the printed potential and vanish at (Xs, Ys); the Lorenz tendencies vanish at the announced steady states and contract volumes at the constant rate sigma + 1 + beta.", "quantifier": "every parameter value and state", "why_tests_cant": "Identity for all states.", "anchors": ["fluidsim/solvers/models0d/predaprey/solver.py", "fluidsim/solvers/models0d/predaprey/output/__init__.py: compute_potential", "fluidsim/solvers/models0d/lorenz/solver.py"]}
{"id": "C51", "title": "Moving objects of the milestone forcing follow a continuous periodic motion", "statement": "For the periodic_uniform movement the object location is a continuous periodic function of time staying within length/2 of the centre, its derivative is the reported speed and the speed never exceeds the given one.", "quantifier": "every time, speed (both signs), length and length_acc", "why_tests_cant": "Continuum of times and parameters.", "anchors": ["fluidsim/base/forcing/milestone.py: PeriodicUniform"]}
{"id": "C52", "title": "The 2D Navier-Stokes nonlinear term conserves energy and enstrophy", "statement": "For dealiased fields the nonlinear tendency of ns2d transfers neither total energy nor total enstrophy and keeps the mean vorticity.", "quantifier": "every vorticity field and resolution", "why_tests_cant": "Identity for all fields.", "anchors": ["fluidsim/solvers/ns2d/solver.py: tendencies_nonlin, compute_Frot"]}
{"id": "C53", "title": "The last saved time of the spatial means is found", "statement": "time_last_saved returns the time of the last record of the spatial means file.", "quantifier": "every file content the solvers can write", "why_tests_cant": "Depends on record sizes (only the last 1000 bytes are read).", "anchors": ["fluidsim/base/output/spatial_means.py: SpatialMeansBase.time_last_saved, SpatialMeansJSON.time_last_saved"]}
{"id": "C54", "title": "The dissipation frequency is non-negative and the sum of the enabled terms", "statement": "The frequency used for the exact linear part is the sum of nu_{2n} k^{2n} over the enabled viscosities and is non-negative for non-negative viscosities.", "quantifier": "every combination of viscosities and wavenumbers", "why_tests_cant": "All parameter combinations.", "anchors": ["fluidsim/base/solvers/pseudo_spect.py: SimulBasePseudoSpectral.compute_freq_diss"]}
{"id": "C55", "title": "Restart parameters point to the chosen file and directory", "statement": "load_for_restart returns parameters that load exactly the chosen state file and keep writing in the same directory (no new directory), preserving all other user parameters.", "quantifier": "every stored parameter set and every set of files", "why_tests_cant": "All parameter sets.", "anchors": ["fluidsim/util/util.py: load_for_restart"]}
{"id": "C56", "title": "The time step is limited for an advection speed of either sign", "statement": "For solvers with a constant advection speed params.U, the adaptive time step satisfies dt*|U|/dx <= 1.02*CFL whatever the sign of U.", "quantifier": "every speed of either sign, every previous time step", "why_tests_cant": "Tests use one positive speed.", "anchors": ["fluidsim/base/time_stepping/base.py: _compute_time_increment_CLF_U, _compute_time_increment_CLF_from_tmp"]}
{"id": "C57", "title": "The adaptive time step does not depend on the number of processes", "statement": "For the same fields, the adaptive time step is the same however the grid points are distributed over the processes.", "quantifier": "every field and every distribution of the grid points", "why_tests_cant": "Quantifies over distributions; the parallel tests compare a few integral quantities with one distribution.", "anchors": ["fluidsim/base/time_stepping/base.py: _compute_time_increment_CLF_uxuy, _compute_time_increment_CLF_from_tmp, max_abs"]}
{"id": "C58", "title": "The tendencies do not depend on the array they are written in", "statement": "tendencies_nonlin(state, old=array) gives the tendencies of the state for every output array, including old=state (as the RK2_phaseshift_random and RK2_phaseshift_exact schemes do), without modifying the state otherwise nor the physical state.", "quantifier": "every content of the arrays, every solver of the list, every choice of state and output arguments", "why_tests_cant": "Aliasing errors depend on which buffers are shared by caller and callee; a test compares two numbers for one flow.", "anchors": ["fluidsim/solvers/ns2d/solver.py: tendencies_nonlin", "fluidsim/solvers/ns3d/solver.py: tendencies_nonlin", "fluidsim/solvers/ns3d/strat/solver.py: tendencies_nonlin", "fluidsim/solvers/plate2d/solver.py: tendencies_nonlin", "fluidsim/solvers/sw1l/solver.py: tendencies_nonlin", "fluidsim/base/time_stepping/pseudo_spect.py: _time_step_RK2_phaseshift_random"]}
{"id": "C59", "title": "The tendencies of a given state depend on this state only", "statement": "When a state is given to tendencies_nonlin, the result is a function of this state: neither the current state of the simulation nor earlier contents of temporary arrays matter (needed by all multi-stage schemes).", "quantifier": "every state given, every state of the simulation", "why_tests_cant": "The intermediate stages of a Runge-Kutta step are never observed by tests; the wrong value is close to the right one for small steps.", "anchors": ["fluidsim/solvers/sw1l/exactlin/modified/solver.py: tendencies_nonlin", "fluidsim/solvers/sw1l/onlywaves/solver.py: tendencies_nonlin", "fluidsim/solvers/ns2d/solver.py: tendencies_nonlin"]}
{"id": "C60", "title": "The forcing enters each time step unchanged", "statement": "Without dissipation and nonlinear term, one step of size dt adds dt*F to each mode for every time scheme.", "quantifier": "every forcing, phase, time step and scheme", "why_tests_cant": "With phase shifts the error is a wavenumber dependent factor close to 1 at the forced scales.", "anchors": ["fluidsim/base/time_stepping/pseudo_spect.py: _time_step_Euler_phaseshift, _time_step_RK2_phaseshift, _time_step_RK2_phaseshift_random, _time_step_RK2_phaseshift_exact"]}
{"id": "C61", "title": "The Smagorinsky model is the documented one and takes energy from the flow", "statement": "SmagorinskyModel.get_forcing returns the transform of d_j(2 nu_T S_ij) with nu_T = C Delta^2 sqrt(2 S_ij S_ij), and its work on the velocity is never positive.", "quantifier": "every velocity field", "why_tests_cant": "An identity between functions of the whole field.", "anchors": ["fluidsim/base/turb_model/smagorinsky.py: SmagorinskyModel.get_forcing", "fluidsim/base/turb_model/stress_tensor.py: StressTensorComputer3D"]}
{"id": "C62", "title": "The RK2 scheme of the finite-difference solvers is the documented two-stage scheme", "statement": "One step of the RK2 scheme of the finite-difference time stepping class gives the state of the documented scheme: a half step to an intermediate state, then a full step with the tendency of this intermediate state (second order).", "quantifier": "every linear operator, tendency function, time step and state", "why_tests_cant": "The only finite-difference solvers of the test suite have state-independent explicit tendencies, for which both schemes agree.", "anchors": ["fluidsim/base/time_stepping/finite_diff.py: _time_step_RK2"]}
{"id": "C63", "title": "A computed variable is what its name says", "statement": "For every solver, the vorticity, divergence, potential vorticity, momentum, poloidal and toroidal velocities, wave modes, stress function... returned by state.get_var are those of the velocity (and surface displacement, buoyancy, deformation) returned by state.get_var, and each name declared in keys_computable can be obtained.", "quantifier": "every state, every solver with a method compute", "why_tests_cant": "A wrong branch of compute gives a plausible field; tests read a few of the names.", "anchors": ["fluidsim/solvers/ns2d/state.py: compute", "fluidsim/solvers/ns2d/strat/state.py: compute", "fluidsim/solvers/ns2d/bouss/state.py: compute", "fluidsim/solvers/ns3d/state.py: compute", "fluidsim/solvers/plate2d/state.py: compute", "fluidsim/solvers/sw1l/state.py: compute", "fluidsim/solvers/sw1l/modified/state.py: compute", "fluidsim/solvers/sw1l/exactlin/state.py: compute", "fluidsim/solvers/sw1l/onlywaves/state.py: compute"]}
{"id": "C64", "title": "The kzkh spectra are saved once every kzkh_periodicity saves of the spectra", "statement": "With params.output.spectra.kzkh_periodicity = p > 0, spectra_kzkh.h5 contains exactly the spectra computed at the times number 0, p, 2p, ... of spectra1d.h5; with p = 0 nothing is saved.", "quantifier": "every number of saves and restarts, every p", "why_tests_cant": "Needs a restart at particular record numbers.", "anchors": ["fluidsim/base/output/spectra3d.py: Spectra._init_files, has_to_save_kzkh, _online_save"]}
{"id": "C65", "title": "The frequency axis of the frequency correlations is the one of the samples", "statement": "The frequencies saved in correl_freq.h5 are those of a discrete Fourier transform with the interval between the samples actually taken.", "quantifier": "every period and number of steps", "why_tests_cant": "The file always looks consistent; only the interval between samples tells.", "anchors": ["fluidsim/solvers/plate2d/output/correlations_freq.py: CorrelationsFreq.__init__, _init_files2, _online_save"]}
{"id": "C66", "title": "The files of the probes contain each saved record once", "statement": "Loading the files temporal_spectra/rank*_tmin*.h5 (or spatiotemporal/rank*_tmin*.h5) gives the records saved by the run and its restarts: each exactly once, in the order of time, with no other record.", "quantifier": "every history of saves, period, maximal number of records per file, with and without restart", "why_tests_cant": "Depends on file size limits, the period compared with the decimals of the file names, and where the run was interrupted.", "anchors": ["fluidsim/base/output/temporal_spectra.py: _init_files, _init_new_file, _write_to_file, _online_save", "fluidsim/base/output/spatiotemporal_spectra.py: _init_files, _init_new_file, _write_to_file, _online_save, load_time_series"]}
{"id": "C67", "title": "Loading the spatial means gives back what was written", "statement": "spatial_means.load() returns, for each record of the file and each quantity, the printed value of this quantity; a record which is not completely written is ignored.", "quantifier": "every list of records, solver (ns2d, ns2d.strat, ns3d, ns3d.strat, plate2d), combination of forcing and viscosities, with restarts and incomplete last records", "why_tests_cant": "The text is parsed by line prefixes and word numbers; a wrong label or index gives plausible numbers.", "anchors": ["fluidsim/solvers/ns2d/output/spatial_means.py: _save_one_time, load", "fluidsim/solvers/ns2d/strat/output/spatial_means.py: _save_one_time, load", "fluidsim/solvers/ns3d/output/spatial_means.py: _save_one_time, load", "fluidsim/solvers/ns3d/strat/output/spatial_means.py: _save_one_time, load", "fluidsim/solvers/plate2d/output/spatial_means.py: _save_one_time, load", "fluidsim/base/output/spatial_means.py: _get_nb_points_from_lines"]}
{"id": "C68", "title": "The first saved time of the spatial means is found", "statement": "time_first_saved returns the time of the first record of the spatial means file, or raises an exception if there is none.", "quantifier": "every file content the solvers can write", "why_tests_cant": "Tests use files with records.", "anchors": ["fluidsim/base/output/spatial_means.py: SpatialMeansBase.time_first_saved, SpatialMeansJSON.time_first_saved"]}
{"id": "C69", "title": "update_times gives the times of the files of the directory", "statement": "After set_of_phys_files.update_times(), path_files are the state files of the directory in the order of their names and times are the times printed in these names.", "quantifier": "every content of the directory before and after", "why_tests_cant": "Tests only add files.", "anchors": ["lib/fluidsim_core/output/phys_fields.py: SetOfPhysFieldFilesBase.update_times", "fluidsim/base/output/phys_fields.py: time_from_path"]}
{"id": "C70", "title": "An unknown normalisation of the forcing is rejected", "statement": "With params.forcing.normalized.type different from \"2nd_degree_eq\" and \"particular_k\" the computation of the forcing raises an exception.", "quantifier": "every value of the parameter and every raw forcing", "why_tests_cant": "Tests only use the two valid types; a misspelled type silently applies the raw forcing.", "anchors": ["fluidsim/base/forcing/specific.py: NormalizedForcing.normalize_forcingc"]}
{"id": "C71", "title": "All the processes agree on the directory of the run", "statement": "After the end of a simulation sim.output.path_run is the same in all the MPI processes and is the directory of the results.", "quantifier": "every interleaving of the processes and every set of existing directories", "why_tests_cant": "Depends on the relative speed of the processes.", "anchors": ["fluidsim/base/output/base.py: Output.end_of_simul"]}
{"id": "C72", "title": "Runs outside of FLUIDSIM_PATH are moved in it", "statement": "At the end of a simulation the directory of the run is moved in FLUIDSIM_PATH if and only if it is not already in it.", "quantifier": "every pair of paths", "why_tests_cant": "Depends on the names of the directories.", "anchors": ["fluidsim/base/output/base.py: Output.end_of_simul"]}
{"id": "C73", "title": "A directory which cannot be created is an error", "statement": "If the directory of a new run cannot be created for another reason than its existence, the creation of the simulation raises an exception.", "quantifier": "every file system behaviour", "why_tests_cant": "A test would not end.", "anchors": ["lib/fluidsim_core/output/base.py: OutputCore._init_path_run"]}
{"id": "C74", "title": "The extensions of a saved simulation are found again", "statement": "Loading a simulation (load_sim_for_plot, load_state_phys_file, load_for_restart) whose class was extended gives a class with the same extensions, in the same order (those which can be imported).", "quantifier": "every list of extensions", "why_tests_cant": "All the names of modules and classes.", "anchors": ["lib/fluidsim_core/extend_simul.py: _extend_simul_class_from_path", "lib/fluidsim_core/info.py: InfoSolverCore.__init__"]}
{"id": "C75", "title": "A simulation writes in an existing directory only if the resolutions are the same", "statement": "With NEW_DIR_RESULTS false and HAS_TO_SAVE the results are written in params.path_run if the numbers of points are those of the directory, in a new directory otherwise; without params.path_run a new directory is created.", "quantifier": "every combination of parameters and every directory", "why_tests_cant": "All the combinations.", "anchors": ["lib/fluidsim_core/output/base.py: OutputCore.__init__"]}
{"id": "C76", "title": "The 1D grids of the operators are those of the fields", "statement": "get_grid1d_seq gives the coordinates i * L / n of the points of the fields, with and without ONLY_COARSE_OPER.", "quantifier": "every length, number of points and axis", "why_tests_cant": "All the numbers of points; the flag is rarely set.", "anchors": ["fluidsim/operators/operators2d.py: OperatorsPseudoSpectral2D.get_grid1d_seq", "fluidsim/operators/operators3d.py: OperatorsPseudoSpectral3D.get_grid1d_seq"]}
{"id": "C77", "title": "The variations printed are since the last print", "statement": "Each print gives the energy (or potential) and its variation since the print before (since the initial state, or 0, for the first print).", "quantifier": "every solver and every history of energies", "why_tests_cant": "Tests only check that a run works.", "anchors": ["fluidsim/solvers/ns3d/output/print_stdout.py", "fluidsim/solvers/ns2d/output/print_stdout.py", "fluidsim/solvers/models0d/predaprey/output/print_stdout.py"]}
{"id": "C78", "title": "The printed remaining durations are read back", "statement": "The number of seconds read by _load_times from a line 'estimated remaining duration' is the number of seconds which was printed.", "quantifier": "every number of seconds (0, less than a day, one day, several days)", "why_tests_cant": "Runs of tests last less than a second.", "anchors": ["fluidsim/base/output/print_stdout.py: _load_times, _evaluate_duration_left"]}
{"id": "C79", "title": "The clock times are recovered from the file stdout.txt", "statement": "_load_times works for every file written by simulations and recovers, for each estimation, the interval of time, the number of time steps, and the clock time spent up to the rounding of the estimation.", "quantifier": "every history of prints, with t_end or it_end, and every number of restarts in the same file", "why_tests_cant": "All histories.", "anchors": ["fluidsim/base/output/print_stdout.py: _load_times, _evaluate_duration_left, _online_print"]}
{"id": "C80", "title": "The first and last times of a run are found", "statement": "times_start_last_from_path returns the time of the first print and the time of the last print (or of the last saved file if this is the last line).", "quantifier": "every file stdout.txt", "why_tests_cant": "All lengths of files; files without print.", "anchors": ["fluidsim/util/util.py: times_start_last_from_path"]}
{"id": "C81", "title": "The milestone forcing pulls the fluid towards the velocity of the objects", "statement": "The field of the solid is above 1/2 in every object and its periodic images in x and decreases away from them; the force never acts against the difference of velocity between the objects and the fluid, vanishes without difference, and inside of an object the difference is divided by 10^gamma in n_dt time steps of deltat_max as announced.", "quantifier": "every point, list of objects, diameter, width, velocity and deltat_max", "why_tests_cant": "Continuum of points and velocities.", "anchors": ["fluidsim/base/forcing/milestone.py: step, get_solid_field, __init__ (sigma), compute"]}
{"id": "C82", "title": "ns2d.strat exchanges kinetic and potential energy and conserves the total", "statement": "Without forcing and viscosity the kinetic energy changes only by the work of the buoyancy, the potential energy by the opposite, the total is constant and so are the means of the vorticity and of the buoyancy.", "quantifier": "every real state, N different from 0, every truncation without aliasing", "why_tests_cant": "Tests evaluate one random state at one resolution with a tolerance.", "anchors": ["fluidsim/solvers/ns2d/strat/solver.py: tendencies_nonlin, tendencies_nonlin_ns2dstrat"]}
{"id": "C83", "title": "ns2d.bouss conserves the variance of the buoyancy", "statement": "The kinetic energy changes only by the work of the buoyancy, the mean and the variance of the buoyancy are constant, and the tendencies are those of ns2d.strat with N = 0.", "quantifier": "every real state, every truncation without aliasing", "why_tests_cant": "Tests evaluate one random state.", "anchors": ["fluidsim/solvers/ns2d/bouss/solver.py: tendencies_nonlin, tendencies_nonlin_ns2dbouss"]}
{"id": "C84", "title": "The parameter beta is taken into account by ns2d.strat", "statement": "With params.beta different from 0 the tendency of the vorticity of ns2d.strat contains - beta u_y as the one of ns2d.", "quantifier": "every state and beta", "why_tests_cant": "No test sets beta with this solver.", "anchors": ["fluidsim/solvers/ns2d/strat/solver.py: tendencies_nonlin, _complete_params_with_default", "fluidsim/solvers/ns2d/strat/output/spect_energy_budget.py"]}
{"id": "C85", "title": "check_energy_conservation detects tendencies which do not conserve the energy", "statement": "The method answers True only if the rate of change of the energy is negligible.", "quantifier": "every state and tendencies", "why_tests_cant": "Only called with conserving tendencies.", "anchors": ["fluidsim/solvers/ns2d/strat/solver.py: check_energy_conservation"]}
{"id": "C86", "title": "ns3d conserves the kinetic energy", "statement": "Without forcing and viscosity the kinetic energy is constant whatever the truncation and the aliasing are, with the three projections, with and without vertical velocity for kz = 0, with and without rotation; the tendencies are compatible with the projection and vanish for the truncated modes.", "quantifier": "every real state compatible with the projection, every list of modes symmetric by k -> -k", "why_tests_cant": "Tests evaluate one random state with tolerance.", "anchors": ["fluidsim/solvers/ns3d/solver.py: tendencies_nonlin, project_state_spect, _init_projection"]}
{"id": "C87", "title": "ns3d conserves the helicity", "statement": "The helicity is constant without forcing and viscosity: whatever the aliasing is without rotation, without aliasing for any rotation.", "quantifier": "every real divergence free state", "why_tests_cant": "Not tested at all.", "anchors": ["fluidsim/solvers/ns3d/solver.py: tendencies_nonlin, _modif_omegafft_with_f"]}
{"id": "C88", "title": "The mean velocity of ns3d is constant in the fixed frame and turns in the rotating frame", "statement": "The tendency of the mean velocity is f v x e_z (zero without rotation).", "quantifier": "every real divergence free state and every f", "why_tests_cant": "Tests do not look at the mean mode.", "anchors": ["fluidsim/solvers/ns3d/solver.py: tendencies_nonlin, _modif_omegafft_with_f"]}
{"id": "C89", "title": "ns3d.strat exchanges kinetic and potential energy and conserves the total", "statement": "The kinetic energy changes only by the work of the buoyancy, the potential energy by the opposite and the total is constant, with the three projections and no_vz_kz0.", "quantifier": "every real state compatible with the projection, every N different from 0 and f", "why_tests_cant": "Tests evaluate one random state.", "anchors": ["fluidsim/solvers/ns3d/strat/solver.py: tendencies_nonlin, compute_fb_fft"]}
{"id": "C90", "title": "ns3d.bouss conserves the mean and the variance of the buoyancy", "statement": "The kinetic energy changes only by the work of the buoyancy; the mean and the variance of the buoyancy are constant.", "quantifier": "every real state compatible with the projection", "why_tests_cant": "Tests evaluate one random state.", "anchors": ["fluidsim/solvers/ns3d/bouss/solver.py: tendencies_nonlin"]}
{"id": "C91", "title": "burgers1d conserves the energy with the 2/3 truncation", "statement": "Without viscosity the rate of change of the energy of burgers1d is zero with the default coef_dealiasing = 2/3.", "quantifier": "every real state and number of points", "why_tests_cant": "Depends on the divisibility of the number of points by 6.", "anchors": ["fluidsim/solvers/burgers1d/solver.py: tendencies_nonlin", "fluidsim/operators/operators1d.py: dealiasing"]}
{"id": "C92", "title": "burgers1d.skew_sym conserves the energy whatever the aliasing is", "statement": "The skew symmetric form conserves the energy without any truncation.", "quantifier": "every real state and number of points", "why_tests_cant": "Tests only check that the simulation runs.", "anchors": ["fluidsim/solvers/burgers1d/skew_sym/solver.py: tendencies_nonlin"]}
{"id": "C93", "title": "nl1d dissipates", "statement": "The rate of change of half the mean square of nl1d is - sigma times the mean over the grid of |s|^3, never positive for sigma >= 0.", "quantifier": "every real state", "why_tests_cant": "Tests only check that the simulation runs.", "anchors": ["fluidsim/solvers/nl1d/solver.py: tendencies_nonlin"]}
{"id": "C94", "title": "waves2d solves its equations", "statement": "The solution computed by waves2d verifies the equations of its documentation and stays real.", "quantifier": "every state, f and c2", "why_tests_cant": "Tests only check that the simulation runs.", "anchors": ["fluidsim/solvers/waves2d/solver.py: compute_freq_complex"]}
{"id": "C95", "title": "ad1d.pseudo_spect translates the field exactly", "statement": "A time step of duration dt translates the (interpolated) field by U dt and keeps it real.", "quantifier": "every state, U, dt and position", "why_tests_cant": "Continuum of positions and durations.", "anchors": ["fluidsim/solvers/ad1d/pseudo_spect/solver.py: compute_freq_complex, tendencies_nonlin"]}
{"id": "C96", "title": "The tendencies are the announced equations", "statement": "For the modes which are kept, the tendencies computed with products on the grid are the exact (Galerkin) terms of the equations: advection, Coriolis, pressure gradient, buoyancy, beta.", "quantifier": "every state of ns2d, ns2d.strat, ns2d.bouss, burgers1d, burgers1d.skew_sym, ns3d, ns3d.strat, ns3d.bouss and every truncation without aliasing", "why_tests_cant": "Tests compare particular states only.", "anchors": ["fluidsim/solvers/ns2d/solver.py: tendencies_nonlin", "fluidsim/solvers/ns3d/solver.py: tendencies_nonlin", "fluidsim/solvers/ns3d/strat/solver.py: tendencies_nonlin", "fluidsim/solvers/ns3d/bouss/solver.py: tendencies_nonlin", "fluidsim/solvers/ns2d/strat/solver.py: tendencies_nonlin", "fluidsim/solvers/ns2d/bouss/solver.py: tendencies_nonlin", "fluidsim/solvers/burgers1d/solver.py: tendencies_nonlin"]}
{"id": "C97", "title": "The rates saved by spatial_means are the budget of the energy", "statement": "With the tendency made of the nonlinear terms, the forcing and the damping, the time derivative of the energy is the injection rate saved (PK1, PA1) minus the dissipation rate saved (epsK_tot, epsA_tot, eps_tot); the same for the enstrophy. The dissipation by each viscosity adds up to epsK.", "quantifier": "every state, forcing, viscosities and truncation without aliasing of ns2d, ns2d.strat, ns3d, ns3d.strat; sw1l and sw1l.modified with any nonlinear tendency", "why_tests_cant": "The tests only check that files are written, or approximate balances of one run.", "anchors": ["fluidsim/solvers/ns2d/output/spatial_means.py: _save_one_time", "fluidsim/solvers/ns2d/strat/output/spatial_means.py: _save_one_time", "fluidsim/solvers/ns3d/output/spatial_means.py: _save_one_time", "fluidsim/solvers/ns3d/strat/output/spatial_means.py: _save_one_time", "fluidsim/solvers/sw1l/output/spatial_means.py"]}
{"id": "C98", "title": "The injection saved is exact over a time step of forcing", "statement": "Adding deltat times the forcing to the state changes the energy by exactly deltat (PX1 + PX2), for the kinetic energy, the enstrophy and the potential energy.", "quantifier": "every state, forcing and deltat of ns2d, ns2d.strat, ns3d, ns3d.strat, sw1l, sw1l.modified", "why_tests_cant": "The tests never compare PK2 with an energy difference.", "anchors": ["fluidsim/solvers/ns2d/output/spatial_means.py: _save_one_time", "fluidsim/solvers/ns2d/strat/output/spatial_means.py: _save_one_time", "fluidsim/solvers/ns3d/output/spatial_means.py: _save_one_time", "fluidsim/solvers/ns3d/strat/output/spatial_means.py: _save_one_time", "fluidsim/solvers/sw1l/output/spatial_means.py: treat_forcing"]}
{"id": "C99", "title": "The totals of the file spatial_means.txt are the sums of its parts", "statement": "The value PX_tot written is the sum of the values PX1 and PX2 written, for X = K, A, Z.", "quantifier": "every state and forcing of the solvers with spatial means", "why_tests_cant": "The tests load the file but do not compare the columns.", "anchors": ["fluidsim/solvers/ns2d/strat/output/spatial_means.py: _save_one_time", "fluidsim/solvers/ns2d/output/spatial_means.py: _save_one_time", "fluidsim/solvers/ns3d/output/spatial_means.py: _save_one_time", "fluidsim/solvers/ns3d/strat/output/spatial_means.py: _save_one_time", "fluidsim/solvers/sw1l/output/spatial_means.py: treat_forcing"]}
{"id": "C100", "title": "The energies saved by spatial_means are the energies of the flow", "statement": "E, EK, EA, Z, E_shear, EKz, EKhr, EKhd, EKhs, EAs are the energies of the velocity, of the buoyancy and of their parts (rotational, divergent, shear modes); for sw1l EK is the mean over the grid of h u^2 / 2; the parts add up to the total.", "quantifier": "every state", "why_tests_cant": "All states and shapes of the grid.", "anchors": ["fluidsim/solvers/ns2d/output/__init__.py: compute_energy_fft", "fluidsim/solvers/ns2d/strat/output/__init__.py: compute_energies_fft", "fluidsim/solvers/ns3d/strat/output/__init__.py: compute_energies_fft", "fluidsim/solvers/sw1l/output/base.py: compute_energies_fft"]}
{"id": "C101", "title": "The tendencies of plate2d are the Foppl-von Karman equations", "statement": "For every mode which is kept, tendencies_nonlin returns F_z = w and F_w = - k^4 z + {z, chi}, where chi is the stress function (Delta^2 chi = - {z, z}, zero mean) and {a, b} the Monge-Ampere bracket, the products being those of the truncated series; for the modes which are removed it returns 0; state.get_var('chi_fft') is the same stress function.", "quantifier": "every state, every shape of the grid", "why_tests_cant": "The default truncation (2/3) is exact for one quadratic product, the bracket {z, chi} is cubic in z: whether it is aliased depends on the modes which are excited.", "anchors": ["fluidsim/solvers/plate2d/solver.py: tendencies_nonlin", "fluidsim/solvers/plate2d/operators.py: monge_ampere_from_fft", "fluidsim/solvers/plate2d/state.py: compute", "fluidsim/operators/operators2d.py: laplacian_fft, invlaplacian_fft"]}
{"id": "C102", "title": "The solver plate2d conserves the energy", "statement": "With the tendencies of plate2d, the forcing of w and the dissipation of w, the rate of change of the value E saved by spatial_means is P1 - epsK_tot (zero without forcing and dissipation).", "quantifier": "every state, forcing, dissipation and truncation", "why_tests_cant": "An energy drift by aliasing is small for the smooth fields used in tests.", "anchors": ["fluidsim/solvers/plate2d/solver.py: tendencies_nonlin, compute_freq_diss", "fluidsim/solvers/plate2d/output/spatial_means.py: _save_one_time"]}
{"id": "C103", "title": "The conversions saved by plate2d are the exchanges between its energies", "statement": "E_k, E_l and E_e are the kinetic, bending and stretching energies and E their sum; d E_l / dt = conv_k_to_l, d E_e / dt = conv_l_to_e, d E_k / dt = - conv_k_to_l - conv_l_to_e + P1 - epsK_tot; over a step of duration deltat with the forcing alone E_k increases by deltat (P1 + P2) = deltat P_tot.", "quantifier": "every state, forcing, dissipation and truncation", "why_tests_cant": "All states; the conversions are written but not read by load.", "anchors": ["fluidsim/solvers/plate2d/output/__init__.py: compute_energies_conversion_fft, compute_energies_fft, compute_energy", "fluidsim/solvers/plate2d/output/spatial_means.py: _save_one_time"]}
{"id": "C104", "title": "test_tendencies_nonlin of plate2d is zero if and only if the energy is conserved", "statement": "The value returned by sim.test_tendencies_nonlin() is the rate of change of the energy divided by the sum over the modes of its absolute value; in particular it is 0 if and only if the energy is conserved.", "quantifier": "every state", "why_tests_cant": "The test suite calls it for one state.", "anchors": ["fluidsim/solvers/plate2d/solver.py: test_tendencies_nonlin"]}
{"id": "C105", "title": "Shallow water: the conversions between (ux, uy, eta) and the normal modes (q, ap, am) are inverse of each other", "statement": "uxuyetafft_from_qapamfft(*qapamfft_from_uxuyetafft(ux, uy, eta)) gives back ux, uy and eta, and conversely; the velocity given by sim.state.compute and by qapamfft_from_etafft and the (q, d, a) variables agree with them.", "quantifier": "every spectral field, f and c2 > 0, every mode, the mean mode included", "why_tests_cant": "The test of the operators uses one random field without mean and a tolerance; the mean mode is not compared.", "anchors": ["fluidsim/solvers/sw1l/operators.py: qapamfft_from_uxuyetafft, uxuyetafft_from_qapamfft, qapamfft_from_etafft, uxuyetafft_from_qfft, uxuyetafft_from_afft, qdafft_from_uxuyetafft, apamfft_from_adfft", "fluidsim/solvers/sw1l/exactlin/state.py: compute"]}
{"id": "C106", "title": "The shallow water equations of sw1l conserve the mass and the total energy", "statement": "tendencies_nonlin of sw1l is the advective form of the shallow water equations; the mean of eta is constant; without forcing and dissipation the energy c2 <eta^2>/2 + <(1 + eta) u^2>/2 is conserved.", "quantifier": "every state, f and c2", "why_tests_cant": "An energy drift due to the truncation is not seen with smooth fields during few time steps.", "anchors": ["fluidsim/solvers/sw1l/solver.py: tendencies_nonlin, compute_Frot, compute_pressure", "fluidsim/solvers/sw1l/state.py: statephys_from_statespect"]}
{"id": "C107", "title": "The solvers sw1l.exactlin and sw1l.onlywaves integrate the equations of sw1l", "statement": "The tendencies of sw1l.exactlin plus its linear term (compute_freq_complex) are the tendencies of sw1l written in the normal modes; the tendencies of sw1l.onlywaves are those of sw1l.exactlin for q = 0.", "quantifier": "every state whose mean potential vorticity is zero, every f (of any sign) and c2 > 0, every mode", "why_tests_cant": "All fields and all the signs of f; the tests only run the solvers.", "anchors": ["fluidsim/solvers/sw1l/exactlin/solver.py: tendencies_nonlin, compute_freq_complex", "fluidsim/solvers/sw1l/onlywaves/solver.py: tendencies_nonlin, compute_freq_complex", "fluidsim/solvers/sw1l/onlywaves/state.py"]}
{"id": "C108", "title": "The modified shallow water solvers conserve the quadratic energy", "statement": "tendencies_nonlin of sw1l.modified is the advection of ux, uy and eta by the rotational velocity plus the linear terms; sum over the modes of (|ux|^2 + |uy|^2 + c2 |eta|^2)/2 is conserved; sw1l.exactlin.modified integrates the same equations.", "quantifier": "every state, f and c2 > 0", "why_tests_cant": "Exact conservation for all states cannot be tested; the tests run one state.", "anchors": ["fluidsim/solvers/sw1l/modified/solver.py: tendencies_nonlin", "fluidsim/solvers/sw1l/exactlin/modified/solver.py: tendencies_nonlin"]}
{"id": "C109", "title": "init_from_uxuyfft of sw1l gives a balanced state", "statement": "After sim.state.init_from_uxuyfft(ux, uy) the velocity has no divergence, its vorticity is that of the arguments and the time derivative of the divergence given by tendencies_nonlin is zero.", "quantifier": "every ux, uy, f and c2 > 0, every mode but the mean", "why_tests_cant": "All fields; no test computes the tendency of the divergence.", "anchors": ["fluidsim/solvers/sw1l/state.py: init_from_uxuyfft", "fluidsim/solvers/sw1l/solver.py: tendencies_nonlin"]}
{"id": "C110", "title": "The forcings normalized by the energy of the shallow water solvers inject the prescribed rate", "statement": "When alpha is a root of the polynomial of the waves, of the potential or of the vortices+waves forcing of sw1l, one time step deltat with the forcing alone increases the quadratic energy by deltat * forcing_rate.", "quantifier": "every state, random forcing, f and c2 > 0", "why_tests_cant": "The tests run the forcings but do not compare the injected energy with forcing_rate.", "anchors": ["fluidsim/solvers/sw1l/forcing.py", "fluidsim/solvers/sw1l/state.py: init_from_qafft, init_from_etafft", "fluidsim/base/forcing/specific.py: NormalizedForcing"]}
{"id": "C111", "title": "The sum of the normal modes of sw1l gives back the fields and the sum of their energies is the quadratic energy", "statement": "The three contributions given by normalmodefft_from_keyfft for ux, uy, eta and their derivatives sum up to the field; the three energies of compute_qapam_energies_fft, and those of compute_lin_energies_fft, sum up to (|ux|^2 + |uy|^2 + c2 |eta|^2)/2 mode by mode.", "quantifier": "every field, f, c2 > 0 and mode", "why_tests_cant": "The tests compare the fields for one state up to a tolerance and skip the mean mode.", "anchors": ["fluidsim/solvers/sw1l/output/normal_mode.py: NormalModeBase, NormalModeDecomposition", "fluidsim/solvers/sw1l/output/base.py: compute_lin_energies_fft"]}
{"id": "C112", "title": "The energies of the q, d and a variables computed from the normal modes are those of compute_lin_energies_fft", "statement": "compute_qda_energies_fft of the normal modes returns the geostrophic, divergent and ageostrophic energies, as compute_lin_energies_fft does.", "quantifier": "every field, f, c2 > 0 and every mode but the mean", "why_tests_cant": "The function is not called by the tests.", "anchors": ["fluidsim/solvers/sw1l/output/normal_mode.py: compute_qda_energies_fft", "fluidsim/solvers/sw1l/output/base.py: compute_lin_energies_fft"]}
{"id": "C113", "title": "The triads of the normal modes are sorted in disjoint groups which contain what their names say", "statement": "triad_from_keyfft returns the five groups GGG, AGG, GAAs, GAAd and AAA; their sum is the product of the three fields; GAAs contains the products of a geostrophic mode with two waves of the same sign and GAAd those with two waves of opposite signs.", "quantifier": "every triple of fields", "why_tests_cant": "All the 27 combinations of modes; the tests only check the sum.", "anchors": ["fluidsim/solvers/sw1l/output/normal_mode.py: _group_matrix_using_dict, dyad_from_keyfft, triad_from_keyfft, triad_from_keyfftphys"]}
{"id": "C114", "title": "The spectral energy budgets of ns2d and ns2d.strat are the rates of change of the energy of each shell", "statement": "At each time the saved transfers (and, for ns2d.strat, the conversion B and the dissipations) give the rate of change of the energy of each shell, kinetic and potential, and of its enstrophy without the terms which are not saved; the sums of the transfers over all the shells are zero, the two components sum up to the total, the sums of the dissipations are epsilon and no warning is given.", "quantifier": "every state with dealiased modes, every shell, beta, N and every dissipation frequencies", "why_tests_cant": "The tests only check that the quantities can be saved and loaded.", "anchors": ["fluidsim/solvers/ns2d/output/spect_energy_budget.py: compute", "fluidsim/solvers/ns2d/strat/output/spect_energy_budget.py: compute", "fluidsim/base/output/spect_energy_budget.py: fnonlinfft_from_uxuy_funcfft"]}
{"id": "C115", "title": "The spectral energy budgets of ns3d and ns3d.strat are the rates of change of the energies of each shell", "statement": "The rate of change of the kinetic energy of a shell is transfer_Kh + transfer_Kz - diss_Kh - diss_Kz (minus conv_K2A for ns3d.strat), the one of the potential energy is transfer_A + conv_K2A - diss_A; for ns3d without rotation transfer_Khr is the nonlinear part of the rate of change of the energy of the rotational part of the horizontal velocity; the sums of the transfers over all the shells are zero and the check done in compute does not fail.", "quantifier": "every solenoidal state with dealiased modes, every shell, projection, rotation, N and dissipation frequencies", "why_tests_cant": "The tests only check that the quantities can be saved and loaded, without hypo-viscosity.", "anchors": ["fluidsim/solvers/ns3d/output/spect_energy_budget.py: compute", "fluidsim/solvers/ns3d/strat/output/spect_energy_budget.py: compute"]}
{"id": "C116", "title": "The spectral energy budget of sw1l.modified is the rate of change of the quadratic energies of each shell", "statement": "The rate of change of the kinetic energy of a shell is transfer2D_EK + convA2D and the one of the potential energy transfer2D_EA - convA2D; transfer2D_EK is the sum of its parts Errr, Edrd and Edrr_rrd; the sum over all the shells of each transfer is zero; if the velocity has no divergence, transfer2D_CPE is the rate of change of the Charney potential enstrophy.", "quantifier": "every state with dealiased modes, every shell, f and c2 > 0", "why_tests_cant": "The tests only check that the quantities can be saved.", "anchors": ["fluidsim/solvers/sw1l/output/spect_energy_budget.py: SpectralEnergyBudgetMSW1L.compute"]}
{"id": "C117", "title": "The spectral energy budget of sw1l is the rate of change of the energy of each shell", "statement": "The rate of change of the energy of a shell, Re(conj(u).((1 + eta) u))/2 + c2 |eta|^2/2, is the sum of the five transfers Tq_GGG, Tq_AGG, Tq_GAAs, Tq_GAAd, Tq_AAA and of Tnq; the sum of the five transfers over all the shells is zero; each group contains the products of its normal modes.", "quantifier": "every state without mean with dealiased modes, every shell, f and c2 > 0", "why_tests_cant": "The tests only check that the quantities can be saved and loaded.", "anchors": ["fluidsim/solvers/sw1l/output/spect_energy_budget.py: SpectralEnergyBudgetSW1L.compute, _transfer_keys_coeff", "fluidsim/solvers/sw1l/output/normal_mode.py: triad_from_keyfftphys"]}
{"id": "C118", "title": "The spectral energy budget of sw1l.exactlin.modified is the rate of change of the quadratic energy of each shell", "statement": "The rate of change of the quadratic energy of a shell is the sum of the five transfers Tq; the sum of the transfers over all the shells is zero; the sum of Cq_GG, Cq_AG, Cq_aG and Cq_AA is the exchange c2 Re(conj(eta) div u) between the kinetic and the potential energies, and each of them contains the products of its normal modes.", "quantifier": "every state with dealiased modes, with or without mean flow, every shell, f and c2 > 0", "why_tests_cant": "The tests only check that the quantities can be saved and loaded.", "anchors": ["fluidsim/solvers/sw1l/output/spect_energy_budget.py: SpectralEnergyBudgetSW1LModified, SpectralEnergyBudgetSW1L.compute", "fluidsim/solvers/sw1l/output/normal_mode.py: NormalModeDecompositionModified"]}
{"id": "C119", "title": "The normalisation particular_k of the forcing injects exactly the requested rate", "statement": "With params.forcing.normalized.type = \"particular_k\" the forcing returned is orthogonal to the forced variable and a forward step with it increases the quadratic quantity by forcing_rate * deltat; it is proportional to the raw forcing except at the chosen forced mode (and its opposite).", "quantifier": "every real 2D field, raw forcing, forced shell, chosen mode, deltat > 0 and rate >= 0 for which no division by zero occurs", "why_tests_cant": "The chosen mode is random and the columns kx = 0 and kx > 0 are treated differently; identity for all states.", "anchors": ["fluidsim/base/forcing/specific.py: NormalizedForcing.normalize_forcingc_part_k, _compute_cond_no_forcing", "fluidsim/operators/operators2d.py: project_fft_on_realX_seq"]}
{"id": "C120", "title": "The normalisation particular_k accepts every forced region and every state", "statement": "For every non-empty forced region and every state the computation of the forcing with the normalisation \"particular_k\" succeeds.", "quantifier": "every forced region with at least one mode, every state", "why_tests_cant": "Tests use large forced regions and an initialised flow.", "anchors": ["fluidsim/base/forcing/specific.py: NormalizedForcing.normalize_forcingc_part_k"]}
{"id": "C121", "title": "The Kolmogorov flows have the wavenumber asked for", "statement": "The forcings kolmogorov_flow and kolmogorov_flow_normalized contain only the wavenumbers +ik and -ik along the axis of the gradient, with coefficients -i amplitude/2 and +i amplitude/2 before normalisation; the axis is the last one by default and an unknown letter is an error.", "quantifier": "every ik > 0, amplitude, axis, size of the box and of the grids (nkmax_forcing for the normalized one)", "why_tests_cant": "Tests use the default ik with the default nkmax_forcing.", "anchors": ["fluidsim/base/forcing/kolmogorov.py: _KolmogorovFlowBase.__init__, KolmogorovFlow._init_forcing, KolmogorovFlowNormalized._init_forcing"]}
{"id": "C122", "title": "The normalized Kolmogorov forcing does not depend on its past", "statement": "Although the stored array is normalized in place at each call, the forcing computed at a call depends only on the current state and deltat: it is the one computed from the initial sine, and it injects the requested rate.", "quantifier": "every sequence of calls with any states and any deltat > 0, rate > 0, which_root = positive or minabs", "why_tests_cant": "Aliasing of the array between calls; all histories.", "anchors": ["fluidsim/base/forcing/kolmogorov.py: KolmogorovFlowNormalized.forcingc_raw_each_time", "fluidsim/base/forcing/specific.py: NormalizedForcing.compute, normalize_forcingc_2nd_degree_eq"]}
{"id": "C123", "title": "The forcing tcrandom_anisotropic forces exactly the modes of its region", "statement": "The forced modes are the modes whose horizontal and vertical wavenumbers are in the region given by nkmin_forcing, nkmax_forcing, angle, delta_angle (a rectangle without delta_angle, a sector with it) and, with kz_negative_enable, in its mirror image; all of them are in the grid of the forcing.", "quantifier": "every region between the vertical and the horizontal, every box, every fftw_grid_size, 2D and 3D, every mode with kx >= 0", "why_tests_cant": "The tests only run a few steps; a missing row of modes has no visible effect.", "anchors": ["fluidsim/base/forcing/anisotropic.py: _create_params_coarse, _compute_cond_no_forcing"]}
{"id": "C124", "title": "The angle of tcrandom_anisotropic is the angle between the wavevector and the horizontal", "statement": "With delta_angle the forced wavevectors make with the horizontal an angle between angle - delta_angle/2 and angle + delta_angle/2, as documented.", "quantifier": "every region, every forced mode", "why_tests_cant": "The default angle is 45 degrees, for which the two conventions coincide.", "anchors": ["fluidsim/base/forcing/anisotropic.py: _complete_params_with_default, _compute_cond_no_forcing"]}
{"id": "C125", "title": "pdf_normalized returns a probability density function, the same for any number of processes", "statement": "oper.pdf_normalized(field, nb_bins) returns nb_bins + 1 regularly spaced edges from the minimum to the maximum of the field (or around its value by 1/2 if it is constant) and a pdf whose product with the width is the fraction of the values in each bin; its integral is 1. The result does not depend on the distribution of the field over the processes.", "quantifier": "every field, every distribution over the processes, every number of bins", "why_tests_cant": "Two branches (np.histogram with density, sum of the local histograms); tests run the sequential one.", "anchors": ["fluidsim/operators/operators2d.py: OperatorsPseudoSpectral2D.pdf_normalized"]}
{"id": "C126", "title": "The separations of the increments are strictly increasing within the rows", "statement": "The output increments uses nx // 2 strictly increasing separations from 1 to int(0.8 nx), all below nx; the increments for a separation are the differences of all the pairs of points of a row at this distance.", "quantifier": "every nx >= 4, every field", "why_tests_cant": "The rounding of a logarithmic sequence is corrected by a loop which could go beyond the rows; tests use one resolution.", "anchors": ["fluidsim/base/output/increments.py: Increments.__init__", "fluidsim/operators/operators2d.py: compute_increments_dim1"]}
{"id": "C127", "title": "The structure functions computed from the pdf are the moments of the increments", "statement": "strfunc_from_pdf applied to the pdf of a field gives the mean of the power `order` of the values, or of their absolute values, up to order * max^(order-1) * (half of the width of the bins).", "quantifier": "every field, number of bins >= 2 and integer order", "why_tests_cant": "Error bound for all fields.", "anchors": ["fluidsim/base/output/increments.py: strfunc_from_pdf, Increments.compute_values_inc"]}
{"id": "C128", "title": "The time averaged pdf is a probability density function", "statement": "The integral of the pdf returned by load_pdf_from_file over its range is 1.", "quantifier": "every sequence of saved pdf", "why_tests_cant": "Tests average pdf of few times without checking the integral.", "anchors": ["fluidsim/base/output/increments.py: Increments.load_pdf_from_file"]}
{"id": "C129", "title": "The saved pdf and structure functions do not depend on the number of processes", "statement": "For a given flow the pdf of the increments, the pdf of the velocity (pdf_u) and the structure functions of sw1l saved in the files are the same for any number of processes.", "quantifier": "every flow, every distribution of the rows over the processes", "why_tests_cant": "Comparison of runs with different numbers of processes.", "anchors": ["fluidsim/base/output/increments.py: Increments.compute", "fluidsim/base/output/prob_dens_func.py: ProbaDensityFunc.compute", "fluidsim/solvers/sw1l/output/increments.py: IncrementsSW1L.compute"]}
{"id": "C130", "title": "The spatiotemporal time series hold the saved instants of the requested range", "statement": "spatiotemporal_spectra.load_time_series(tmin, tmax) returns all the saved times in [tmin, tmax] in order and, for each rank, the data saved at these times, without element left uninitialised.", "quantifier": "every set of files per rank, every tmin and tmax, any number of ranks", "why_tests_cant": "Depends on the position of tmin and tmax with respect to all the files.", "anchors": ["fluidsim/base/output/spatiotemporal_spectra.py: SpatioTemporalSpectra.load_time_series, filter_tmins_paths, get_arange_minmax, find_index_first_geq"]}
{"id": "C131", "title": "The temporal time series hold the saved instants of the requested range", "statement": "temporal_spectra.load_time_series(tmin, tmax) returns all the saved times in [tmin, tmax] in order and the data of the probes at these times.", "quantifier": "every set of files per rank, every tmin and tmax, any number of ranks", "why_tests_cant": "A variable of another loop is used; the tests load all the files.", "anchors": ["fluidsim/base/output/temporal_spectra.py: TemporalSpectra.load_time_series", "fluidsim/base/output/spatiotemporal_spectra.py: filter_tmins_paths, get_arange_minmax"]}
{"id": "C132", "title": "The integral of the temporal spectra is the mean square of the signals", "statement": "temporal_spectra.compute_spectra: the sum of the spectrum times domega is the mean over the probes and the times of the squared signal, and the omegas are the nonnegative multiples of domega.", "quantifier": "every number of instants, every real or complex signals, every number of probes", "why_tests_cant": "Depends on the parity of the number of instants.", "anchors": ["fluidsim/base/output/temporal_spectra.py: TemporalSpectra.compute_spectra, _compute_spectrum"]}
{"id": "C133", "title": "The (kz, kh, omega) spectra distribute all the power of the modes", "statement": "The sum of the spectrum over kz, kh and omega times the widths is the time mean of the sum over the modes of their squared amplitude; a mode on a point of the grid is in its cell only, the contributions are not negative.", "quantifier": "every set of modes, any grid of kz and kh, every number of instants", "why_tests_cant": "Conservation for all inputs; parity of the number of instants.", "anchors": ["fluidsim/solvers/ns3d/output/spatiotemporal_spectra.py: compute_spectrum_kzkhomega", "fluidsim/solvers/ns2d/output/spatiotemporal_spectra.py: compute_spectrum_kzkhomega", "fluidsim/base/output/spatiotemporal_spectra.py: save_spectra_kzkhomega"]}
{"id": "C134", "title": "The spectra do not depend on the previous calls", "statement": "temporal_spectra.compute_spectra and spatiotemporal_spectra.compute_spectra give the same spectra whether or not spectra of another time range have been computed before with the same object.", "quantifier": "every two calls with any numbers of instants", "why_tests_cant": "Needs two calls on the same object with different ranges.", "anchors": ["fluidsim/base/output/temporal_spectra.py: TemporalSpectra._compute_spectrum", "fluidsim/base/output/spatiotemporal_spectra.py: _compute_spectrum"]}
{"id": "C135", "title": "The temporal spectra of the spatiotemporal output count each mode of the real field once", "statement": "In compute_temporal_spectra and in the saved temporal spectra a recorded mode is counted twice except for kx = 0 and the largest kx; these spectra are the sums over kz and kh of the (kz, kh, omega) spectra.", "quantifier": "every box size, every set of recorded modes", "why_tests_cant": "The tests use a box of length 2 pi or do not compare the functions.", "anchors": ["fluidsim/base/output/spatiotemporal_spectra.py: compute_temporal_spectra, save_spectra_kzkhomega", "fluidsim/solvers/ns3d/output/spatiotemporal_spectra.py: _sum_wavenumber3D, compute_spectrum_kzkhomega", "fluidsim/solvers/ns2d/output/spatiotemporal_spectra.py: _sum_wavenumber2D"]}
{"id": "C136", "title": "The spatiotemporal spectra use the wavenumbers of the right dimensions", "statement": "save_spectra_kzkhomega uses the arrays of kx, ky and kz for the dimensions x, y and z for each order of the dimensions of the Fourier space of the operator.", "quantifier": "every order of the three dimensions", "why_tests_cant": "Only some FFT classes have transposed orders.", "anchors": ["fluidsim/base/output/spatiotemporal_spectra.py: save_spectra_kzkhomega, load_time_series"]}
{"id": "C137", "title": "Khd and Khr decompose the horizontal kinetic energy", "statement": "For each mode and frequency the spectra Khd and Khr add up to half of the sum of the spectra of vx and vy; the velocities used have zero horizontal divergence and zero vertical vorticity respectively.", "quantifier": "every mode (also without horizontal wavenumber), every number of instants, every signal", "why_tests_cant": "All inputs.", "anchors": ["fluidsim/solvers/ns3d/output/spatiotemporal_spectra.py: compute_spectra_urud"]}
{"id": "C138", "title": "The preprocessing gives the requested energy or enstrophy to the initial fields", "statement": "With params.preprocess.init_field_scale = energy (enstrophy) the energy (enstrophy) of the initial state is init_field_const; with enstrophy_forcing the enstrophy is init_field_const * forcing_rate^(2/3) * k_f^(4/3); unknown scales are refused.", "quantifier": "every state with a nonzero energy (enstrophy), every constant, solvers ns2d and ns2d.strat", "why_tests_cant": "The tests only check that preprocessing runs.", "anchors": ["fluidsim/base/preprocess/pseudo_spect.py: PreprocessPseudoSpectral.normalize_init_fields", "fluidsim/solvers/ns2d/output/__init__.py: compute_energy, compute_enstrophy", "fluidsim/solvers/ns2d/strat/state.py: init_from_rotfft"]}
{"id": "C139", "title": "The viscosities of the preprocessing act at the smallest scale in one time scale", "statement": "For each kind of dissipation named in viscosity_type, the viscosity is such that the dissipation frequency at the wavenumber 1/length_scale (length_scale = viscosity_const * deltax / coef_dealiasing) is the inverse of the time scale; the other viscosities are zero.", "quantifier": "every combination of the four kinds of dissipation, every grid and constants", "why_tests_cant": "All the combinations of names found by substring tests.", "anchors": ["fluidsim/base/preprocess/pseudo_spect.py: calcul_viscosity"]}
{"id": "C140", "title": "The viscosities of the preprocessing do not depend on the units", "statement": "If the lengths are multiplied by a and the times by b, calcul_viscosity gives viscosities multiplied by a^order / b.", "quantifier": "every a, b > 0, every scale and type of viscosity", "why_tests_cant": "Dimensional homogeneity needs all the values; tests use one set of parameters.", "anchors": ["fluidsim/base/preprocess/pseudo_spect.py: calcul_viscosity"]}
{"id": "C141", "title": "The forcing rate set by the preprocessing is the one of the initial state", "statement": "After the preprocessing the forcing rate is forcing_const * E^1.5 * k_f (forcing_scale = energy) or forcing_const * Omega^1.5 / k_f^2 (enstrophy) with the energy and enstrophy of the initial state of the simulation, and the viscosities are computed from this state and this rate.", "quantifier": "every state and parameters", "why_tests_cant": "Order of the operations in __call__.", "anchors": ["fluidsim/base/preprocess/pseudo_spect.py: PreprocessPseudoSpectral.__call__, set_forcing_rate, set_viscosity"]}
{"id": "C142", "title": "The saved periodograms are those asked for", "statement": "Loading the spatiotemporal spectra gives the result of the last call of save_spectra_kzkhomega with the same times, dtype and save_urud; saving with other arguments does not change it.", "quantifier": "every sequence of saves, every tmin, tmax, dtype and save_urud, every order of glob", "why_tests_cant": "The file is found by a glob pattern: the result depends on which other files exist.", "anchors": ["fluidsim/base/output/spatiotemporal_spectra.py: _complete_name, _get_path_saved_spectra, _get_path_saved_tspectra, save_spectra_kzkhomega, load_spectra_kzkhomega"]}
{"id": "C143", "title": "Each probe is recorded once, at its position", "statement": "For each position given by probes_region and probes_deltax/y/z exactly one process has one record, which reads the grid point at this position; no process records other points.", "quantifier": "every grid, region, spacing and distribution of the grid over the processes", "why_tests_cant": "All the distributions and regions; the tests use one process and a few probes.", "anchors": ["fluidsim/base/output/temporal_spectra.py: TemporalSpectra3D.__init__, _init_arrays, _get_data_probe_from_field"]}
{"id": "C144", "title": "The fields rebuilt from the probes are the recorded ones", "statement": "save_data_as_phys_fields writes for each recorded time one file of fields whose elements are the values recorded at this time by the probes at the corresponding positions.", "quantifier": "every grid, probes, distribution over the processes and splitting in files", "why_tests_cant": "Needs all the times and distributions.", "anchors": ["fluidsim/base/output/temporal_spectra.py: save_data_as_phys_fields"]}
{"id": "C145", "title": "The horizontal means are the means and covariances over the horizontal planes", "statement": "The nine profiles computed by HorizontalMeans are the means of vx, vy, vz over each horizontal plane and the covariances of the velocities over the planes; the variances are nonnegative and are zero only for a uniform plane.", "quantifier": "every field, grid and distribution of the grid over the processes", "why_tests_cant": "All the distributions of the grid; the test runs on one process.", "anchors": ["fluidsim/base/output/horiz_means.py: HorizontalMeans.compute, _compute_hmean, _hmean_to_3d_local"]}
{"id": "C146", "title": "The loaded horizontal means are the averages over the requested records", "statement": "load(tmin, tmax) averages exactly the records from the one nearest to tmin to the one nearest to tmax, and all the records without limits.", "quantifier": "every nonempty list of records of increasing times, tmin <= tmax", "why_tests_cant": "All the times.", "anchors": ["fluidsim/base/output/horiz_means.py: load"]}
{"id": "C147", "title": "The initial linear mode has exactly the requested wavenumbers", "statement": "InitFieldsLinearMode sets to amplitude * N^2 exactly the modes of indices i_mode ... i_mode + delta_k_adim - 1 in each direction, the others being zero, for one or several processes.", "quantifier": "every grid, every mode of the grid, every distribution over the processes", "why_tests_cant": "The test uses a square grid.", "anchors": ["fluidsim/solvers/ns2d/strat/init_fields.py: InitFieldsLinearMode.put_ones_linear_mode"]}
{"id": "C148", "title": "The empirical frequencies are the mean and the standard deviation of the spectrum", "statement": "compute_omega_emp_vs_kzkh gives for each (kz, kh) the mean frequency weighted by the spectrum, which is between the smallest and the largest frequency, and a nonnegative width whose square is the weighted mean of the squares minus the square of the mean.", "quantifier": "every nonnegative spectrum which is not zero, every list of frequencies", "why_tests_cant": "All inputs.", "anchors": ["fluidsim/base/output/spatiotemporal_spectra.py: compute_omega_emp_vs_kzkh"]}
{"id": "C149", "title": "The length scales are the first and second order spectral lengths", "statement": "For each direction, compute_length_scales gives l1 = 2 pi / (mean wavenumber) and l2 = 2 pi / (root mean square wavenumber), weighted by the spectrum, with 2 pi / kmax <= l2 <= l1; the lengths are not larger than the domain.", "quantifier": "every nonnegative spectrum with some energy at a nonzero wavenumber", "why_tests_cant": "All inputs.", "anchors": ["fluidsim/base/output/spectra3d.py: compute_length_scales"]}
{"id": "C150", "title": "The isotropy coefficient of the velocities is one for an isotropic flow", "statement": "compute_isotropy_velocities gives a number between 0 and 3 which is 1 when the three components have the same energy, the modes kz = 0 being removed.", "quantifier": "every nonnegative spectra with energy", "why_tests_cant": "All inputs.", "anchors": ["fluidsim/base/output/spectra3d.py: compute_isotropy_velocities"]}
{"id": "C151", "title": "The isotropy coefficient of the dissipation is one when the gradients are isotropic", "statement": "compute_isotropy_dissipation gives a number between 0 and 3/2 which is 1 exactly when the sum of kh^2 E is twice the sum of kz^2 E.", "quantifier": "every nonnegative energy, viscosities nu_2, nu_4 >= 0", "why_tests_cant": "All inputs.", "anchors": ["fluidsim/solvers/ns3d/output/spect_energy_budget.py: compute_isotropy_dissipation"]}
{"id": "C152", "title": "The spectral fluxes are the transfers to the larger wavenumbers", "statement": "compute_fluxes_mean: the horizontal flux at kh is minus the sum of the transfers up to kh (over all kz), thus the sum of the transfers to the larger kh when the transfers conserve the energy; the flux at the last wavenumber is the total, the same for the two directions; the cumulated dissipations increase.", "quantifier": "every spectrum, grid and key", "why_tests_cant": "All inputs.", "anchors": ["fluidsim/solvers/ns3d/output/spect_energy_budget.py: compute_fluxes_mean"]}
{"id": "C153", "title": "The mean values of a simulation depend only on the records between tmin and tmax", "statement": "_compute_mean_values(tmin, tmax) averages the records from the one nearest to tmin to the one nearest to tmax; continuing the simulation after tmax does not change the values.", "quantifier": "every list of records of increasing times, tmin <= tmax, every continuation of the simulation", "why_tests_cant": "All the continuations of a simulation.", "anchors": ["fluidsim/base/output/base.py: _compute_mean_values", "fluidsim/base/output/spectra3d.py: load1d_mean", "fluidsim/solvers/ns3d/output/spect_energy_budget.py: compute_isotropy_dissipation"]}
{"id": "C154", "title": "The cached mean values are those which would be computed again", "statement": "get_mean_values_from_path with use_cache=True returns the values that use_cache=False would return, also after the simulation has been continued and for each function customize; tmin and tmax can be None, times, \"t_start+...\" or \"t_last-...\", any other string being an error.", "quantifier": "every history of calls and continuations of the simulation", "why_tests_cant": "All the histories.", "anchors": ["lib/fluidsim_core/output/dataframe_from_paths.py: get_mean_values_from_path", "fluidsim/base/output/base.py: get_mean_values"]}
{"id": "C155", "title": "The cross correlations are saved with their own period", "statement": "CrossCorrelations saves a record at the beginning and each time a multiple of params.output.periods_save.cross_corr is reached, nothing if this period is zero, and the kzkh arrays once every params.output.cross_corr.kzkh_periodicity records.", "quantifier": "every periods, every sequence of times of a run", "why_tests_cant": "All the combinations of periods and the sequences of times.", "anchors": ["fluidsim/base/output/spectra3d.py: BaseSpectra.__init__, _init_files, _online_save", "fluidsim/base/output/base.py: one_time_step, _has_to_online_save"]}
{"id": "C156", "title": "Each pair of variables has its own cross correlation", "statement": "CrossCorrelations.compute gives for each pair of different variables of the state one set of spectra, of minus the real part of the product, named by the letters of the two variables; no pair overwrites another one.", "quantifier": "every list of variables named vc_fft or c_fft with distinct letters c, every state", "why_tests_cant": "All the lists of variables and states.", "anchors": ["fluidsim/base/output/cross_corr3d.py: CrossCorrelations.compute, _make_small_key"]}
{"id": "C157", "title": "The loaded spectra contain all the saved spectra", "statement": "load1d_mean, load3d_mean and load_kzkh_mean give all the spectra saved in the file, or those asked for with key_to_load, with an error if one is not in the file.", "quantifier": "every file of ns3d and ns3d.strat, every list of keys", "why_tests_cant": "All the lists of keys.", "anchors": ["fluidsim/base/output/spectra3d.py: _load_mean_file, load1d_mean, load3d_mean, load_kzkh_mean", "fluidsim/solvers/ns3d/output/spectra.py: SpectraNS3D.compute", "fluidsim/solvers/ns3d/strat/output/spectra.py: compute"]}
{"id": "C158", "title": "The means over a region are those of its points", "statement": "The means saved by SpatialMeansRegions are, for each region, the means over all the points of the grid between the points which are the nearest to xmin Lx and xmax Lx.", "quantifier": "every grid, region, field and distribution of the grid over the processes", "why_tests_cant": "All the regions and distributions, in particular those for which some processes have no point of the region.", "anchors": ["fluidsim/extend_simul/spatial_means_regions_milestone.py: __init__, _compute_means_regions"]}
{"id": "C159", "title": "The fluxes through the limits of a region are those of the two planes", "statement": "_compute_fluxes_regions gives the mean of the flux over the first plane divided by the length of the region and minus that of the last plane; what goes out of a region goes into the next one and the fluxes of the whole (periodic) domain cancel.", "quantifier": "every grid, region, field and distribution of the grid over the processes", "why_tests_cant": "All the regions and distributions.", "anchors": ["fluidsim/extend_simul/spatial_means_regions_milestone.py: _compute_fluxes_regions"]}
{"id": "C160", "title": "The records of the regions contain the terms of their energy budgets", "statement": "Each record has the energies, dissipations, conversion, injection and fluxes of the region under the name of its column, with and without forcing; plot_budget adds the right terms; a restart with other limits is refused.", "quantifier": "every state, region, sequence of records", "why_tests_cant": "All the states and parameters.", "anchors": ["fluidsim/extend_simul/spatial_means_regions_milestone.py: _save_one_time, _init_files, load, plot_budget"]}
{"id": "C161", "title": "The total pressure computed for the regions satisfies the Poisson equation", "statement": "The sum of the three parts of the pressure has the Laplacian div(v x omega) + div F + dz b and a zero mean.", "quantifier": "every wavevector and every Fourier coefficients", "why_tests_cant": "All inputs.", "anchors": ["fluidsim/extend_simul/spatial_means_regions_milestone.py: _save_one_time"]}
{"id": "C162", "title": "A movie begins at tmin, advances by dt_equations and shows the simulation until tmax", "statement": "The times of the frames are tmin, tmin + dt, ... until tmax, the last one included, they are between the first and the last file, and the movie without argument is accepted.", "quantifier": "every tmin, tmax, dt_equations and times of files", "why_tests_cant": "The tests make one movie and do not look at its times.", "anchors": ["lib/fluidsim_core/output/movies.py: MoviesBase._init_ani_times, MoviesBasePhysFields.init_animation"]}
{"id": "C163", "title": "The player of the movies stays on the frames", "statement": "The interactive player gives valid frames, in cyclic order, pauses at the first and last ones, and the buttons one step forward and one step backward are inverse of each other.", "quantifier": "every number of frames, position and direction", "why_tests_cant": "The tests do not use the buttons.", "anchors": ["lib/fluidsim_core/output/movies.py: MoviesBase._frames_iterative, onestep, _one_forward, _one_backward"]}
{"id": "C164", "title": "repeat loops the movie", "statement": "With repeat=True the movie loops; with an integer every time is shown this number of times.", "quantifier": "every list of times and value of repeat", "why_tests_cant": "The tests save the movies or do not wait.", "anchors": ["lib/fluidsim_core/output/movies.py: MoviesBase.animate"]}
{"id": "C165", "title": "The vectors of the movies are normalised as asked, in every frame", "statement": "The vectors are divided by the largest one if normalize_vectors (True by default) and left unchanged otherwise, in the first frame as in the others, for every step and skip.", "quantifier": "every size, step, skip and vectors", "why_tests_cant": "The tests do not look at the vectors.", "anchors": ["lib/fluidsim_core/output/movies.py: MoviesBasePhysFields2D._init_fig, update_animation", "fluidsim/base/output/phys_fields2d.py: _quiver_plot"]}
{"id": "C166", "title": "plot_mean shows the mean of the files between tmin and tmax", "statement": "plot_mean averages exactly the files whose times are between tmin and tmax (all the files by default) and fails if there is none.", "quantifier": "every files, tmin and tmax", "why_tests_cant": "The tests only call it.", "anchors": ["fluidsim/base/output/phys_fields3d.py: plot_mean"]}
{"id": "C167", "title": "The edges of the cells surround the points", "statement": "The edges given to pcolormesh keep the corners, never go out of the points, and for a rectangular element each point is in its cell, the interior edges being in the middle of the points.", "quantifier": "every size and positions", "why_tests_cant": "The test uses one mesh.", "anchors": ["lib/fluidsim_core/hexa_files.py: get_edges_2d"]}
{"id": "C168", "title": "A cross section of an element shows the plane of points nearest to the equation", "statement": "For z=..., y=... and x=..., spaces or not, the cross section of every element which is across the plane is its plane of points nearest to the plane.", "quantifier": "every list of elements and equation", "why_tests_cant": "The tests do not compare with the values at the position.", "anchors": ["lib/fluidsim_core/hexa_files.py: HexaField._init_from_hexa_data, get_letters_axes_from_equation"]}
{"id": "C169", "title": "The vectors of a cross section are regularly spread over the domain", "statement": "The approximate positions are in the domain; in each element the vectors are at the points nearest to the approximate positions, without repetition.", "quantifier": "every elements and percentage", "why_tests_cant": "The tests do not look at the positions.", "anchors": ["lib/fluidsim_core/hexa_files.py: init_quiver_1st_step"]}
{"id": "C170", "title": "The script turb_trandom_anisotropic makes an isotropic grid and the asked viscosities", "statement": "The grid steps are equal in the three directions; nu or Rb (5 by default), nu4 or Rb4 give the viscosities, not both; without nu4 and Rb4 the hyper viscosity is 0 if the Kolmogorov scale is resolved and coef_nu4 / k_max^(10/3) otherwise; the valid arguments are accepted.", "quantifier": "every arguments of the script", "why_tests_cant": "The test runs a few sets of arguments and does not check the parameters.", "anchors": ["fluidsim/util/scripts/turb_trandom_anisotropic.py: create_params"]}
{"id": "C171", "title": "The script turb_trandom_anisotropic gives a forcing region which the forcing accepts", "statement": "The forced wavenumbers are between ratio_kfmin_kf and ratio_kfmax_kf times 2 pi / F, up to the rounding and the resolution, and nkmin_forcing <= nkmax_forcing.", "quantifier": "every arguments of the script", "why_tests_cant": "The tests use F near 0.3.", "anchors": ["fluidsim/util/scripts/turb_trandom_anisotropic.py: create_params"]}
{"id": "C172", "title": "The time scales of the script turb_trandom_anisotropic follow the waves", "statement": "The time step is at most 0.1 and the sixteenth of the buoyancy period, the correlation time is the period of the forced waves, the forced angle has the asked frequency up to the rounding.", "quantifier": "every arguments of the script", "why_tests_cant": "The tests do not check these values.", "anchors": ["fluidsim/util/scripts/turb_trandom_anisotropic.py: create_params"]}
{"id": "C173", "title": "The converter of the plates relates plate2d to a real plate", "statement": "The conversions to and from adimensional variables are inverse of each other, consistent (w = dz/dt), map the solutions of the equations of plate2d to those of a plate and its dispersion relation to omega = k^2.", "quantifier": "every plate", "why_tests_cant": "There is no test of the physical meaning.", "anchors": ["fluidsim/solvers/plate2d/dimensional.py: Converter"]}
{"id": "C174", "title": "The frequency modulated signal is the velocity of a wave maker", "statement": "The signal of FrequencyModulatedSignalMaker is the velocity of a wave maker of position -amplitude cos(phase), where the frequency d(phase)/dt is omega_f plus a filtered noise of standard deviation delta_omega_f; it is periodic if the period of the forcing is a multiple of the one of the waves. The default parameters work.", "quantifier": "every noise, times and frequencies", "why_tests_cant": "The signal is random and the tests do not look at it.", "anchors": ["fluidsim/util/frequency_modulation.py: FrequencyModulatedSignalMaker", "fluidsim/solvers/ns3d/forcing/watu.py: ForcingInternalWavesWatuCoriolis"]}
{"id": "C175", "title": "The time signals of the wave makers are interpolated periodically", "statement": "At any time the coefficient of the forcing is defined, equal to the signal at its times and linear between them, between the extrema of the signal, and periodic.", "quantifier": "every signal and time", "why_tests_cant": "The tests run a few time steps after t = 0.", "anchors": ["fluidsim/solvers/ns3d/forcing/watu.py: compute_forcing_fft_each_time"]}
{"id": "C176", "title": "The wave makers push the fluid near the walls towards the target velocity", "statement": "The masks are between 0 and 1, at least 1/8 at the boards and exponentially small elsewhere; with any time step the forcing brings the velocity towards the target without overshoot; the difference is divided by 10^gamma after n_dt time steps.", "quantifier": "every domain, position, velocity and time step", "why_tests_cant": "The tests do not compare with the target.", "anchors": ["fluidsim/solvers/ns3d/forcing/watu.py: __init__, compute_watu_coriolis_forcing_component"]}
{"id": "C177", "title": "The adaptive time step of ns2d.strat satisfies its limits", "statement": "The time step is at most 1.02 times the limits of the velocity, of the waves, of the group velocity, of the forcing and deltat_max; at rest it is stable for the waves; it never exceeds deltat_max; forcing_rate = 0 is accepted.", "quantifier": "every velocity field, waves and parameters", "why_tests_cant": "The tests use one flow, with a small time step.", "anchors": ["fluidsim/solvers/ns2d/strat/time_stepping.py: TimeSteppingPseudoSpectralStrat"]}
{"id": "C178", "title": "The initial noise is solenoidal, without mean, dealiased and of the requested maximum", "statement": "The initial fields noise of ns2d and ns3d are divergence free, without mean and dealiased, their small scales (below params.init_fields.noise.length) are reduced and the maximum of the velocity is velo_max, of the buoyancy velo_max N; the default length is 0, for the same cutoff of all the variables.", "quantifier": "every grid and random numbers", "why_tests_cant": "The tests use one seed and do not look at the fields.", "anchors": ["fluidsim/solvers/ns2d/init_fields.py: InitFieldsNoise", "fluidsim/solvers/ns3d/init_fields.py: InitFieldsNoise, compute_solenoidal_noise_fft"]}
{"id": "C179", "title": "The initial jet and dipole are antisymmetric around the centre of the domain", "statement": "The vorticity of the jet is odd around Ly/2, that of the dipole is odd around the centre, where two opposite vortices are at the distance b/2 = 1.25, for every domain.", "quantifier": "every domain and position", "why_tests_cant": "The tests only run the initialisation.", "anchors": ["fluidsim/solvers/ns2d/init_fields.py: InitFieldsJet, InitFieldsDipole", "fluidsim/solvers/ns3d/init_fields.py: InitFieldsDipole"]}
{"id": "C180", "title": "The shells of the time signals are distinct", "statement": "The moduli of the wave numbers selected by the output time_signals_fft are nb_shells different multiples of deltak, in increasing order.", "quantifier": "every resolution and number of shells", "why_tests_cant": "The tests use one resolution and do not look at the shells.", "anchors": ["fluidsim/base/output/time_signals_fft.py: TimeSignalsK._init_save"]}
{"id": "C181", "title": "The signals of shell s are those of wave numbers of shell s", "statement": "For every nb_shells_time_sigK and nb_k_per_shell_time_sigK, the wave number of the signal s nb_k_per_shell + i (the index used by plot and compute_spectra) is at the i-th angle of the shell s.", "quantifier": "every number of shells and of wave numbers per shell", "why_tests_cant": "The tests use the default 4 x 4.", "anchors": ["fluidsim/base/output/time_signals_fft.py: TimeSignalsK._init_save, plot, compute_spectra"]}
{"id": "C182", "title": "The saved modes are the closest to the selected wave numbers", "statement": "The wave number of each saved mode is at most half a grid step from the selected one, in each direction.", "quantifier": "every grid and wave number", "why_tests_cant": "The tests use a square grid.", "anchors": ["fluidsim/base/output/time_signals_fft.py: TimeSignalsK._init_save", "fluidsim/operators/operators2d.py: where_is_wavenumber"]}
{"id": "C183", "title": "The fastest selected wave is sampled 16 times per period", "statement": "The period between two records of time_sigK.h5 is at most pi/(8 omega) for each selected frequency omega.", "quantifier": "every parameter and frequency", "why_tests_cant": "The tests only check that the file can be loaded.", "anchors": ["fluidsim/base/output/time_signals_fft.py: TimeSignalsK.__init__, _init_save", "fluidsim/base/output/base.py: SpecificOutput.__init__"]}
{"id": "C184", "title": "No record of the time signals is lost", "statement": "time_sigK.h5 contains all the records of the run, and after a restart in the same directory all the records of both runs.", "quantifier": "every list of records", "why_tests_cant": "No test restarts a run with this output.", "anchors": ["fluidsim/base/output/time_signals_fft.py: TimeSignalsK._init_files, _online_save", "fluidsim/base/output/base.py: _add_dict_arrays_to_open_file"]}
{"id": "C185", "title": "The time spectra contain the energy of the signals", "statement": "The integral over omega of the spectrum of a signal is half the mean square of the windowed signal, averaged over windows overlapping by half; the spectrum of a constant non-zero signal is not zero; there is a spectrum as soon as there are records.", "quantifier": "every signal and number of records", "why_tests_cant": "The tests only call the plotting functions.", "anchors": ["fluidsim/base/output/time_signals_fft.py: TimeSignalsK.time_spectrum, compute_spectra"]}
{"id": "C186", "title": "The frequencies of the time spectra are those of the waves", "statement": "The j-th frequency returned by compute_spectra is the frequency of the wave of period nt dt / j; compute_spectra can be called again when the file has grown.", "quantifier": "every number of records and time step", "why_tests_cant": "The tests only call the plotting functions, once.", "anchors": ["fluidsim/base/output/time_signals_fft.py: TimeSignalsK.compute_spectra"]}
{"id": "C187", "title": "The signals q, d and a are those of the linear waves", "statement": "For the linear shallow-water equations, the saved q is steady and d and the normalised a (c2 a / omega) turn around zero at the frequency omega of the dispersion relation.", "quantifier": "every wave number, rotation, wave speed and state", "why_tests_cant": "The tests only check that the file can be loaded.", "anchors": ["fluidsim/solvers/sw1l/output/base.py: linear_eigenmode_from_values_1k, omega_from_wavenumber", "fluidsim/base/output/time_signals_fft.py: TimeSignalsK.compute_spectra"]}
{"id": "C188", "title": "The mean 2D spectra are over the saved times between tmin and tmax", "statement": "load1d_mean and load2d_mean average the records from the one closest to tmin to the one closest to tmax: at least one if tmin <= tmax, exactly those between tmin and tmax if these are saved times, all without limits.", "quantifier": "every list of increasing times, of spectra and limits", "why_tests_cant": "The tests load a short run without limits.", "anchors": ["fluidsim/base/output/spectra.py: Spectra.load1d_mean, load2d_mean"]}
{"id": "C189", "title": "load1d_mean gives the wave numbers of the spectra", "statement": "The wave numbers kh returned by load1d_mean are those of all the returned spectra.", "quantifier": "every grid", "why_tests_cant": "The tests use the same number of points in both directions.", "anchors": ["fluidsim/base/output/spectra.py: Spectra.load1d_mean"]}
{"id": "C190", "title": "The spectra can be plotted for every saved run", "statement": "plot1d and plot2d draw the records every delta_t (to the nearest record) between tmin and tmax with an opacity from 0.1 to 1, and their mean, also if there is only one record; load1d_means returns the mean.", "quantifier": "every list of increasing times and limits", "why_tests_cant": "The tests plot runs with several records.", "anchors": ["fluidsim/base/output/spectra.py: SpectraBase._plot_ndim, _plot_ndim_direction", "fluidsim/solvers/ns2d/strat/output/spectra.py: load1d_means"]}
{"id": "C191", "title": "The 1D spectra of ns2d.strat are plotted up to the truncation", "statement": "plot1d of ns2d.strat draws the spectra for the wave numbers which are not truncated, and only for them.", "quantifier": "every grid and truncation", "why_tests_cant": "The figures are not looked at.", "anchors": ["fluidsim/solvers/ns2d/strat/output/spectra.py: plot1d"]}
{"id": "C192", "title": "The initial wave of the shallow water solvers has the amplitude eta_max", "statement": "init_fields.type = 'wave' gives a fluid at rest with the surface eta_max cos(kx x), kx = 2 pi ikx / Lx: its maximum is eta_max and, for eta_max <= 1, the depth 1 + eta is not negative.", "quantifier": "every grid, truncation, eta_max and ikx", "why_tests_cant": "The tests only check that the simulation runs.", "anchors": ["fluidsim/solvers/sw1l/init_fields.py: InitFieldsWave", "fluidsim/solvers/sw1l/state.py: init_from_etafft"]}
{"id": "C193", "title": "The grid of vortices has as many vortices of each sign and they do not overlap", "statement": "init_fields.type = 'vortex_grid' gives n_vort^2 vortices centred in the cells of a regular grid, half of each sign whatever the random numbers; without sd the vorticity at each centre is +-omega_max up to a relative error (n_vort^2 - 1) e^-72; an odd n_vort is refused.", "quantifier": "every domain, number of vortices, maximum and shuffling", "why_tests_cant": "The tests run one random shuffling and look at nothing.", "anchors": ["fluidsim/solvers/sw1l/init_fields.py: InitFieldsVortexGrid"]}
{"id": "C194", "title": "The initial noise of plate2d is without mean, dealiased and of the requested maximum", "statement": "init_fields.type = 'noise' of plate2d gives w and z without mean and without truncated modes, with max sqrt(w^2 + z^2) = velo_max, damped around the wave number of the parameter length (Lx / 4 if 0).", "quantifier": "every random numbers, grid and truncation for which the filtered fields are not zero", "why_tests_cant": "The tests do not look at the initial fields.", "anchors": ["fluidsim/solvers/plate2d/init_fields.py: InitFieldsNoise.compute_wz_fft", "fluidsim/solvers/plate2d/state.py: init_state_from_wz_fft"]}
{"id": "C195", "title": "The initial harmonic of plate2d is the mode asked for", "statement": "init_fields.type = 'harmonic' of plate2d gives the plane wave of the mode (i0, i1), whatever the grid.", "quantifier": "every grid, truncation and mode", "why_tests_cant": "The tests use one grid on which the default mode is not truncated.", "anchors": ["fluidsim/solvers/plate2d/init_fields.py: InitFieldsHarmonic.compute_wz_fft", "fluidsim/solvers/plate2d/state.py: init_state_from_wz_fft"]}
{"id": "C196", "title": "A simulation initialised from a file starts from the saved state", "statement": "init_fields.type = 'from_file' accepts a file if and only if its axes have the dimensions and lengths of the simulation; every variable needed by the solver gets the array of the file and the time and the iteration are those of the file; a file without one of the variables is refused.", "quantifier": "every file, list of needed variables and parameters", "why_tests_cant": "The tests load files written by the same solver.", "anchors": ["fluidsim/base/init_fields.py: InitFieldsFromFile.__call__"]}
{"id": "C197", "title": "The plots of the spectra of plate2d and sw1l show the records every delta_t", "statement": "plot1d and plot2d of plate2d and sw1l draw the records from the one closest to tmin to the one closest to tmax, every delta_t (to the nearest number of records, at least one), for every file which contains at least one record; only the means if delta_t = 0.", "quantifier": "every list of saved times, limits and delta_t", "why_tests_cant": "The tests plot short runs with several records, and do not look at the lines.", "anchors": ["fluidsim/solvers/plate2d/output/spectra.py: plot1d, plot2d", "fluidsim/solvers/sw1l/output/spectra.py: plot1d, plot2d"]}
{"id": "C198", "title": "The spectra drawn by plot2d of plate2d are the saved energies", "statement": "The lines of the records and of the means are the saved energies EK, EL and EE (up to 1e-15) and the total their sum.", "quantifier": "every values of the energies", "why_tests_cant": "The figures are not looked at.", "anchors": ["fluidsim/solvers/plate2d/output/spectra.py: plot2d"]}
{"id": "C199", "title": "The spectra drawn by plot2d of sw1l are the saved energies", "statement": "The lines drawn for the keys Etot, EK, EA, EKr, EKd are EK + EA, EK, EA, EKr and EK - EKr up to 5e-15, with the colour given for the key, for the records and for the means.", "quantifier": "every values of the energies, keys and colours", "why_tests_cant": "The figures are not looked at.", "anchors": ["fluidsim/solvers/sw1l/output/spectra.py: plot2d, _get_field_to_plot"]}
{"id": "C200", "title": "plot_diss of sw1l shows the dissipation", "statement": "The lines drawn by plot_diss are the spectra of the dissipation 2 (nu_2 kh^2 + nu_4 kh^4 + nu_8 kh^8) E.", "quantifier": "every viscosities and wave number", "why_tests_cant": "plot_diss is not tested.", "anchors": ["fluidsim/solvers/sw1l/output/spectra.py: plot_diss"]}
{"id": "C201", "title": "The spectra (kx, kz) of ns2d.strat are averaged between tmin and tmax", "statement": "spectra_multidim.plot shows, for the keys E, EK, EA, ap_fft and am_fft of its documentation, the mean of the records between tmin and tmax, included.", "quantifier": "every list of increasing times, limits and key", "why_tests_cant": "The tests call plot with one key and do not look at the figure.", "anchors": ["fluidsim/solvers/ns2d/strat/output/spectra_multidim.py: plot"]}
{"id": "C202", "title": "The figure of the spectra (kx, kz) has the right axes and shows the forced region", "statement": "The vertical wave numbers of spectra_multidim.plot are increasing from -(ny/2 - 1) to ny/2, each value stays at its wave number, and the rectangles are the forced region of tcrandom_anisotropic.", "quantifier": "every even ny, domain, angle in [0, pi/2] and limits of the forcing", "why_tests_cant": "The figure is not looked at.", "anchors": ["fluidsim/solvers/ns2d/strat/output/spectra_multidim.py: plot", "fluidsim/base/forcing/anisotropic.py: compute_cond_no_forcing"]}
{"id": "C203", "title": "The console commands take a shape of the dimension of the solver", "statement": "fluidsim bench, bench-analysis and profile deduce the dimension from the solver, from the option -d or from the number of given sizes, keep the given sizes and complete the missing ones; a 2D benchmark has two sizes and the classes of FFT have its dimension.", "quantifier": "every combination of given and missing n0, n1, n2, dimension and solver", "why_tests_cant": "The tests use a few command lines, none with three sizes for a 2D solver.", "anchors": ["fluidsim/util/console/util.py: parse_args_dim", "fluidsim/util/console/bench.py: get_opfft", "fluidsim/util/util.py: get_dim_from_solver_key"]}
{"id": "C204", "title": "The box of a benchmark has square or cubic cells", "statement": "After modif_box_size on a square (cubic) box, the mesh sizes are equal in all directions.", "quantifier": "all positive numbers of points and box sizes", "why_tests_cant": "The tests use equal numbers of points or do not look at the box.", "anchors": ["fluidsim/util/console/util.py: modif_box_size"]}
{"id": "C205", "title": "The estimated shapes for the weak scaling keep the load of a process", "statement": "estimate_shapes_weak_scaling gives, for the powers of nproc_min up to nproc_max, shapes whose number of points is proportional to the number of processes; the largest one has the given shape.", "quantifier": "all sizes (multiples of the largest number of processes), all nproc_min >= 2 and nproc_max, 2D and 3D", "why_tests_cant": "The shapes are printed and not checked.", "anchors": ["fluidsim/util/console/bench.py: estimate_shapes_weak_scaling"]}
{"id": "C206", "title": "bench-analysis loads the benchmarks of the solver", "statement": "load_bench returns the results of the given solver, on the given host(s), and only them.", "quantifier": "every list of saved results, solver key and host name", "why_tests_cant": "The tests run the analysis only in parallel, on a directory with one kind of result, and do not look at what is loaded.", "anchors": ["fluidsim/util/console/bench_analysis.py: load_bench", "fluidsim/util/console/util.py: get_path_file, bench"]}
{"id": "C207", "title": "The efficiency of the scaling plots is 100 % for the reference", "statement": "plot_scaling groups the runs (20 % quantile), the reference is the best time with the fewest processes; the efficiency is 100 % for it and the ratio of the costs (strong) or of the times (weak) otherwise, also with several directories.", "quantifier": "every list of runs (positive times, several processes), strong and weak scaling, every list of directories", "why_tests_cant": "The figures are not looked at.", "anchors": ["fluidsim/util/console/bench_analysis.py: plot_scaling, run"]}
{"id": "C208", "title": "The analysis of a profile accounts for the total time", "statement": "analyze_stats gives the time spent in the kinds of functions, with a total of at most 100 %, and lists the functions above the threshold; the slices of the pie are not negative and sum to 100 %.", "quantifier": "every profile with nonnegative times", "why_tests_cant": "The tests run the analysis without looking at the numbers.", "anchors": ["fluidsim/util/console/profile.py: analyze_stats, plot_pie"]}
{"id": "C209", "title": "The records of stdout.txt are loaded with their times", "statement": "sim.output.print_stdout.load() returns, for each complete record of stdout.txt (also when the last one has been cut by the end of the job or when the simulation has been continued), the printed iteration, time, time step and energies of this record.", "quantifier": "every file of records with the formats of ns3d (ns2d, plate2d, ad1d), ns2d.strat, sw1l, lorenz and predaprey, every header and end of the file", "why_tests_cant": "The tests load the file of one short complete simulation and do not compare with the written values.", "anchors": ["fluidsim/solvers/ns3d/output/print_stdout.py: load", "fluidsim/solvers/sw1l/output/print_stdout.py: load", "fluidsim/solvers/ns2d/strat/output/print_stdout.py: load", "fluidsim/solvers/models0d/lorenz/output/print_stdout.py: load", "fluidsim/solvers/models0d/predaprey/output/print_stdout.py: load"]}
{"id": "C210", "title": "The figure of the clock times is the step curve of the durations per time step", "statement": "plot_clock_times draws a step curve with the clock time per time step between two records, leaves out a last value which is not positive, and prints the mean of the values.", "quantifier": "every list of records with at least one record", "why_tests_cant": "The tests only call the method for one simulation.", "anchors": ["lib/fluidsim_core/output/remaining_clock_time.py: RemainingClockTime.plot_clock_times"]}
{"id": "C211", "title": "ns2d with the velocity as state computes the same flow as ns2d", "statement": "Started with the velocity of the same vorticity, and with the same time steps and forcing, the solver ns2d.with_uxuy gives at every time the velocity (divergence-free, without mean) of the vorticity given by ns2d, and the same energies, with all the time schemes.", "quantifier": "every set of wavenumbers, transforms, mask, beta, linear frequencies, scheme, sequence of time steps and forcing", "why_tests_cant": "The tests check that one nonlinear tendency conserves the energy and run a few steps with a forcing, without comparison with ns2d.", "anchors": ["fluidsim/solvers/ns2d/with_uxuy.py: Simul.tendencies_nonlin, TimeStepping.one_time_step_computation, Output.compute_energy_fft", "fluidsim/solvers/ns2d/solver.py: Simul.tendencies_nonlin, compute_Frot"]}
{"id": "C212", "title": "The velocity of ns2d.with_uxuy stays divergence-free and its mean is constant", "statement": "After a time step from any velocity, the velocity is divergence-free and dealiased; without mean forcing its mean is not changed; the projection keeps the vorticity and the divergence-free velocities.", "quantifier": "every velocity (also with a mean and a divergence), scheme, time step and forcing without mean", "why_tests_cant": "The test runs a few steps from one initial state without mean flow.", "anchors": ["fluidsim/solvers/ns2d/with_uxuy.py: TimeStepping.one_time_step_computation"]}
{"id": "C213", "title": "ns2d.with_uxuy can be initialised like ns2d", "statement": "init_statespect_from accepts the velocity, the vorticity or one component of the velocity, and gives the same flow as ns2d; a simulation can be started from the file of another one.", "quantifier": "every field, every order of the arguments", "why_tests_cant": "The test uses one type of initial state and never loads a file.", "anchors": ["fluidsim/solvers/ns2d/with_uxuy.py: State", "fluidsim/solvers/ns2d/state.py: StateNS2D.statespect_from_statephys, init_statespect_from", "fluidsim/base/init_fields.py: InitFieldsFromFile"]}
{"id": "C214", "title": "sphere.sw1l solves the shallow water equations in the vector-invariant form", "statement": "The tendencies of sphere.sw1l are the rotational and the divergence of the acceleration (absolute vorticity times velocity minus the gradient of the head) and minus the divergence of (1 + eta) u; the means are constant, the energy is constant, the linear potential vorticity rot - f eta has no linear tendency for a constant f, and a fluid at rest stays at rest.", "quantifier": "every state, Coriolis parameter, wave speed, and every set of operators with the identities of the vector calculus", "why_tests_cant": "The tests of this solver are skipped without fluidsht and only run a few steps.", "anchors": ["fluidsim/solvers/sphere/sw1l/solver.py: compute_Frot, SimulSphereSW1L.tendencies_nonlin", "fluidsim/solvers/sphere/sw1l/state.py: compute"]}
{"id": "C215", "title": "The states of the solvers on the sphere are consistent after the initialisation", "statement": "After init_from_uxuyeta or init_statespect_from, the physical and the spectral states describe the same fields, the given arrays are used (or an error is raised), and the tendencies do not depend on the state from which they are computed.", "quantifier": "every resolved field, every single key", "why_tests_cant": "The tests initialise with one type of fields.", "anchors": ["fluidsim/solvers/sphere/sw1l/state.py: StateSphericalHarmoSW1L", "fluidsim/base/sphericalharmo/state.py: StateSphericalHarmo", "fluidsim/solvers/sphere/ns2d/solver.py: SimulSphereNS2D.tendencies_nonlin"]}
{"id": "C216", "title": "The coarse grid of the milestone forcing has cells of the aspect ratio of the domain and is coarser than the grid of the simulation", "statement": "With params.forcing.milestone.nx_max, the coarse operator has nx_max points in x and an even positive number of points in y, with cells as close to squares as possible, and it is not finer than the grid of the simulation in any direction; nx_max larger than nx is rejected.", "quantifier": "every domain, resolution and nx_max", "why_tests_cant": "The domains of the tests have square cells.", "anchors": ["fluidsim/base/forcing/milestone.py: ForcingMilestone.__init__, _init_operators"]}
{"id": "C217", "title": "The milestone forcing pulls the fluid in the objects towards their velocity", "statement": "At every time the solid on the grid of the simulation is the truncated coarse solid, independent of z, whatever the previous times; the force is zero out of the objects and where the fluid moves with the objects, and it pulls both components of the velocity towards the velocity of the objects.", "quantifier": "every coarse solid, resolution, velocity, speed, number of times, number of processes", "why_tests_cant": "The tests run a few time steps for each type of movement without checking the force.", "anchors": ["fluidsim/base/forcing/milestone.py: ForcingMilestone.compute, _full_from_coarse", "fluidsim/solvers/ns3d/forcing/milestone.py: ForcingMilestone3D", "fluidsim/operators/operators3d.py: build_invariant_arrayX_from_2d_indices12X"]}
{"id": "C218", "title": "The files of the state do not depend on the number of processes", "statement": "save_file writes all the fields of the state with their keys, shapes and values, and the attributes (time, it, name of the run, axes, particular_attr), whether the run is sequential, parallel with gathered fields or parallel with a parallel HDF5 library; the names of the netCDF dimensions are distinct; a layout which is not supported is an error.", "quantifier": "every number of processes and distribution of the two first dimensions, every fields, order of the writings", "why_tests_cant": "The tests with parallel HDF5 need a special build of h5py and use one number of processes.", "anchors": ["fluidsim/util/output.py: save_file, _create_variable"]}
{"id": "C219", "title": "With constant_rate_of, the forcing of ns2d.strat injects the asked rate of energy", "statement": "With params.forcing.normalized.constant_rate_of = energy (or energyK) and key_forced = rot_fft or ap_fft, one step deltat with the normalized forcing alone increases the total (or kinetic) energy by deltat * forcing_rate, whatever the state; other values are errors.", "quantifier": "every state, random forcing, N, deltat, set of modes and root of the polynomial", "why_tests_cant": "The tests run the forcings with one state and do not compare the injected energy.", "anchors": ["fluidsim/solvers/ns2d/strat/forcing.py: compute_coef_ab_normalize", "fluidsim/solvers/ns2d/strat/state.py: compute_rotbfft_from_apfft, compute", "fluidsim/base/forcing/specific.py: normalize_forcingc_2nd_degree_eq"]}
{"id": "C220", "title": "The description for Paraview describes the arrays of the files of the state", "statement": "create_description_xmf_file writes one grid per file, with its time, dimensions and steps, one scalar per key and one vector for each set of components in the keys; every array which is mentioned is in the file.", "quantifier": "every list of files, every keys, in 1D, 2D and 3D", "why_tests_cant": "The test only checks that a file is created for one 3D run.", "anchors": ["fluidsim/base/output/__init__.py: create_description_xmf_file"]}
{"id": "C221", "title": "The correlations of frequencies are the means of products of the transform in time", "statement": "compute_correl4 and compute_correl2 give the mean over all the points of all the processes of w(o1) w(o2) w(o3)* w(o4)* with o2 = o3 + o4 - o1, and of w(o1) w(o2)*, where w is the discrete Fourier transform in time of the real signal; C4 is symmetric in o3 and o4, C2 is Hermitian with a nonnegative diagonal; the frequencies o1 above the Nyquist frequency are rejected.", "quantifier": "every number of times, points, processes, every real signals, every frequencies of the arrays", "why_tests_cant": "The test of plate2d runs a few time steps with one number of times and does not check the values.", "anchors": ["fluidsim/solvers/plate2d/output/correlations_freq.py: compute_correl4_seq, compute_correl2_seq, compute_correl4, compute_correl2, CorrelationsFreq.__init__"]}
{"id": "C222", "title": "The saved correlations are means over all the windows, also after a restart, and the cumulants vanish for Gaussian signals", "statement": "After k windows the arrays corr2 and corr4 are the means over the k windows, the file contains the means for the recorded numbers, and a simulation which continues in the same directory gives the mean over all the windows; the cumulant is C4 - C2(o1,o3) C2(o2,o4) - C2(o1,o4) C2(o2,o3); plot_corr4 has one subplot for each o1.", "quantifier": "every list of windows, every time of the restart, every signals and frequencies, every number of o1", "why_tests_cant": "The test does not reach the second window and does not restart.", "anchors": ["fluidsim/solvers/plate2d/output/correlations_freq.py: CorrelationsFreq.__init__, _online_save, compute_corr4_norm, plot_corr4"]}
{"id": "C223", "title": "A cross section is the plane of the field described by its equation", "statement": "With an equation iz=..., z=..., iy=..., y=..., ix=... or x=..., the plotted array is the field on the plane with this index (or on the nearest plane), for the state and for the files; the axes, the labels and the keys of the vectors are those of the two other directions; another equation is an error.", "quantifier": "every 3D field and shape, every equation, every values of the index and of the coordinate", "why_tests_cant": "The tests plot a few sections of one field without checking the arrays.", "anchors": ["fluidsim/base/output/phys_fields.py: get_field_to_plot_from_state, _get_axis_data, _get_field_to_plot_from_file", "fluidsim/base/output/phys_fields3d.py: _get_xylabels_from_equation, set_equation_crosssection", "fluidsim/base/output/phys_fields2d.py: get_vector_for_plot, _init_online_plot", "fluidsim/operators/operators3d.py: get_grid1d_seq"]}
{"id": "C224", "title": "sim.output.phys_fields.plot plots what is asked", "statement": "plot uses the state when no time is given and the files otherwise; without key it takes params.output.phys_fields.field_to_plot or a variable which can be obtained; a key which can not be obtained at this time is a ValueError; a given array is plotted; plot_mean is the mean of the fields of the files between tmin and tmax.", "quantifier": "every keys of the state and computable, every arguments, every times of the files, in 1D, 2D and 3D", "why_tests_cant": "The tests call plot with a few arguments and do not check the source of the data.", "anchors": ["fluidsim/base/output/phys_fields.py: get_key_field_to_plot, get_field_to_plot", "fluidsim/base/output/phys_fields1d.py: plot", "fluidsim/base/output/phys_fields2d.py: plot", "fluidsim/base/output/phys_fields3d.py: plot, plot_mean"]}
{"id": "C225", "title": "Conv is the rate of conversion of potential into kinetic energy", "statement": "Without forcing and dissipation the value Conv written in the file of the spatial means of the sw1l solvers is the rate of decrease of the potential energy; Conv is c2eta1d + c2eta2d / 2.", "quantifier": "every state of a simulation with a truncation without aliasing, every f, every c2", "why_tests_cant": "The tests only check that the file can be loaded and plotted.", "anchors": ["fluidsim/solvers/sw1l/output/spatial_means.py: treat_conversion", "fluidsim/solvers/sw1l/solver.py: tendencies_nonlin", "fluidsim/solvers/sw1l/modified/solver.py: tendencies_nonlin"]}
{"id": "C226", "title": "The skewness and the kurtosis of the surface, of the vorticity and of the divergence", "statement": "The written values are the third and fourth moments divided by the powers 3/2 and 2 of the second moment, zero for a field equal to zero; they do not depend on the amplitude of the field; the kurtosis is at least 1 and at least the square of the skewness (plus 1 for a field of zero mean).", "quantifier": "every state of a simulation with a truncation without aliasing, every c2 > 0", "why_tests_cant": "The tests do not look at these values.", "anchors": ["fluidsim/solvers/sw1l/output/spatial_means.py: _save_one_time"]}
{"id": "C227", "title": "The forcing used for the injection rates of the sw1l solvers is the forcing of the velocity and of the surface", "statement": "get_FxFyFetafft returns the change per unit of time of ux, uy and eta due to the forcing of the variables of the state, for the solvers with the states (ux, uy, eta), (q, ap, am) and (ap, am).", "quantifier": "every forcing, every state, every f and c2, every wavenumber", "why_tests_cant": "The only tests of the forcing of these solvers do not compare the injection with the change of the energy.", "anchors": ["fluidsim/solvers/sw1l/output/spatial_means.py: get_FxFyFetafft", "fluidsim/solvers/sw1l/onlywaves/state.py: statephys_from_statespect", "fluidsim/solvers/sw1l/operators.py: uxuyetafft_from_afft, uxuyetafft_from_qapamfft"]}
{"id": "C228", "title": "get_spectra loads what it saved", "statement": "A second call of spatiotemporal_spectra.get_spectra with the same times and dtype loads what the first one computed and saved, and what is loaded was computed for these times and this dtype.", "quantifier": "every history of saved periodograms (with a dtype in 3d), all times", "why_tests_cant": "The tests call the function twice but do not look at whether the second call loads the file.", "anchors": ["fluidsim/base/output/spatiotemporal_spectra.py: get_spectra, load_temporal_spectra, _get_path_saved_spectra, _get_path_saved_tspectra"]}
{"id": "C229", "title": "The times used by default for the temporal spectra", "statement": "Without tmax, the last time of the recorded signals is used (without signals the greatest tmax of the saved periodograms, without periodograms t_end). Without tmin, plot_temporal_spectra uses the one of the last saved periodogram, or computes the spectra.", "quantifier": "every set of files, every format of the floats that can be read back", "why_tests_cant": "The tests only plot after one periodogram has been saved.", "anchors": ["fluidsim/base/output/spatiotemporal_spectra.py: _get_default_tmax, _get_default_tmin_periodogram, plot_temporal_spectra, sort_files_tmin"]}
{"id": "C230", "title": "The forcing of the poloidal and toroidal velocities and of the buoyancy injects forcing_rate in ns3d", "statement": "With a normalized forcing and key_forced = vp_fft or vt_fft, one step deltat with the forcing alone increases the kinetic energy by deltat * forcing_rate (2 * forcing_rate for the list of the two keys); with b_fft the mean of b^2/2 increases by deltat * forcing_rate; with rotz_fft the mean of rotz^2/2.", "quantifier": "every divergence-free state, every raw forcing, every deltat and rate, every set of wavenumbers", "why_tests_cant": "The tests run a few steps with one key and do not look at the energy.", "anchors": ["fluidsim/base/forcing/specific.py: NormalizedForcing.compute, normalize_forcingc_2nd_degree_eq", "fluidsim/solvers/ns3d/state.py: init_statespect_from, compute", "fluidsim/solvers/ns3d/solver.py: tendencies_nonlin, project_state_spect"]}
{"id": "C231", "title": "The forcing of a component of the velocity injects forcing_rate in ns3d", "statement": "With a normalized forcing and key_forced = vx_fft, vy_fft, vz_fft or divh_fft, one step deltat with the forcing alone increases the kinetic energy (or the mean square of the forced variable) by deltat * forcing_rate.", "quantifier": "every divergence-free state, every raw forcing, every deltat and rate, every set of wavenumbers", "why_tests_cant": "The tests run a few steps and do not look at the energy.", "anchors": ["fluidsim/base/forcing/specific.py: NormalizedForcing.compute, normalize_forcingc_2nd_degree_eq", "fluidsim/solvers/ns3d/state.py: init_statespect_from", "fluidsim/solvers/ns3d/solver.py: tendencies_nonlin, project_state_spect"]}
{"id": "C232", "title": "The dimensionless numbers of ns3d do not depend on the units", "statement": "With other units of length and time, get_dimless_numbers_versus_time of ns3d and ns3d.strat gives the same Fh, R2, R4, R8, Gamma, k_max*eta and epsK2/epsK, and the dimensional quantities are multiplied by the factor of their dimension; R_n is the Reynolds number of order n times Fh^n, epsK2/epsK the share of the viscosity nu_2 and eta the Kolmogorov length.", "quantifier": "all saved data, all viscosities (zero or not), all units", "why_tests_cant": "The tests only call the plot functions of one simulation in one system of units.", "anchors": ["fluidsim/solvers/ns3d/output/spatial_means.py: get_dimless_numbers_versus_time", "fluidsim/solvers/ns3d/strat/output/spatial_means.py: get_dimless_numbers_versus_time"]}
{"id": "C233", "title": "The averaged numbers are means over [tmin, tmax]", "statement": "get_dimless_numbers_averaged(tmin, tmax) returns for each number the mean of its values at the saved times of [tmin, tmax], and R2 of the averages is the average of R2.", "quantifier": "every increasing list of times, every data, every tmin and tmax", "why_tests_cant": "The tests call it with the default arguments and do not look at the values.", "anchors": ["fluidsim/solvers/ns3d/output/spatial_means.py: get_dimless_numbers_averaged, _compute_indices_tmin_tmax"]}
{"id": "C234", "title": "The frequencies of ns2d.strat are consistent with the dimension of the forcing rate", "statement": "The ratio gamma of the frequency of the waves and of the frequency of the forcing, and the limit of the time step due to the forcing, describe the same simulation in all units: gamma does not change and the limit is multiplied by the factor of a time, for a rate of enstrophy, of ap_fft squared or of energy.", "quantifier": "every rate, wavenumbers, sizes of the domain and units", "why_tests_cant": "The tests use one system of units, and the values are only printed in the name of the run.", "anchors": ["fluidsim/solvers/ns2d/strat/output/__init__.py: _init_froude_number, _compute_ratio_omegas", "fluidsim/solvers/ns2d/strat/time_stepping.py: _compute_time_increment_forcing"]}
{"id": "C235", "title": "The curves of plot_dt_energy, plot_dt_enstrophy and plot_dt_E coincide for a closed budget", "statement": "If the energy (enstrophy) is a polynomial of degree 2 of the time and injection minus dissipation is its derivative at the saved times, the plotted curve of the derivative is the curve of injection minus dissipation, but for the first and the last points; for a steady budget everywhere.", "quantifier": "every list of increasing times (regular or not), with and without forcing, ns2d, ns3d and ns3d.strat", "why_tests_cant": "The tests call the functions with a forcing only and do not look at the curves.", "anchors": ["fluidsim/solvers/ns2d/output/spatial_means.py: plot_dt_energy, plot_dt_enstrophy", "fluidsim/solvers/ns3d/output/spatial_means.py: plot_dt_E"]}
{"id": "C236", "title": "The curves of plot_dt_energy of ns2d.strat coincide for a closed budget", "statement": "If the energy is a polynomial of degree 2 of the time and P - eps is its derivative at the saved times, the points of both curves are on the graph of the derivative.", "quantifier": "every list of increasing times, with and without forcing", "why_tests_cant": "The tests do not look at the curves.", "anchors": ["fluidsim/solvers/ns2d/strat/output/spatial_means.py: plot_dt_energy"]}
{"id": "C237", "title": "The cumulative dissipation spectra are shares of the total dissipation", "statement": "plot3d_cumul_diss (plot_kzkh_cumul_diss) plots for each k (kh, kz) the share of the total dissipation due to nu_2 and to nu_4 of the modes up to k; the curves increase from 0 and the sum of their last values is 1.", "quantifier": "every non-negative spectrum, every viscosities", "why_tests_cant": "The tests only call the functions for one spectrum.", "anchors": ["fluidsim/solvers/ns3d/output/spectra.py: plot3d_cumul_diss", "fluidsim/solvers/ns3d/strat/output/spectra.py: plot_kzkh_cumul_diss"]}
{"id": "C238", "title": "The texts of the parameters in the name of the run are the formatted numbers", "statement": "The text obtained after the removal of the useless characters (final zeros, final point, plus of the exponent) reads as the same number as the formatted text; it has no final zero after the point and no final point.", "quantifier": "every decimal text with or without sign, point and exponent, every format", "why_tests_cant": "Infinity of numbers; only the default formats are used in the tests.", "anchors": ["lib/fluidsim_core/output/base.py: SimReprMakerCore._make_list_repr"]}
{"id": "C239", "title": "A simulation loaded from its directory gets the name of its directory", "statement": "With NEW_DIR_RESULTS = False, the name of the run made from the words, the parameters and the time found in path_run is the name of the directory.", "quantifier": "every list of words and parameters (also with underscores), every parent directory (also with underscores), directory moved or renamed at the end of the simulation", "why_tests_cant": "The tests do not rename the directories.", "anchors": ["lib/fluidsim_core/output/base.py: SimReprMakerCore.make_representations, time_from_path_run, get_time_as_str", "fluidsim/base/output/base.py: SimReprMaker.get_time_as_str, end_of_simul"]}
{"id": "C240", "title": "Each word and parameter appears once in the name of the run", "statement": "add_parameters keeps the words in order, adds each key exactly once (at its index if it has one, otherwise at the end) with its value; each item of the name is made with the given format or .3f for the floats.", "quantifier": "every maker, dictionaries of parameters, formats and indices", "why_tests_cant": "All dictionaries.", "anchors": ["lib/fluidsim_core/output/base.py: SimReprMakerCore.add_word, add_parameters, _make_list_repr"]}
{"id": "C241", "title": "The linear modes of ns2d.strat are the internal waves", "statement": "ap_fft and am_fft evolve as exp(-i omega t) and exp(i omega t) with the linear terms of the tendencies, omega = N kx / k; a state initialised with ap_fft (am_fft) has this mode and not the other one; the two modes give back the state and its energy for kx != 0, and vanish for kx = 0.", "quantifier": "every wavevector, state, N != 0", "why_tests_cant": "All wavevectors and states; the tests only check the types.", "anchors": ["fluidsim/solvers/ns2d/strat/state.py: compute, compute_rotbfft_from_amfft, compute_rotbfft_from_apfft, init_from_apfft, init_from_amfft", "fluidsim/solvers/ns2d/strat/solver.py: compute_dispersion_relation, tendencies_nonlin"]}
{"id": "C242", "title": "The initial grid of vortices of sw1l has no net circulation", "statement": "The field is a sum of gaussian vortices of amplitude omega_max centred in n_vort x n_vort cells, half of them of each sign; the sum of the vorticity over the grid is zero. An odd n_vort is an error.", "quantifier": "every n_vort, sizes of the domain, standard deviation, result of the shuffle", "why_tests_cant": "The tests use one value of n_vort and do not look at the field.", "anchors": ["fluidsim/solvers/sw1l/init_fields.py: InitFieldsVortexGrid.vortex_grid_shape, _random_plus_minus_list"]}
{"id": "C243", "title": "The computation does not depend on HAS_TO_SAVE", "statement": "Two simulations which differ only by params.output.HAS_TO_SAVE compute the same states, times, time steps and forcings.", "quantifier": "every state, forcing (with any memory), preprocessing, CFL option, number of time steps", "why_tests_cant": "All forcings and all orders of initialisation; the tests do not compare runs which save and runs which do not.", "anchors": ["fluidsim/base/solvers/base.py: SimulBase.__init__", "fluidsim/base/output/base.py: OutputBase.post_init, init_with_initialized_state", "fluidsim/base/time_stepping/base.py: prepare_main_loop, one_time_step", "fluidsim/base/forcing/base.py: ForcingBase.compute"]}
{"id": "C244", "title": "The first record of an output is the state from which the computation starts", "statement": "The outputs are initialised once, and their first record contains the initial time, the state of the beginning of the time loop and the forcing of the first time step; there is only one record of this time.", "quantifier": "every state, forcing, preprocessing, period of the output > 0", "why_tests_cant": "All orders of initialisation; the tests only look at the existence of the files.", "anchors": ["fluidsim/base/output/base.py: OutputBase.post_init, init_with_initialized_state, SpecificOutput._init_files, _online_save", "fluidsim/base/solvers/base.py: SimulBase.__init__", "fluidsim/base/time_stepping/base.py: prepare_main_loop"]}
{"id": "C245", "title": "The curves of plot_freq_diss are the dissipation frequencies of the modes", "statement": "The curve total is the frequency of compute_freq_diss for the modes of the axis, there is one curve for each viscosity which is not zero, and the modes of the axis which are not removed by the dealiasing are plotted.", "quantifier": "every dimension, direction, resolution, size, viscosities, coef_dealiasing", "why_tests_cant": "A figure: the tests do not look at its curves.", "anchors": ["fluidsim/base/solvers/pseudo_spect.py: plot_freq_diss, compute_freq_diss", "fluidsim/operators/operators1d.py: OperatorsPseudoSpectral1D.__init__"]}
{"id": "C246", "title": "The curves of plot_fluxes close the budget", "statement": "If the mean budget is closed in each cell (kz, kh), the curve (Pi + D) / epsilon is the share of the energy injected at the wavenumbers smaller than the abscissa and ends at 1; with stratification Pi_K + D_K + B and Pi_A + D_A - B are the shares injected as kinetic and potential energies; the abscissas are the limits of the cells.", "quantifier": "every spectrum, resolution, direction kh or kz", "why_tests_cant": "A figure: the tests only call the method.", "anchors": ["fluidsim/solvers/ns3d/output/spect_energy_budget.py: compute_fluxes_mean, plot_fluxes", "fluidsim/solvers/ns3d/strat/output/spect_energy_budget.py: plot_fluxes"]}
{"id": "C247", "title": "A state saved with a modified resolution is the interpolated state with its time and iteration", "statement": "modif_resolution_from_dir and modif_resolution_from_dir_memory_efficient write in State_phys_{nx}x{ny}[x{nz}] a file with all the variables of the state, each interpolated on the new grid independently of the other ones, with the time and the iteration of the state; the new sizes are the sizes multiplied by the coefficient; each call writes its file, whatever the files of the directory.", "quantifier": "every state, set of variables, resolution, coefficient and content of the directory", "why_tests_cant": "A test converts one state, once, in an empty directory; the buffer shared by the variables and the existing files do not matter then.", "anchors": ["fluidsim/util/util.py: modif_resolution_from_dir, StatePhysLike.get_var, modif_resolution_from_dir_memory_efficient", "fluidsim/util/output.py: save_file", "fluidsim/base/output/phys_fields.py: save", "fluidsim/base/init_fields.py: _get_state_from_simul"]}
{"id": "C248", "title": "The last estimated remaining duration is found in the log", "statement": "get_last_estimated_remaining_duration returns the duration of the last line 'estimated remaining duration = ...' of stdout.txt; it raises a ValueError without file and a RuntimeError if there is no such line.", "quantifier": "every log file and duration", "why_tests_cant": "Tests have short logs; only the end of the file is read.", "anchors": ["fluidsim/util/util.py: get_last_estimated_remaining_duration"]}
{"id": "C249", "title": "Extending a class of simulation only creates a new class", "statement": "extend_simul_class(Simul, extenders) returns a class with the extenders of Simul followed by the new ones, and does not change Simul or any other class; a saved simulation is loaded with its extenders.", "quantifier": "every sequence of extensions", "why_tests_cant": "Tests extend a solver once; the lists shared by a class and its children only matter for the second extension.", "anchors": ["lib/fluidsim_core/extend_simul.py: extend_simul_class, _extend_simul_class_from_path", "lib/fluidsim_core/info.py: InfoSolverCore.__init__"]}
{"id": "C250", "title": "The classes of a simulation are those of its object info_solver", "statement": "import_classes returns the classes described by info_solver, including the modifications made by the extenders (classes of forcing, of outputs, models of turbulence, first-level classes).", "quantifier": "every description of a solver and every modification by the extenders", "why_tests_cant": "Only the extenders of the package are tested; the cache hides the other modifications.", "anchors": ["lib/fluidsim_core/info.py: InfoSolverCore.import_classes, complete_with_classes", "fluidsim/base/turb_model/base.py: modif_infosolver_turb_model, SpecificTurbModel"]}
{"id": "C251", "title": "Each class of a solver completes the default parameters exactly once, in a defined order", "statement": "iter_complete_params calls the method _complete_params_with_default of each class once, with or without info_solver according to its arguments, in the order of the list or of the sorted keys; _create_params calls the solver first, then its classes, and accepts an object InfoSolver or a module of solver.", "quantifier": "every set of classes and methods", "why_tests_cant": "The double call hidden by the TypeError, and the order, can not be seen with the existing classes.", "anchors": ["lib/fluidsim_core/params.py: iter_complete_params, Parameters._create_params"]}
{"id": "C252", "title": "The parameters and the information on the solver are loaded from the right file", "statement": "_load_params_simul and _load_info_solver of a directory use params_simul.xml (info_solver.xml) if it exists and otherwise the first state file in the order of the names, whatever the order of the directory; of a file, the file itself; otherwise a ValueError. With only_mpi_rank0 = False all the processes have the result of the process 0.", "quantifier": "every directory, order of the files, number of processes", "why_tests_cant": "The order of the files given by the file system can not be chosen in a test.", "anchors": ["lib/fluidsim_core/params.py: Parameters._load_params_simul, _load_info_solver"]}
{"id": "C253", "title": "find_path_result_dir returns an existing directory", "statement": "find_path_result_dir returns an absolute path of an existing directory: the path itself, or the one of the working directory, or else the one of FLUIDSIM_PATH; ValueError if there is none.", "quantifier": "every path and file system", "why_tests_cant": "Precedence between directories of the same name.", "anchors": ["lib/fluidsim_core/paths.py: find_path_result_dir"]}
{"id": "C254", "title": "The parameters of the benchmarks are those of the documentation", "statement": "modif_params2d and modif_params3d set n0, n1 (and n2) points along x, y (and z), a fixed time step, it_end iterations and no output; parameters which the solver does not have are not created.", "quantifier": "every solver, size and option", "why_tests_cant": "Tests use equal sizes, for which the axes can not be distinguished.", "anchors": ["fluidsim/util/console/util.py: modif_params2d, modif_params3d"]}
{"id": "C255", "title": "The adaptive time step uses all the components of the velocity of the state", "statement": "When the variables of a state contain a velocity (names ux, uy, uz or vx, vy, vz) and USE_CFL is true, the computation of the time step uses all its components (and the height for shallow water); without velocity it uses params.U or fails when the simulation is created; the CFL number is cfl_coef or 0.4 (RK2 and Euler) or 1 (RK4); has_vars is true exactly when get_var gives all the variables.", "quantifier": "every state, all its keys and every time scheme", "why_tests_cant": "Tests create one simulation per solver, with the names of this solver.", "anchors": ["fluidsim/base/time_stepping/base.py: _init_compute_time_step", "fluidsim/base/state.py: has_vars, get_var"]}
{"id": "C256", "title": "The transfers by the rotational and the divergent velocities conserve the square of the field", "statement": "fnonlinfft_from_uruddivfunc returns two terms whose work on the field, summed over all the modes, is zero, and whose sum is the skew-symmetric form -(u.grad f + div(u f))/2 of the advection by the total velocity.", "quantifier": "every velocity and real field, without aliasing", "why_tests_cant": "Tests never call this method.", "anchors": ["fluidsim/base/output/spect_energy_budget.py: fnonlinfft_from_uruddivfunc"]}
{"id": "C257", "title": "A run with a fixed time step does the expected number of steps in double precision", "statement": "With USE_CFL False, a fixed time step deltat0 and t_end = n * deltat0 (computed in double precision), main_loop does n steps, started at the time 0, and ends at t_end; a run with a positive time step always ends.", "quantifier": "every binary64 time step, end time and number of steps, IEEE 754 rounding", "why_tests_cant": "The number of steps depends on the last bits of the sum of the time steps; tests only use a few values.", "anchors": ["fluidsim/base/time_stepping/base.py: main_loop, one_time_step"]}
{"id": "C258", "title": "Outputs saved with a period are saved once per period in double precision", "statement": "With a fixed time step and a period which is a multiple of it, the test of _online_save saves at the initial time and then once per period; at every time the last save is less than one period ago and two saves are separated by at least one period.", "quantifier": "every binary64 period and list of times, IEEE 754 rounding", "why_tests_cant": "The test compares a rounded difference with the period: it depends on the last bits of the times.", "anchors": ["fluidsim/base/output/base.py: SpecificOutput._online_save"]}
{"id": "C259", "title": "Outputs saved at the multiples of the period are saved once per multiple in double precision", "statement": "The test (t + 1e-15) // period > t_last_save // period (spatial means, print_stdout, temporal and spatiotemporal spectra) is true exactly when a multiple of the period has been passed since the last save; with a fixed time step and a period which is q time steps, the outputs are saved every q steps and the 1e-15 hides the rounding errors of the times.", "quantifier": "every binary64 time, last time and period (less than 2^50 periods), IEEE 754 rounding", "why_tests_cant": "The operator // of floats and the sum with 1e-15 depend on the last bits; the effect changes with the time of the simulation.", "anchors": ["fluidsim/base/output/base.py: SpecificOutput._has_to_online_save", "fluidsim/base/output/print_stdout.py: _online_print", "fluidsim/base/output/spatial_means.py: __call__"]}
{"id": "C260", "title": "The random and proportional forcings force exactly the modes of the shell", "statement": "With the forcings which are not anisotropic, the forced modes are exactly the modes of the simulation with nkmin_forcing deltak <= |k| <= nkmax_forcing deltak, in 2 and 3 dimensions.", "quantifier": "every domain, every nkmin_forcing and nkmax_forcing, with and without pulp", "why_tests_cant": "Tests check the injection rate, which does not depend on the set of forced modes.", "anchors": ["fluidsim/base/forcing/specific.py: SpecificForcingPseudoSpectralCoarse.__init__, _compute_cond_no_forcing, _create_params_coarse"]}
{"id": "C261", "title": "A forcing is refused exactly when the grid of the simulation can not represent it", "statement": "The creation of the forcing fails when nkmax_forcing < nkmin_forcing, when the resolution is too small for the forced modes (after the truncation) and when no mode is in the forced shell, and only in these cases.", "quantifier": "every grid, domain, nkmin_forcing and nkmax_forcing, with and without pulp", "why_tests_cant": "Tests use resolutions which are much larger than the coarse grid.", "anchors": ["fluidsim/base/forcing/specific.py: SpecificForcingPseudoSpectralCoarse.__init__, _check_forcing_shape"]}
{"id": "C262", "title": "A solver is found by its name, and the errors of its import are reported", "statement": "import_cls_simul(key, entrypoint_grp) returns the class Simul of the module registered under key, for the short name and for the name preceded by the group. A name which is not registered raises ValueError. An error raised by the import of the module of a registered solver reaches the caller unchanged.", "quantifier": "for all groups, all lists of entry points of different names and all keys", "why_tests_cant": "the tests import the solvers of the package, which are all importable; no solver whose import fails is registered", "anchors": ["lib/fluidsim_core/loader.py:33-74"]}
{"id": "C263", "title": "The files of the parameters contain the parameters of the simulation, whenever it is interrupted", "statement": "When a simulation starts in a new directory, info_solver.xml and params_simul.xml contain the final parameters, those modified by the preprocessing when it is enabled. Only the process of rank 0 writes them. Once params_simul.xml exists, an interruption never leaves the directory without it.", "quantifier": "for all parameters, with or without preprocessing, and for an interruption between any two operations on the files", "why_tests_cant": "an interruption in the few operations of the replacement cannot be produced by a test", "anchors": ["lib/fluidsim_core/output/base.py:346-375", "fluidsim/base/output/base.py:251-261", "fluidsim/base/preprocess/pseudo_spect.py:37"]}
{"id": "C264", "title": "The arrows of a figure are separated by about 4 % of the shortest edge", "statement": "The arrows drawn over a 2D field are regularly spaced from 0, inside the domain, and cover it. The distance between neighbours, along x and along y, is 4 % of the shortest edge of the domain to within half a cell, or one cell if the cells are larger.", "quantifier": "for all numbers of points and all lengths of the edges", "why_tests_cant": "the tests draw figures and do not look at the arrows; the grids have square cells", "anchors": ["lib/fluidsim_core/output/phys_fields.py:89-105", "fluidsim/base/output/phys_fields2d.py:125-137", "fluidsim/base/output/phys_fields2d.py:421-433"]}
{"id": "C265", "title": "The last time of a simulation is found in the file of the spatial means", "statement": "get_last_time_spatial_means_from_path returns the last time saved in spatial_means.txt or spatial_means.json, whatever the sizes of the records, and for a simulation stopped while it was writing.", "quantifier": "for all files, as lists of lines of any sizes", "why_tests_cant": "the records of the tests are short and complete", "anchors": ["fluidsim/util/util.py:735-762"]}
{"id": "C266", "title": "In the figure of the budget of ns2d.strat each value is drawn at its time", "statement": "plot_dt_energy draws the slope of the energy between two successive times at the middle of these times, and P - epsilon, P and epsilon at the times at which they were saved.", "quantifier": "for all lists of times and of values", "why_tests_cant": "the tests draw the figure and do not look at the positions of the points", "anchors": ["fluidsim/solvers/ns2d/strat/output/spatial_means.py:311-357"]}
{"id": "C267", "title": "verify_injection_rate prints the injection rate of the forcing over one time step", "statement": "The printed P_f = P_1 + P_2 is the change of half of the sum over the modes of the squared modulus of the forced variable, due to the constant forcing alone during one time step, divided by the time step. The modes which are not forced do not contribute, so the same value is obtained on the coarse arrays.", "quantifier": "for all states, forcings, weights of the modes and time steps different from 0", "why_tests_cant": "the tests call the method and do not compare what is printed", "anchors": ["fluidsim/base/forcing/specific.py:292-328"]}
{"id": "C268", "title": "read_hexadata returns the content of the file which is asked", "statement": "read_hexadata returns the data of the file of the given path or of the given index, negative indices being counted from the end, and of the last file by default, as they are at the time of the call. A path and an index together, or a missing file, raise an exception. At most two files are kept in memory.", "quantifier": "for all lists of files, all contents and all histories of calls", "why_tests_cant": "the tests read each file once or twice and do not modify it between two calls", "anchors": ["lib/fluidsim_core/hexa_files.py:223-242"]}
{"id": "C269", "title": "The arrows over hexahedral elements are the velocities of the chosen points, scaled by the largest velocity of the section", "statement": "compute_vectors_quiver returns the velocities of the chosen points of each element and nothing else, one per chosen point, and the largest norm of the velocity over all the points of all the elements, which bounds the norms of the arrows.", "quantifier": "for all lists of non-empty elements and all choices of points in the elements", "why_tests_cant": "the tests draw a few sections and do not look at the arrows", "anchors": ["lib/fluidsim_core/hexa_files.py:398-413"]}
{"id": "C270", "title": "The picked value of the correlations is the mean around four times the first frequency", "statement": "_compute_norm_pick_corr4 gives, for each recorded number of means, the modulus of the mean of the correlations over the pairs of frequencies at a distance of at most delta_io indices from 4 omega_1; _compute_dnormpickC4_over_dnbmean gives its relative slope for each number of means after the first one.", "quantifier": "for all correlations, all numbers of frequencies, all omega_1 accepted by the constructor and all delta_io", "why_tests_cant": "the method is only used by figures; with the default omega_1 the window is in the array", "anchors": ["fluidsim/solvers/plate2d/output/correlations_freq.py:520-565"]}
{"id": "C271", "title": "plot_convergence2 draws a curve for each first frequency, which finishes at 1", "statement": "For each omega_1 the curve of plot_convergence2 is the modulus of the mean of the correlations over the 21 x 21 frequencies around 2 omega_1, divided by its last value.", "quantifier": "for all correlations, all numbers of frequencies and all omega_1 accepted by the constructor", "why_tests_cant": "the tests call the method and do not look at the curves", "anchors": ["fluidsim/solvers/plate2d/output/correlations_freq.py:705-741"]}
{"id": "C272", "title": "The normalised correlations of plate2d are coherences", "statement": "The values drawn by plot_corr2 are the correlation of the two frequencies divided by the product of their root mean square values: they are 1 on the diagonal, hermitian and of modulus at most 1. The norm of the correlations of four frequencies is the product of the four root mean square values, and is symmetric in omega_3 and omega_4.", "quantifier": "for all sets of samples and all frequencies with a power which is not 0", "why_tests_cant": "the tests do not look at the values; the bound is an inequality over all signals", "anchors": ["fluidsim/solvers/plate2d/output/correlations_freq.py:388-434", "fluidsim/solvers/plate2d/output/correlations_freq.py:577-605"]}
{"id": "C273", "title": "The scaling plots use the results of the given shape", "statement": "filter_by_shape keeps the results with the given global shape and only them, and filter_by_shapeloc keeps the results with the given local shape and only them.", "quantifier": "for all lists of results and all shapes, in two and three dimensions", "why_tests_cant": "the tests run the analysis only in parallel, with the results of one shape", "anchors": ["fluidsim/util/console/bench_analysis.py:42-70"]}
{"id": "C274", "title": "The Charney potential enstrophy of sw1l and its dissipation", "statement": "The value CPE written in the file of the spatial means of the sw1l solvers is half of the mean of (zeta - f eta)^2, over the modes and over the grid, and the dissipation epsCPE_tot is exactly what the damping of the velocity and of the surface removes from it per unit of time; it is not negative. The linear equations (gravity waves with rotation) change the potential enstrophy only by this dissipation.", "quantifier": "for all real states, all sets of modes without aliasing, all f and all dissipation frequencies", "why_tests_cant": "the tests compare neither the potential enstrophy nor its dissipation with the fields", "anchors": ["fluidsim/solvers/sw1l/output/base.py:126-160", "fluidsim/solvers/sw1l/output/spatial_means.py:47-59", "fluidsim/solvers/sw1l/output/spatial_means.py:147-194"]}
{"id": "C275", "title": "plot_rates of sw1l shows the rates of change of the means", "statement": "plot_rates(keys), with a string or a list of strings, shows for each key the absolute value of the difference quotient of the mean between the neighbouring times (one-sided at the ends), with the mean of these values as label: the slope, for a mean which is affine in time, and the derivative inside for a parabola at regular times. It works exactly when there are at least two times and all the keys are in the file. [False for a string with more than one character, e.g. plot_rates(\"EK\"): KeyError 'K'.]", "quantifier": "for all dictionaries of means, all increasing times and all keys", "why_tests_cant": "one test calls plot_rates with the default key, which has one character, and does not look at the curves", "anchors": ["fluidsim/solvers/sw1l/output/spatial_means.py:365-413"]}
{"id": "C276", "title": "The labels of the pie chart of a profile are the names of the functions", "statement": "In the pie chart of fluidsim-profile a method of a type in C is shown with the name of the method, a built-in function with its name, a function of a solver with its name after fluidsim.solvers., a function of a Pythran module with its name and (pythran), a function written in Python with its name unchanged; no name gives an error (except an empty name for the fft functions). Two different functions have different labels. [The last sentence is false: the methods copy of numpy.ndarray and of dict are both shown as copy.]", "quantifier": "for all names of functions (ASCII) and all kinds", "why_tests_cant": "the tests make the chart of one profile and do not look at the labels", "anchors": ["fluidsim/util/console/profile.py:236-261"]}
{"id": "C277", "title": "The magic commands do not overwrite the variables of the user without a question", "statement": "%fluidsim and %fluidsim_load without -f ask the user before they overwrite a defined variable sim, params or Simul; with the answer no, and after an error, no variable is changed; otherwise exactly the variables Simul, params (and sim) are set, from the solver or the simulation given by the options, in any order. %fluidsim_reset removes exactly these three variables. The examples of the documentation work. [False for %fluidsim_load: params and Simul are overwritten without a question when sim is not defined, and the example with -t without value is an error.]", "quantifier": "for all namespaces, all lines of words, all answers and all loaders", "why_tests_cant": "there is no test of the magic commands; the question depends on the variables of the user", "anchors": ["fluidsim/magic.py:73-112", "lib/fluidsim_core/magic.py:33-85"]}
{"id": "C278", "title": "fluidsim-ipy-load loads the simulation of the given directory", "statement": "The code given to IPython by fluidsim-ipy-load with a directory changes to this directory and then executes the same code as without argument (which loads the simulation of the current directory). [False for a directory with a simple quote in its path: the code is a syntax error.]", "quantifier": "for all paths and all import lines", "why_tests_cant": "the only test gives no directory and replaces IPython by a mock", "anchors": ["lib/fluidsim_core/ipy_load.py:11-45"]}
{"id": "C279", "title": "The slider of the interactive movie reaches all the frames", "statement": "sim.output.phys_fields.movies.interact shows for each position of the slider the frame with the closest time, and each saved time can be reached; the slider begins at the first and ends at the last time. A movie saved in a file uses the asked codec if it is available, otherwise an available one, and each frame lasts dt_frame_in_sec. [False for irregular times, since the step of the slider is the difference of the first two times, and for only one time: IndexError.]", "quantifier": "for all times, all arguments and all lists of writers", "why_tests_cant": "interact works only in Jupyter and is not tested; one test saves a movie and does not look at it", "anchors": ["lib/fluidsim_core/output/movies.py:380-499"]}
{"id": "C280", "title": "The normalised energies of ns2d.strat do not depend on the units", "statement": "sim.output.spatial_means.plot_energy draws E/E_f, EK/E_f and EA/E_f against t/t_f, where E_f is the square of the forced length times the frequency of the forcing used for the ratio gamma: the figure is the same in all units, for a rate of enstrophy, of ap_fft squared or of energy. plot_energy_shear_modes draws E, E_shear and their difference at all times.", "quantifier": "for all saved means, positive rates, sizes of the domain and limits of the forced wave numbers", "why_tests_cant": "the test of ns2d.strat calls plot_energy and plot_energy_shear_modes and does not look at the figures", "anchors": ["fluidsim/solvers/ns2d/strat/output/spatial_means.py:286-396"]}
{"id": "C281", "title": "plot1d_times and plot3d_times draw the spectra between tmin and tmax every delta_t", "statement": "sim.output.spectra.plot1d_times and plot3d_times of ns3d draw the record closest to tmin and then every n-th one up to the one closest to tmax, where n records last delta_t to the nearest record, and the average of all the records between them, for any number of saved times. Without delta_t the number of curves is about 20, at most 31 for regular times. The colours go from the beginning to the end of the colour map.", "quantifier": "for all increasing times, all tmin, tmax and delta_t, all spectra and wave numbers", "why_tests_cant": "the tests call the two functions with one set of times and do not look at the figures", "anchors": ["fluidsim/solvers/ns3d/output/spectra.py:101-277"]}
{"id": "C282", "title": "fluidsim bench and profile with -t all run all the available classes of FFT", "statement": "With the type all (in any case) the commands fluidsim bench and fluidsim profile create, run and clean one simulation per available class of FFT, in the order of the classes. An error with a class is printed as a warning and the next classes are run (outside the tests). The directory of each created simulation is removed before the next simulation is created, also after an error.", "quantifier": "for all lists of classes, all sets of classes which cannot be created or whose run fails", "why_tests_cant": "the tests run the commands with one class whose run succeeds; -t all and the errors are not tested", "anchors": ["fluidsim/util/console/bench.py:36-87", "fluidsim/util/console/profile.py:128-178", "fluidsim/util/console/util.py:391-395"]}
{"id": "C283", "title": "fluidsim profile: iterations, figure and solver found from the name of the file", "statement": "The number of iterations is the value of the option -it, by default 20 in 2d and 10 in 3d for bench and 10 for profile. The option -p draws the figure. Without the option -s the solver is found from the name of the file of the profile, which the command wrote itself. The processes write different files.", "quantifier": "for all numbers, directories, keys of solvers and names of files", "why_tests_cant": "one test reads one file written for ns3d; the option -p without a file, the other solvers and the names given by the user are not tested", "anchors": ["fluidsim/util/console/profile.py:43-234", "fluidsim/util/console/util.py:297-324", "fluidsim/util/console/bench.py:59-60"]}
{"id": "C284", "title": "The averaged spectra drawn by plot1d, plot2d and plot3d of ns2d, ns3d and ns3d.strat", "statement": "sim.output.spectra.plot1d, plot2d and plot3d read data sets which are in the files for all the directions, and draw the mean of the records times k to the given power, without the values smaller than 1e-15. ns3d.strat draws the kinetic energy, the potential energy and (except for a toroidal projection) the poloidal kinetic energy, the sum of its two parts. The curves of a figure have different styles and labels with the name of the wave number. All the saved parts of the energy can be asked for.", "quantifier": "for all files, records, directions, projections and powers", "why_tests_cant": "the tests call plot1d and plot3d and do not look at the curves; the projection vortical is not tested", "anchors": ["fluidsim/base/output/spectra.py:129-159", "fluidsim/base/output/spectra.py:338-363", "fluidsim/base/output/spectra3d.py:59-79", "fluidsim/solvers/ns3d/strat/output/spectra.py:109-169"]}
{"id": "C285", "title": "The value shown under the cursor of the figures of hexahedral files is the one of the closest point", "statement": "When the cursor moves over the figure of SetOfPhysFieldFilesBase.plot_hexa, the value of the message is the value of the closest point of the mesh (the first one if several are at the same distance). There is no message if the cursor is not in an element.", "quantifier": "for all lists of elements, all their points and values, all positions of the cursor", "why_tests_cant": "one test calls the function at one position and does not look at the message", "anchors": ["lib/fluidsim_core/hexa_files.py:139", "lib/fluidsim_core/hexa_files.py:285-329"]}
{"id": "C286", "title": "plot_Kolmo of sw1l shows the Kolmogorov law", "statement": "sim.output.increments.plot_Kolmo of sw1l draws the sum of the three structure functions of the Kolmogorov law divided by the law, which is 1 where the law holds, and its three parts, in all units; the curve of the cube of r for small separations and the ratio of the longitudinal and transverse parts are visible.", "quantifier": "for all records, separations, rates and units", "why_tests_cant": "the test of sw1l calls plot_Kolmo once and does not look at the figure", "anchors": ["fluidsim/solvers/sw1l/output/increments.py:25-52", "fluidsim/solvers/sw1l/output/increments.py:237-344"]}
{"id": "C287", "title": "plot_spectra of the temporal spectra draws the spectra of the recorded signals", "statement": "sim.output.temporal_spectra.plot_spectra draws the spectra computed from the recorded signals for the given region, times and dtype, whatever the previous calls; spectra of different arguments are in different files. It draws the spectrum of the given key. For the stratified solvers the frequencies of the modes nz = 1 and 2 are those of the internal waves of the domain divided by N, and the guide of slope -2 goes through the kinetic spectrum at the frequency closest to N.", "quantifier": "for all signals, regions, times, dtypes, sequences of calls, sizes of the domain and spectra", "why_tests_cant": "the tests of ns2d.strat and ns3d.strat call plot_spectra with the default arguments and do not look at the figure", "anchors": ["fluidsim/base/output/temporal_spectra.py:602-696", "fluidsim/base/output/temporal_spectra.py:798-841"]}
{"id": "C288", "title": "plot_kzkh shows the spectra and the signed correlations", "statement": "sim.output.spectra.plot_kzkh draws the decimal logarithm of the averaged spectrum in each cell (kh, kz), and sim.output.cross_corr.plot_kzkh a map with the sign of the averaged correlation and increasing with it; both work with the default key, accept the names of the saved maps and no other, and accept the limits vmin and vmax of the colors.", "quantifier": "for all data, solvers ns3d and ns3d.strat, and all keys", "why_tests_cant": "the tests of ns3d and ns3d.strat call plot_kzkh without looking at the values, always with a key for the spectra of ns3d and never with vmin or vmax", "anchors": ["fluidsim/base/output/spectra3d.py:272-319", "fluidsim/solvers/ns3d/strat/output/spectra.py:106-107", "fluidsim/base/output/cross_corr3d.py:31-73"]}
{"id": "C289", "title": "plot_kzkh of the spectral energy budget draws the budgets and nothing else", "statement": "sim.output.spect_energy_budg.plot_kzkh draws the average of the transfer, the dissipation or the conversion of the given name (transfer_Kh by default), with its sign; the names of the spectra along one axis, of the wavenumbers and of the other data sets of the file are refused with a ValueError.", "quantifier": "for all data, all keys, the solvers ns3d and ns3d.strat, and any order of the data sets in the file", "why_tests_cant": "the tests call it once with the default key (ns3d.strat) and do not look at the figure", "anchors": ["fluidsim/solvers/ns3d/output/spect_energy_budget.py:61-107", "fluidsim/solvers/ns3d/output/spect_energy_budget.py:195-270"]}
{"id": "C290", "title": "plot_hexa draws the velocity and the colored field of the nearest time", "statement": "plot_hexa(key, time, prefix) draws the arrows of the velocity and the colors of the field at the same time, the nearest to the given one (or the last one) for which both were saved, and any file can be drawn; the key is by default the temperature, the pressure or the scalar, the first one in the files.", "quantifier": "for all sets of files (any times, with repetitions), all given times, prefixes and headers", "why_tests_cant": "the tests call it for one set of files of one case, with time=None or 0, and do not look at the figure", "anchors": ["lib/fluidsim_core/hexa_files.py:212-221", "lib/fluidsim_core/hexa_files.py:433-506", "lib/fluidsim_core/hexa_files.py:540-550"]}
{"id": "C291", "title": "plot1d of the spectra of sw1l shows one-dimensional spectra of the energies", "statement": "sim.output.spectra.plot1d of the sw1l solvers draws, compensated by kh**coef_compensate, the one-dimensional spectra of the total, kinetic and potential energies: without compensation the sum of a curve times the step of the wave numbers is the energy; it works for each grid.", "quantifier": "for all records, grids and natural numbers coef_compensate", "why_tests_cant": "the test calls plot1d with the default arguments on one square grid and does not look at the curves (its docstring notes as a TODO that a grid of 16 x 8 is an error)", "anchors": ["fluidsim/solvers/sw1l/output/spectra.py:145-241"]}
{"id": "C292", "title": "plot2d of sw1l draws the saved spectra of the asked linear modes", "statement": "sim.output.spectra.plot2d of the sw1l solvers draws the averaged spectra of the geostrophic mode and of the waves (both waves together) if the keys Eglin and Ealin are asked, and only then, and the texts k^-2, k^-3 and k^-5/3 are at the end of their lines.", "quantifier": "for all energies of the modes, lists of keys, coefficients and files", "why_tests_cant": "the test calls plot2d with the default arguments and does not look at the curves", "anchors": ["fluidsim/solvers/sw1l/output/spectra.py:336-349", "fluidsim/solvers/sw1l/output/spectra.py:450-538"]}
{"id": "C293", "title": "plot2d of the spectra of ns2d.strat shows the compensated averages of the energies", "statement": "sim.output.spectra.plot2d(tmin, tmax, delta_t, coef_compensate) of ns2d.strat draws the averages of the spectra of E, EK and EA over the records from the one nearest to tmin to the one nearest to tmax, multiplied by k**coef_compensate, for each file with at least one record.", "quantifier": "for all saved times and spectra, all tmin, tmax, delta_t and coef_compensate", "why_tests_cant": "the tests plot one short run and do not look at the curves", "anchors": ["fluidsim/solvers/ns2d/strat/output/spectra.py:337-411"]}
{"id": "C294", "title": "The command fluidsim runs the subcommand which is asked", "statement": "fluidsim bench, bench-analysis and profile run their modules, fluidsim version prints the versions, fluidsim alone prints the help, and another first argument is an error; the name of a subcommand is the name of its module with dashes. The messages of the commands fluidsim-bench, fluidsim-bench-analysis and fluidsim-profile show the names of these commands.", "quantifier": "for all names of modules, all first arguments and all versions", "why_tests_cant": "the tests call run_bench, run_bench_analysis and run_profile with given arguments, never the command fluidsim nor a message of usage", "anchors": ["fluidsim/util/console/__main__.py:12-107", "pyproject.toml:80-85"]}
{"id": "C295", "title": "plot_forcing_region shows the forced modes of tcrandom_anisotropic in their region", "statement": "sim.forcing.forcing_maker.plot_forcing_region() works for each value of the parameters for which the forcing works; it draws the edge of the forced region (rectangle or sector), one point in the visible part of the axes for each forced mode at its (kh, kv), ticks at the wave numbers of the grid, and the title gives the bounds of the region.", "quantifier": "for all parameters (angles as numbers or strings, None), all boxes, 2D and 3D, every fftw_grid_size", "why_tests_cant": "the tests call it for a few parameters, with delta_angle always set to a number or None, and do not look at the figure", "anchors": ["fluidsim/base/forcing/anisotropic.py:237-511", "fluidsim/util/util.py:722-732"]}
{"id": "C296", "title": "plot_kzkhomega draws the asked slice of the spatiotemporal spectra with the dispersion relation", "statement": "sim.output.spatiotemporal_spectra.plot_kzkhomega(key_field, equation=..., xmax, ymax, plot_omega_emp, linscale) draws the slice of the spectrum at the nearest omega, kh or kz of the grid, in linear scale or in logarithm, with the dispersion relation omega = N kh / k of the internal waves if there is an N, the asked limits of the axes and, with plot_omega_emp, the empirical frequency and its width.", "quantifier": "for all spectra, axes, equations, limits and options, with and without N", "why_tests_cant": "the tests call it for a few equations (plot_omega_emp only for slices at a given kh) and do not look at the figures", "anchors": ["fluidsim/base/output/spatiotemporal_spectra.py:963-1189"]}
{"id": "C297", "title": "plot1d of ns3d shows the forced wave numbers and the dissipative scales", "statement": "sim.output.spectra.plot1d(plot_forcing_region=True, plot_dissipative_scales=True) of the ns3d solvers shades, on the axis of each plotted direction, the wave numbers of the modes forced by tcrandom_anisotropic, with its text in the middle, and draws one line for each viscosity which is not zero, at the wave number where its dissipation rate is the one of the inertial range.", "quantifier": "for all angles, delta_angle, bounds, directions, viscosities and forcing rates", "why_tests_cant": "the tests draw it for one simulation and do not look at the shaded wave numbers", "anchors": ["fluidsim/solvers/ns3d/output/spectra.py:312-397"]}
{"id": "C298", "title": "plot_temporal_spectra draws the asked temporal spectra with the frequencies of the waves and of the forcing", "statement": "sim.output.spatiotemporal_spectra.plot_temporal_spectra(key_field, xlim, coef_compensate, plot_resonant_modes) draws the temporal spectrum of each accepted key_field multiplied by omega**coef_compensate; for the stratified solvers (N) also the kinetic and potential energies against omega / N, the frequencies of the modes (nx, nz) of the box, a line of slope -2 through the energy at N, and the frequencies of the forcing, for each forcing.", "quantifier": "for all spectra, frequencies, keys, projections, boxes, forcings and parameters", "why_tests_cant": "the tests call it without argument for three short simulations, none with the milestone forcing, and do not look at the figure", "anchors": ["fluidsim/base/output/spatiotemporal_spectra.py:1204-1248", "fluidsim/base/output/spatiotemporal_spectra.py:1256-1449", "fluidsim/base/forcing/milestone.py:127-141"]}
{"id": "C299", "title": "plot_pdf of the increments draws the asked number of pdf", "statement": "sim.output.increments.plot_pdf(key_var, order, nb_rx_to_plot) draws nb_rx_to_plot curves of the averaged pdf times the power `order` of the increment, for different separations from the smallest to the largest one, with different colors.", "quantifier": "for all pdf, numbers of separations, orders and values of nb_rx_to_plot", "why_tests_cant": "the tests call plot_pdf without argument on one file and do not look at the curves", "anchors": ["fluidsim/base/output/increments.py:427-463"]}
