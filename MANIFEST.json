{
 "claims": [
  {
   "property": "C01",
   "status": "proved",
   "theorems": [
    "c01_it_end_exact",
    "c01_time_is_sum"
   ],
   "note": "t is the fold of the (possibly rounded) additions of the dt used; with exact addition it is the sum."
  },
  {
   "property": "C02",
   "status": "proved",
   "theorems": [
    "c02_t_end_reached",
    "c02_t_end_terminates",
    "c02_absorbed_step_never_returns"
   ],
   "note": "Termination needs every dt to make t grow; a dt absorbed by rounding makes the run endless (third theorem)."
  },
  {
   "property": "C03",
   "status": "proved",
   "theorems": [
    "c03_stop_completes_step",
    "c03_stop_is_prompt"
   ],
   "note": "Sequential case."
  },
  {
   "property": "C04",
   "status": "partial",
   "theorems": [
    "c04_signal_name_refuted",
    "c04_sigterm_name_partial"
   ],
   "note": "REFUTED: SIGUSR2 is reported as SIGHUP because the handler stores True, and Signals(True) is Signals(1). True for SIGTERM."
  },
  {
   "property": "C05",
   "status": "proved",
   "theorems": [
    "c05_events_see_right_time"
   ],
   "note": ""
  },
  {
   "property": "C06",
   "status": "proved",
   "theorems": [
    "c06_cfl_bound",
    "c06_hysteresis",
    "c06_courant_pointwise",
    "c06_courant_pointwise_2d",
    "c06_wave_solvers_bound"
   ],
   "note": "Assumes CFL > 0 and deltat_max > 0 (otherwise the code divides by zero or goes backwards)."
  },
  {
   "property": "C07",
   "status": "partial",
   "theorems": [
    "c07_deltat_max_refuted",
    "c07_deltat_max_partial"
   ],
   "note": "REFUTED as stated: a deltat0 up to 2 % above deltat_max is kept for ever. Holds if deltat0 <= deltat_max."
  },
  {
   "property": "C08",
   "status": "partial",
   "theorems": [
    "c08_wave_limit_refuted",
    "c08_limit_always_overwritten"
   ],
   "note": "REFUTED: _init_compute_time_step runs after _init_freq_lin and always overwrites deltat_max."
  },
  {
   "property": "C09",
   "status": "proved",
   "theorems": [
    "c09_same_dt_on_all_ranks"
   ],
   "note": "All processes start with the same deltat0."
  },
  {
   "property": "C10",
   "status": "proved",
   "theorems": [
    "c10_coefs_follow_dt",
    "c10_constant_dt"
   ],
   "note": "With USE_CFL=False the coefficients are computed once for the dt of the construction: c10_assigned_deltat_is_ignored shows that a deltat assigned later is ignored by them (outside the property)."
  },
  {
   "property": "C11",
   "status": "proved",
   "theorems": [
    "c11_schemes_follow_formulas",
    "c11_schemes_follow_formulas_constant_dt",
    "c11_simple_schemes",
    "c11_phase_shift_neutral"
   ],
   "note": "Nine schemes as programs over the named buffers; compute_tendencies is an arbitrary function of the state (its in-place behaviour is C58)."
  },
  {
   "property": "C12",
   "status": "proved",
   "theorems": [
    "c12_linear_part_exact",
    "c12_never_amplifies"
   ],
   "note": "Exact real/complex arithmetic."
  },
  {
   "property": "C13",
   "status": "proved",
   "theorems": [
    "c13_classical_methods",
    "c13_order_conditions",
    "c13_taylor_polynomial",
    "c13_local_error",
    "c13_convergence_order"
   ],
   "note": "Order conditions of the tableaux, and local/global error on the linear test equation y'=(lambda+f)y split between N and the linear coefficient."
  },
  {
   "property": "C14",
   "status": "proved",
   "theorems": [
    "c14_nonsingular",
    "c14_crank_nicolson",
    "c14_unique",
    "c14_not_increasing",
    "c14_conserved",
    "c14_mean",
    "c14_ad1d_operator",
    "c14_ad1d_dissipative",
    "c14_ad1d",
    "c14_ad1d_decay"
   ],
   "note": "spsolve is external: assumed to return a solution of the (proved non singular) system it is given."
  },
  {
   "property": "C15",
   "status": "proved",
   "theorems": [
    "c15_random_1d",
    "c15_random_2d",
    "c15_random_3d",
    "c15_fixed_1d",
    "c15_fixed_2d",
    "c15_fixed_3d",
    "c15_exact_1d",
    "c15_exact_truncated_2d",
    "c15_exact_truncated_3d",
    "c15_euler_phaseshift_step",
    "c15_euler_phaseshift_random_step",
    "c15_rk2_phaseshift_exact_step"
   ],
   "note": "For any sum of quadratic terms computed with discrete Fourier transforms (the transforms are defined, orthogonality and the cyclic convolution are proved in DFT.v). With at most one fold in one direction (spherical truncation with coef <= sqrt(8)/3, or any field in 1D) the mean is the true quadratic term; so are the steps of the phase-shifted schemes that average at each stage."
  },
  {
   "property": "C16",
   "status": "proved",
   "theorems": [
    "c16_pairs_1d",
    "c16_pairs_2d",
    "c16_pairs_3d"
   ],
   "note": "For draws in [-1/2, 1/2]."
  },
  {
   "property": "C17",
   "status": "partial",
   "theorems": [
    "c17_1d_refuted",
    "c17_1d_boundary",
    "c17_1d_partial",
    "c17_1d_two_thirds_partial",
    "c17_spherical_refuted",
    "c17_spherical_2d_partial",
    "c17_spherical_3d_partial"
   ],
   "note": "REFUTED in 1D for coef = 2/3 and nx divisible by 6 (e.g. 48) and for the spherical truncation when the grid spacing differs between the directions. Proved in 1D for coef < 2/3 or nx not divisible by 6, and for the spherical truncation with equal spacing."
  },
  {
   "property": "C18",
   "status": "partial",
   "theorems": [
    "c18_refuted",
    "c18_spherical_3d_partial",
    "c18_nma_2d_partial",
    "c18_nma_3d_partial",
    "c18_region_removed_2d_partial",
    "c18_region_removed_3d_partial"
   ],
   "note": "REFUTED for coef = 1 (48 points). Proved for coef <= sqrt(8)/3 and equal spacing."
  },
  {
   "property": "C19",
   "status": "partial",
   "theorems": [
    "c19_alternation_refuted",
    "c19_default_sequence_partial",
    "c19_each_step_sequence_partial",
    "c19_current_pair_partial",
    "c19_renewal_partial",
    "c19_no_repeat_partial"
   ],
   "note": "REFUTED: with the default parameters no pair is used in the two orders, because the renewal overwrites the arrays of the pair which should be flipped. Proved: the returned phases are always those of one of the current pairs (the last nb_pairs draws), the renewal schedule, and no immediate repetition when several pairs are used and none is renewed."
  },
  {
   "property": "C20",
   "status": "partial",
   "theorems": [
    "c20_refuted",
    "c20_onlywaves_refuted",
    "c20_up_to_date_partial",
    "c20_solvers_partial"
   ],
   "note": "REFUTED: an assignment (state[key] = array) after a read at the same time step leaves the cached values in place; for sw1l.onlywaves uy_fft raises AttributeError unless ux_fft was read before. Proved for 11 solvers and all histories in which no assignment follows a read without a time step or clear_computed between them."
  },
  {
   "property": "C21",
   "status": "partial",
   "theorems": [
    "c21_refuted",
    "c21_base",
    "c21_ns3d",
    "c21_ns3d_derived",
    "c21_ns2d_partial",
    "c21_ns2d_strat_partial",
    "c21_sw1l_partial",
    "c21_ns2d_given_partial",
    "c21_ns2d_phys_partial",
    "c21_ns2d_strat_given_partial",
    "c21_ns2d_two_partial",
    "c21_plate2d_partial",
    "c21_sw1l_given_partial",
    "c21_sw1l_qa_partial",
    "c21_ns2d_strat_b_ignored",
    "c21_ns2d_strat_unknown_accepted",
    "c21_plate2d_ignored",
    "c21_two_arguments_ignored",
    "c21_ns2d_ux_unchanged",
    "c21_sw1l_qa_velocity"
   ],
   "note": "REFUTED for ns2d.strat (b_fft alone), plate2d (z_fft alone), sw1l and ns2d.bouss (two arguments), ns2d (ux alone), sw1l (q_fft and a_fft). Proved for the base class and for ns3d, and for the other documented arguments of ns2d, ns2d.strat, ns2d.bouss, plate2d and sw1l."
  },
  {
   "property": "C22",
   "status": "partial",
   "theorems": [
    "c22_slot_once_refuted",
    "c22_elapsed_spacing_partial",
    "c22_gap_partial",
    "c22_count_partial",
    "c22_slot_covered_partial",
    "c22_slot_order_partial",
    "c22_slot_once_partial",
    "c22_constant_steps_partial",
    "c22_first_print_partial",
    "c22_all_outputs_partial"
   ],
   "note": "REFUTED for the slot outputs: a time just below a multiple of the period (0.9999999999999999 after ten steps of 0.1) is saved and the next step is saved again. Proved: spacing and largest gap for every history, every visited slot is saved, once if no time is within 1e-15 below a multiple; floor division of doubles taken as exact."
  },
  {
   "property": "C23",
   "status": "partial",
   "theorems": [
    "c23_table_partial",
    "c23_lengths_partial",
    "c23_times_refuted",
    "c23_after_crash_refuted"
   ],
   "note": "REFUTED: a restart from an earlier state gives unsorted times, and a record interrupted by a crash stays with the fill value. Proved: without crash the file is the table of all the saves, in order, every column as long as times."
  },
  {
   "property": "C24",
   "status": "partial",
   "theorems": [
    "c24_one_crash",
    "c24_completed_saves_kept",
    "c24_lengths_refuted",
    "c24_creation_refuted"
   ],
   "note": "REFUTED after two interruptions (lengths differ by 2) and for an interruption during the creation (every later save raises). Proved: one interruption keeps all earlier records with lengths differing by at most one; after any number of interruptions every completed save is kept. Writes are taken as atomic and ordered."
  },
  {
   "property": "C25",
   "status": "proved",
   "theorems": [
    "c25_no_other_iteration_replaced",
    "c25_never_overwritten",
    "c25_saved"
   ],
   "note": "for any sequence of saves, whatever the width of the names and the choice of glob"
  },
  {
   "property": "C26",
   "status": "partial",
   "theorems": [
    "c26_final_state_saved_partial",
    "c26_final_state_content_partial",
    "c26_final_state_saved_refuted",
    "c26_second_trajectory_refuted"
   ],
   "note": "REFUTED: a run which does no time step saves nothing when a period is not 0; in a directory holding another trajectory a file with the same printed time and iteration is kept and the final state is not saved. Proved otherwise."
  },
  {
   "property": "C27",
   "status": "partial",
   "theorems": [
    "c27_name_round_trip",
    "c27_closest",
    "c27_last",
    "c27_last_state_refuted"
   ],
   "note": "Proved for the printed times (3 decimals). REFUTED for the states: among files with the same printed time 'last' takes the oldest state."
  },
  {
   "property": "C28",
   "status": "partial",
   "theorems": [
    "c28_default_is_latest_partial",
    "c28_run_partial",
    "c28_default_is_latest_refuted",
    "c28_width_with_iteration_refuted",
    "c28_collision_refuted"
   ],
   "note": "REFUTED: times from 1000 with USE_T_END false, names with iterations (wrong width), second file for a printed time (width 7). Proved when the names have the same number of digits, in particular for a run with USE_T_END and distinct printed times within the width."
  },
  {
   "property": "C29",
   "status": "partial",
   "theorems": [
    "c29_exact_at_the_files",
    "c29_isclose",
    "c29_linear_inside_partial",
    "c29_outside_refuted",
    "c29_same_printed_time_refuted"
   ],
   "note": "REFUTED outside of the range of the times (weights do not sum to one) and for two files with the same printed time. Proved inside the range, at one point of the field."
  },
  {
   "property": "C30",
   "status": "proved",
   "theorems": [
    "c30_did_not_exist",
    "c30_found",
    "c30_ends",
    "c30_move_free",
    "c30_move_ends"
   ],
   "note": "when HAS_TO_SAVE; the existence before the move is the one seen by rank 0"
  },
  {
   "property": "C31",
   "status": "proved",
   "theorems": [
    "c31_not_recomputed",
    "c31_increasing_times"
   ],
   "note": ""
  },
  {
   "property": "C32",
   "status": "partial",
   "theorems": [
    "c32_injection_rate",
    "c32_proportional_to_the_raw_forcing",
    "c32_real_roots",
    "c32_minabs",
    "c32_positive",
    "c32_first_second",
    "c32_zero_forcing"
   ],
   "note": "Missing: which of the two roots is \"first\" depends on the order of numpy.roots, which is not documented (any order in the model). Everything else is proved, also for the energies of compute_coef_ab_normalize when their components are taken as modes."
  },
  {
   "property": "C33",
   "status": "proved",
   "theorems": [
    "c33_injection_rate"
   ],
   "note": ""
  },
  {
   "property": "C34",
   "status": "partial",
   "theorems": [
    "c34_restart_partial",
    "c34_restart_same_time_partial",
    "c34_earlier_time_refuted",
    "c34_other_use_refuted"
   ],
   "note": "REFUTED: restart from a state saved before the last change of the arrays, and any other use of the numpy generator during the run. Proved otherwise, for any generator."
  },
  {
   "property": "C35",
   "status": "partial",
   "theorems": [
    "c35_convex",
    "c35_ends",
    "c35_monotone",
    "c35_change_partial",
    "c35_continuous"
   ],
   "note": "Proved between two changes. At a change which is not exactly one period after the previous one the forcing jumps; the jump is bounded (second order in the delay)."
  },
  {
   "property": "C36",
   "status": "proved",
   "theorems": [
    "c36_setofvar_2d",
    "c36_setofvar_3d",
    "c36_variable_3d",
    "c36_numpy_setofvar",
    "c36_numpy_variable",
    "c36_setofvar_is_variable",
    "c36_idempotent"
   ],
   "note": "dealiasing_variable of the 2D operators is in fluidfft (not modelled)"
  },
  {
   "property": "C37",
   "status": "partial",
   "theorems": [
    "c37_even_partial",
    "c37_mean_partial",
    "c37_idempotent",
    "c37_odd_refuted",
    "c37_odd_nx_refuted"
   ],
   "note": "REFUTED: for an odd number of points along y the row ny//2 is made real and its opposite is left; for an odd number of points along x the last column is not self-conjugate. Proved for even numbers (idempotent for all)."
  },
  {
   "property": "C38",
   "status": "partial",
   "theorems": [
    "c38_place_2d_partial",
    "c38_place_3d_partial",
    "c38_odd_refuted",
    "c38_3d_nyquist_refuted"
   ],
   "note": "REFUTED: an odd coarse number of points has its largest wavenumber rejected; in 3D nothing is rejected. Placement and reading back proved for the sequential branches (not for the MPI exchanges)."
  },
  {
   "property": "C39",
   "status": "partial",
   "theorems": [
    "c39_fill_2d_partial",
    "c39_fill_2d_odd_lost",
    "c39_real_2d_partial",
    "c39_state_2d_partial",
    "c39_mini_3d_partial",
    "c39_fill_3d_finer_partial",
    "c39_state_3d_finer_partial",
    "c39_same_resolution",
    "c39_fill_2d_odd_refuted",
    "c39_nyquist_2d_refuted",
    "c39_mini_3d_odd_refuted",
    "c39_fill_3d_coarser_refuted"
   ],
   "note": "REFUTED: (1) 2D and memory-efficient 3D: for an odd smaller size the most negative wavenumber is lost; the Nyquist coefficients of the smaller grid are copied for the positive wavenumber only, so that the field is not real any more; (2) 3D from a simulation: towards a coarser grid the wavenumbers absent from it are written on the place of the negative wavenumbers. Proved for even smaller sizes (2D, memory-efficient 3D), without Nyquist coefficients for the reality, and for finer grids (3D)."
  },
  {
   "property": "C40",
   "status": "proved",
   "theorems": [
    "c40_axis",
    "c40_sequential",
    "c40_layouts"
   ],
   "note": "kadim_from_ik012rank is only implemented for (0, 1, 2)"
  },
  {
   "property": "C41",
   "status": "partial",
   "theorems": [
    "c41_slabs",
    "c41_slabs_same_size",
    "c41_pencils",
    "c41_2d_partial",
    "c41_2d_same_size_partial",
    "c41_2d_rejected",
    "c41_2d_refuted"
   ],
   "note": "REFUTED: in 2D a negative kx and a ky beyond the largest one are not rejected. Proved for the wavenumbers of the grid, with first indices which are the sums of the numbers of rows of the ranks before."
  },
  {
   "property": "C42",
   "status": "partial",
   "theorems": [
    "c42_projections_partial",
    "c42_components_partial",
    "c42_gradient_partial",
    "c42_horizontal_partial",
    "c42_shear_refuted"
   ],
   "note": "REFUTED for a vertical wavevector: the horizontal components are lost. Proved for all the others. The perpendicular projection is in fluidfft (not modelled)."
  },
  {
   "property": "C43",
   "status": "proved",
   "theorems": [
    "c43_laplacian",
    "c43_inverse",
    "c43_mean"
   ],
   "note": "order = 2n; Kn_not0 (fluidfft) is Kn for the modes which are not the mode 0"
  },
  {
   "property": "C44",
   "status": "proved",
   "theorems": [
    "c44_values",
    "c44_children",
    "c44_idempotent",
    "c44_merge_params",
    "c44_type_fft",
    "c44_fft_kept"
   ],
   "note": "for containers whose names are distinct and where no name is an attribute in one and a child in the other; merge_params can only change oper.type_fft (methods which are not fluidfft ones)"
  },
  {
   "property": "C45",
   "status": "partial",
   "theorems": [
    "c45_new_class",
    "c45_others_unchanged_partial",
    "c45_extended_class_changed",
    "c45_wf",
    "c45_original_unchanged_refuted"
   ],
   "note": "REFUTED: extending an extended class changes it, and all the classes extended from it (shared list). Proved for the first extension of a class."
  },
  {
   "property": "C46",
   "status": "partial",
   "theorems": [
    "c46_separate_runs_partial",
    "c46_removed_at_the_end_partial",
    "c46_other_directories",
    "c46_creator_started",
    "c46_other_simulation_refuted",
    "c46_signal_refuted",
    "c46_moved_lock_stays",
    "c46_moved_refuted"
   ],
   "note": "REFUTED: a second simulation removes the lock of the first one; SIGTERM removes the lock while the run continues; when the directory is moved at the end the lock moves with it and stays. Proved for runs which do not overlap, without signal and move."
  },
  {
   "property": "C47",
   "status": "partial",
   "theorems": [
    "c47_opened",
    "c47_other_errno",
    "c47_retry_only_busy",
    "c47_stops",
    "c47_available_before_total",
    "c47_other_error_refuted"
   ],
   "note": "REFUTED: an OSError without \"errno = \" in its text gives an IndexError. Everything else is proved for any sequence of outcomes and durations."
  },
  {
   "property": "C48",
   "status": "partial",
   "theorems": [
    "c48_time_options_partial",
    "c48_it_end_adds",
    "c48_flow",
    "c48_parameters",
    "c48_refused_partial",
    "c48_it_end_refuted",
    "c48_not_refused_refuted",
    "c48_refused_refuted"
   ],
   "note": "REFUTED: --it_end N adds N to the stored value; the check uses the time rounded in the name of the file, so a finished run can be accepted and an unfinished one refused when t_end is within 0.0005 of the time. Proved otherwise."
  },
  {
   "property": "C49",
   "status": "partial",
   "theorems": [
    "c49_px_1d",
    "c49_pxx_1d",
    "c49_xs_1d",
    "c49_zero_mean_1d",
    "c49_px_1d_antisymmetric",
    "c49_pxx_1d_dissipates",
    "c49_2d_operators_partial",
    "c49_2d_antisymmetric",
    "c49_2d_zero_mean",
    "c49_2d_construction_refuted",
    "c49_2d_construction_always_fails",
    "c49_2d_pyy_refuted",
    "c49_2d_xs_refuted",
    "c49_2d_xs_partial"
   ],
   "note": "REFUTED in 2D: the class cannot be constructed (name sparse not imported), pyy is divided by dx**2, the coordinates do not match the spacing. Proved in 1D for nx >= 3 (scipy refuses the repeated offsets of nx = 2), and in 2D for px, py, pxx once the name is bound."
  },
  {
   "property": "C50",
   "status": "partial",
   "theorems": [
    "c50_pp_potential",
    "c50_pp_equilibrium",
    "c50_pp_announced",
    "c50_lz_steady_partial",
    "c50_lz_announced",
    "c50_lz_divergence",
    "c50_lz_work",
    "c50_lz_subcritical_refuted"
   ],
   "note": "REFUTED for the Lorenz model below the onset (rho < 1): sqrt of a negative number, no simulation can be created. Everything else is proved, also that there is no other equilibrium."
  },
  {
   "property": "C51",
   "status": "partial",
   "theorems": [
    "c51_periodic_uniform_partial",
    "c51_default_refuted",
    "c51_sinusoidal",
    "c51_uniform",
    "c51_objects"
   ],
   "note": "REFUTED: nothing prevents length < 2 length_acc and the default values (length = length_acc = 1) are such: t_2 < t_1 and the location jumps by a quarter of the length. Proved for length >= 2 length_acc and both signs of the speed; also the sinusoidal and uniform movements and the positions of the objects."
  },
  {
   "property": "C52",
   "status": "proved",
   "theorems": [
    "c52_modes",
    "c52_energy",
    "c52_enstrophy",
    "c52_mean",
    "c52_beta",
    "c52_uxuy_energy",
    "c52_uxuy_tendency"
   ],
   "note": "exact numbers; for the modes of a truncation without aliasing (c52_modes: the spherical truncation with coef <= 2/3 is one); with beta; also the solver with_uxuy"
  },
  {
   "property": "C53",
   "status": "partial",
   "theorems": [
    "c53_last_time_text",
    "c53_last_time_of_the_records",
    "c53_json_partial",
    "c53_json_sw1l_partial",
    "c53_json_refuted"
   ],
   "note": "REFUTED for the JSON files of sw1l with forcing: a record of 33 doubles has more than 1000 bytes and json.loads gets the end of a record. Proved for the text files of all solvers (any content before the last record) and for JSON records of less than 1000 bytes (always without forcing). float() is not modelled."
  },
  {
   "property": "C54",
   "status": "partial",
   "theorems": [
    "c54_sum_partial",
    "c54_nonnegative",
    "c54_refuted"
   ],
   "note": "REFUTED in one dimension: nu_m4 != 0 raises AttributeError, since the operators of one dimension have no K2_not0. Proved in two and three dimensions, and in one dimension without hypoviscosity (negative nu_2, nu_4, nu_8 are ignored)."
  },
  {
   "property": "C55",
   "status": "proved",
   "theorems": [
    "c55_restart_values",
    "c55_others_kept",
    "c55_old_parameters",
    "c55_loads"
   ],
   "note": "preprocess.enable is also set to False; with the parameters of old versions FORCING and NO_SHEAR_MODES replace forcing.enable and oper.NO_SHEAR_MODES"
  },
  {
   "property": "C56",
   "status": "partial",
   "theorems": [
    "c56_negative_U_refuted",
    "c56_positive_U_partial"
   ],
   "note": "REFUTED: no absolute value, a negative U gives dt = deltat_max. Holds for U >= 0."
  },
  {
   "property": "C57",
   "status": "partial",
   "theorems": [
    "c57_dt_depends_on_distribution_refuted",
    "c57_one_component_partial"
   ],
   "note": "REFUTED: the sum of local maxima is reduced, not the sum of global maxima. Holds for one velocity component."
  },
  {
   "property": "C58",
   "status": "partial",
   "theorems": [
    "c58_ns2d",
    "c58_ns2d_strat",
    "c58_ns2d_bouss",
    "c58_with_uxuy",
    "c58_ns3d",
    "c58_ns3d_bouss",
    "c58_sw1l",
    "c58_sw1l_modified",
    "c58_sw1l_exactlin",
    "c58_sw1l_onlywaves_without_f",
    "c58_burgers1d",
    "c58_skew_sym",
    "c58_nl1d",
    "c58_zero",
    "c58_ns3d_turb_model_partial",
    "c58_ns3d_strat_partial",
    "c58_plate2d_partial",
    "c58_ns3d_strat_in_place_partial",
    "c58_plate2d_in_place_partial",
    "c58_ns3d_strat_refuted",
    "c58_plate2d_refuted",
    "c58_ns3d_turb_model_refuted"
   ],
   "note": "REFUTED for ns3d.strat, plate2d and ns3d with a subgrid model when old is the state; proved for the other solvers and, for these three, when the output array is another one."
  },
  {
   "property": "C59",
   "status": "partial",
   "theorems": [
    "c59_exactlin_modified_refuted",
    "c59_onlywaves_refuted",
    "c59_sw1l_exactlin_modified_partial",
    "c59_sw1l_onlywaves_partial",
    "c59_exactlin_modified_advection_partial",
    "c58_ns2d",
    "c58_ns3d",
    "c58_ns3d_bouss",
    "c58_sw1l",
    "c58_sw1l_modified",
    "c58_sw1l_exactlin"
   ],
   "note": "REFUTED for sw1l.exactlin.modified and sw1l.onlywaves with f > 0 (self.state is read instead of the given state); holds for the other solvers (the c58 theorems suppose nothing on the rest of the memory)."
  },
  {
   "property": "C60",
   "status": "partial",
   "theorems": [
    "c60_forcing_unchanged_refuted",
    "c60_forcing_factor_partial",
    "c60_factor_bounds_partial"
   ],
   "note": "REFUTED for the phase-shifted schemes: the forcing is multiplied by the mean of the phase factors. The exact factor is proved, with modulus <= 1 and distance to 1 at most the largest phase; it is 1 for the other schemes."
  },
  {
   "property": "C61",
   "status": "partial",
   "theorems": [
    "c61_documented_force_refuted",
    "c61_twice_the_documented_force_partial",
    "c61_energy_sink"
   ],
   "note": "REFUTED: the force is twice the documented one. The energy sink is proved (given Parseval's identity for the external transforms)."
  },
  {
   "property": "C62",
   "status": "partial",
   "theorems": [
    "c62_documented_scheme_refuted",
    "c62_first_order",
    "c62_state_independent_partial"
   ],
   "note": "REFUTED: the tendency of the intermediate state is never used. Holds when the tendency does not depend on the state (ad1d)."
  },
  {
   "property": "C63",
   "status": "partial",
   "theorems": [
    "c63_sw1l_modified_refuted",
    "c20_onlywaves_refuted",
    "c63_declared",
    "c63_ns2d_partial",
    "c63_ns2d_strat_partial",
    "c63_ns2d_bouss_partial",
    "c63_ns3d_partial",
    "c63_plate2d_partial",
    "c63_ad1d_partial",
    "c63_sw1l_partial",
    "c63_sw1l_exactlin_partial",
    "c63_sw1l_modified_partial",
    "c63_state",
    "c63_state_spect",
    "c63_sw1l_onlywaves_partial"
   ],
   "note": "REFUTED for sw1l.modified (uy_fft computed from ux, hence rot, div, q) and sw1l.onlywaves. Proved for the other solvers; what the operators compute is taken as given."
  },
  {
   "property": "C64",
   "status": "partial",
   "theorems": [
    "c64_decimation_refuted",
    "c64_no_restart_partial",
    "c64_restart_partial",
    "c64_disabled_partial"
   ],
   "note": "REFUTED after a restart: the first record of a restarted run is tested with the number of the next one. Exact description of the saved records proved, with and without restart."
  },
  {
   "property": "C65",
   "status": "partial",
   "theorems": [
    "c65_frequency_axis_refuted",
    "c65_sampling_partial",
    "c65_period_one_partial"
   ],
   "note": "REFUTED for periods of at least 2 steps: samples are max(1, p-1) steps apart (proved) but the frequency axis assumes p; holds for p = 1."
  },
  {
   "property": "C66",
   "status": "partial",
   "theorems": [
    "c66_single_run_partial",
    "c66_restart_partial",
    "c66_listing_order_partial",
    "c66_overwritten_refuted",
    "c66_zero_record_refuted",
    "c66_restart_schedule_refuted"
   ],
   "note": "REFUTED: names with 3 decimals collide and the file is overwritten, a record of zeros remains if the run stops before its first save, a slot is saved twice after a restart (times in simple precision). Proved otherwise, for one process with probes."
  },
  {
   "property": "C67",
   "status": "partial",
   "theorems": [
    "c67_load_partial",
    "c67_load_ns2d_strat_partial",
    "c67_incomplete_partial",
    "c67_pa2_refuted",
    "c67_restart_refuted",
    "c67_restart_wrong_refuted",
    "c67_restart_nu4_refuted",
    "c67_incomplete_refuted"
   ],
   "note": "REFUTED: PA2 of ns2d.strat is lost (PA1 is printed instead); load fails or mixes the records after a restart with forcing or nu_4 switched on; incomplete records raise for ns2d, ns2d.strat and plate2d. Proved for all records of runs with the same parameters, with an incomplete last record (cut between lines) for ns3d and ns3d.strat."
  },
  {
   "property": "C68",
   "status": "partial",
   "theorems": [
    "c68_first_time_partial",
    "c68_endless_refuted",
    "c68_json_first"
   ],
   "note": "REFUTED for a file without record (the loop never ends). Proved otherwise."
  },
  {
   "property": "C69",
   "status": "partial",
   "theorems": [
    "c69_times_of_the_files_partial",
    "c69_same_number_of_files_refuted"
   ],
   "note": "REFUTED when the files changed but not their number. Proved otherwise."
  },
  {
   "property": "C70",
   "status": "partial",
   "theorems": [
    "c70_known_types_partial",
    "c70_unknown_type_refuted",
    "c70_wrong_rate_refuted"
   ],
   "note": "REFUTED: the ValueError is created but not raised."
  },
  {
   "property": "C71",
   "status": "partial",
   "theorems": [
    "c71_selected_before_the_move_partial",
    "c71_late_process",
    "c71_agree_refuted"
   ],
   "note": "REFUTED: there is no barrier between the search of a free name by the other processes and the move by rank 0; a process which looks after the move always gets another directory."
  },
  {
   "property": "C72",
   "status": "partial",
   "theorems": [
    "c72_inside_not_moved_partial",
    "c72_outside_moved_refuted"
   ],
   "note": "REFUTED: the test compares the beginnings of the strings (/data/sim_scratch is taken as a subdirectory of /data/sim)."
  },
  {
   "property": "C73",
   "status": "partial",
   "theorems": [
    "c30_found",
    "c73_mkdir_error_refuted"
   ],
   "note": "REFUTED: any OSError of mkdir is retried for ever."
  },
  {
   "property": "C74",
   "status": "proved",
   "theorems": [
    "c74_extenders_from_names",
    "c74_same_extenders"
   ],
   "note": "for class names without dot"
  },
  {
   "property": "C75",
   "status": "partial",
   "theorems": [
    "c75_directory_partial",
    "c75_no_path_run_refuted"
   ],
   "note": "REFUTED: without params.path_run an AttributeError is raised before the fallback. Proved otherwise."
  },
  {
   "property": "C76",
   "status": "partial",
   "theorems": [
    "c76_grid_partial",
    "c76_only_coarse_refuted"
   ],
   "note": "REFUTED: with ONLY_COARSE_OPER linspace includes the end, every point but the first is misplaced. Proved otherwise."
  },
  {
   "property": "C77",
   "status": "partial",
   "theorems": [
    "c77_ns3d",
    "c77_ns2d",
    "c77_predaprey_partial",
    "c77_predaprey_refuted"
   ],
   "note": "REFUTED for the predator-prey model (potential_tmp is read and potential_temp is set): the variation since the beginning is printed. Proved for the other solvers."
  },
  {
   "property": "C78",
   "status": "proved",
   "theorems": [
    "c78_duration_round_trip"
   ],
   "note": "the text of the line, of str(timedelta), split and int are modelled on strings; spaces only"
  },
  {
   "property": "C79",
   "status": "partial",
   "theorems": [
    "c79_load_times_partial",
    "c79_clock_time_partial",
    "c79_it_end_refuted"
   ],
   "note": "REFUTED for simulations with a number of time steps (USE_T_END false): t_end is never set and reading fails. Proved for any number of successive runs with t_end. Numbers are exact in the model."
  },
  {
   "property": "C80",
   "status": "partial",
   "theorems": [
    "c80_times_partial",
    "c80_one_print_partial",
    "c80_no_print_never_returns",
    "c80_no_print_refuted",
    "c80_long_end_refuted"
   ],
   "note": "REFUTED: without any print in the file the function never returns; if the last print is followed by more than 1000 characters the last time is the first one. Proved otherwise."
  },
  {
   "property": "C81",
   "status": "partial",
   "theorems": [
    "c81_profile",
    "c81_solid",
    "c81_work",
    "c81_decay_partial",
    "c81_announced_decay_refuted"
   ],
   "note": "REFUTED for the announced decay: the comment says 10^(-gamma) after n_dt time steps, the force gives exp(-gamma). Everything else is proved. The fields are seen from one point of the grid (the transforms between the grids are C36, C43)."
  },
  {
   "property": "C82",
   "status": "proved",
   "theorems": [
    "c82_kinetic",
    "c82_potential",
    "c82_total",
    "c82_mean"
   ],
   "note": "exact numbers, truncation without aliasing"
  },
  {
   "property": "C83",
   "status": "proved",
   "theorems": [
    "c83_kinetic",
    "c83_square",
    "c83_mean",
    "c83_strat_zero"
   ],
   "note": "exact numbers, truncation without aliasing"
  },
  {
   "property": "C84",
   "status": "partial",
   "theorems": [
    "c84_strat_without_buoyancy_partial",
    "c84_beta_refuted"
   ],
   "note": "REFUTED: params.beta exists (inherited) and is not used by the tendencies. Proved: without buoyancy the tendencies are those of ns2d with beta = 0."
  },
  {
   "property": "C85",
   "status": "partial",
   "theorems": [
    "c85_answer_partial",
    "c85_decreasing_refuted"
   ],
   "note": "REFUTED: the ratio is compared without absolute value, so that an energy which decreases at any rate gives True. Proved: True only if the energy does not increase more than 1e-14 times the sum of the absolute values."
  },
  {
   "property": "C86",
   "status": "proved",
   "theorems": [
    "c86_energy",
    "c86_tendency"
   ],
   "note": "exact numbers; any symmetric list of modes, aliasing included"
  },
  {
   "property": "C87",
   "status": "proved",
   "theorems": [
    "c87_helicity",
    "c87_helicity_rotating"
   ],
   "note": "exact numbers; projection perpendicular to k"
  },
  {
   "property": "C88",
   "status": "proved",
   "theorems": [
    "c88_modes",
    "c88_momentum"
   ],
   "note": "exact numbers; truncation without aliasing (c88_modes: spherical truncation with coef <= 2/3)"
  },
  {
   "property": "C89",
   "status": "proved",
   "theorems": [
    "c89_kinetic",
    "c89_potential",
    "c89_total",
    "c89_tendency"
   ],
   "note": "exact numbers; truncation without aliasing"
  },
  {
   "property": "C90",
   "status": "proved",
   "theorems": [
    "c90_kinetic",
    "c90_square",
    "c90_mean"
   ],
   "note": "exact numbers; truncation without aliasing"
  },
  {
   "property": "C91",
   "status": "partial",
   "theorems": [
    "c91_modes",
    "c91_rate_partial",
    "c91_energy_partial",
    "c91_mean_partial",
    "c91_default_refuted"
   ],
   "note": "REFUTED for the default coefficient 2/3 and a number of points multiple of 6 (the mode nx/3 is kept and aliased with itself). Proved for coefficients for which no kept mode reaches nx/3, and the exact rate in all cases."
  },
  {
   "property": "C92",
   "status": "partial",
   "theorems": [
    "c92_rate_partial",
    "c92_energy_partial",
    "c92_same_partial",
    "c92_default_refuted"
   ],
   "note": "REFUTED: the two forms have weights 1/2 and 1/2 instead of 1/3 and 2/3: the rate of change is a quarter of the one of the convective form. Proved without aliasing."
  },
  {
   "property": "C93",
   "status": "proved",
   "theorems": [
    "c93_rate",
    "c93_decrease"
   ],
   "note": "exact numbers; any symmetric list of modes"
  },
  {
   "property": "C94",
   "status": "partial",
   "theorems": [
    "c94_solution_partial",
    "c94_equations_refuted"
   ],
   "note": "REFUTED: f never changes and the coefficients of g are multiplied by exp(-i omega t) for all modes, so that g becomes complex. Proved: the modulus of g is constant and its frequency is the one of the waves."
  },
  {
   "property": "C95",
   "status": "proved",
   "theorems": [
    "c95_translation",
    "c95_real"
   ],
   "note": "exact numbers"
  },
  {
   "property": "C96",
   "status": "proved",
   "theorems": [
    "c96_ns2d",
    "c96_ns2d_strat",
    "c96_ns2d_bouss",
    "c96_burgers",
    "c96_ns3d",
    "c96_ns3d_strat",
    "c96_ns3d_bouss",
    "c96_truncated"
   ],
   "note": "exact numbers; truncation without aliasing; projection perpendicular to k for ns3d, any f"
  },
  {
   "property": "C97",
   "status": "proved",
   "theorems": [
    "c97_ns2d",
    "c97_ns2d_strat",
    "c97_ns3d",
    "c97_ns3d_strat",
    "c97_sw1l",
    "c97_sw1l_modified",
    "c97_EK_rate",
    "c97_parts"
   ],
   "note": "exact numbers; N != 0; frequencies even in k for sw1l"
  },
  {
   "property": "C98",
   "status": "partial",
   "theorems": [
    "c98_ns2d",
    "c98_ns2d_strat",
    "c98_ns3d",
    "c98_ns3d_strat",
    "c98_sw1l_modified",
    "c98_sw1l_A",
    "c98_sw1l_K_partial",
    "c98_sw1l_K_refuted"
   ],
   "note": "REFUTED for the kinetic energy of sw1l: without forcing of eta the change is deltat (PK1 + 2 PK2). Proved for the other solvers and quantities; for ns2d.strat with PA_tot."
  },
  {
   "property": "C99",
   "status": "partial",
   "theorems": [
    "c99_totals_partial",
    "c99_strat_refuted"
   ],
   "note": "REFUTED for the potential energy of ns2d.strat: the value of PA1 is written with the name PA2. Proved for all the others."
  },
  {
   "property": "C100",
   "status": "proved",
   "theorems": [
    "c100_ns2d",
    "c100_ns2d_strat",
    "c100_ns3d",
    "c100_ns3d_strat",
    "c100_sw1l",
    "c100_sw1l_modified"
   ],
   "note": "exact numbers; N != 0"
  },
  {
   "property": "C101",
   "status": "partial",
   "theorems": [
    "c101_quarter",
    "c101_stress",
    "c101_tendencies",
    "c101_default_refuted"
   ],
   "note": "REFUTED for the truncation 2/3 (default): an aliased contribution to F_w on a grid of 11 x 5 points. Proved for all the states when the product of two modes which are kept is not aliased on the grid, in particular when the modes kept are less than n/4 in each direction (c101_quarter)."
  },
  {
   "property": "C102",
   "status": "partial",
   "theorems": [
    "c102_energy_partial",
    "c102_dissipation",
    "c102_default_refuted"
   ],
   "note": "REFUTED for the truncation 2/3 (default): without forcing and dissipation the energy increases at the rate 44/25 for a state of three waves. Proved under the condition of C101."
  },
  {
   "property": "C103",
   "status": "partial",
   "theorems": [
    "c103_energies",
    "c103_conversions",
    "c103_injection",
    "c103_kinetic_partial"
   ],
   "note": "the energies, the conversions to the potential energies and the injection over a step are proved for every truncation; missing: the rate of E_k is proved under the condition of C101 (it is false with the truncation 2/3, c102_default_refuted)"
  },
  {
   "property": "C104",
   "status": "partial",
   "theorems": [
    "c104_rate",
    "c104_ratio_partial",
    "c104_zero",
    "c104_conserved",
    "c104_refuted"
   ],
   "note": "REFUTED: for small states (sum of the absolute values less than 1e-15) the result is 0 although the energy is not conserved. Proved otherwise."
  },
  {
   "property": "C105",
   "status": "partial",
   "theorems": [
    "c105_fields_partial",
    "c105_mean_velocity_partial",
    "c105_modes_partial",
    "c105_mean_modes_partial",
    "c105_computed_partial",
    "c105_eta_partial",
    "c105_qda_partial",
    "c105_mean_height_refuted",
    "c105_computed_mean_refuted",
    "c105_eta_mean_refuted"
   ],
   "note": "REFUTED for the mean mode: the mean of eta is lost, the mean velocity computed by the state of exactlin is zero, the q of qapamfft_from_etafft has a mean. Proved for all the other modes and for the mean velocity of the two main conversions."
  },
  {
   "property": "C106",
   "status": "partial",
   "theorems": [
    "c106_equations",
    "c106_mean_height",
    "c106_energy_partial",
    "c106_energy_rest_partial",
    "c106_energy_rotation_partial",
    "c106_energy_refuted"
   ],
   "note": "REFUTED for the energy: without forcing and dissipation and without aliasing it changes at the rate -1/4 for eta = ux = cos x, uy = cos x + sin x (the mass flux is truncated). The exact rate is proved for every state; it is zero when the flux has no truncated mode. Equations and mass: proved."
  },
  {
   "property": "C107",
   "status": "partial",
   "theorems": [
    "c107_exactlin_partial",
    "c107_exactlin_mean_partial",
    "c107_exactlin_negative_partial",
    "c107_onlywaves_partial",
    "c107_onlywaves_negative_partial",
    "c107_mean_refuted",
    "c107_onlywaves_refuted"
   ],
   "note": "REFUTED for f < 0: the mean flow turns in the wrong direction in exactlin (abs(f) in compute_freq_complex) and onlywaves omits the vorticity (test params.f > 0). Proved for f >= 0, and for f < 0 the exact difference is proved."
  },
  {
   "property": "C108",
   "status": "partial",
   "theorems": [
    "c108_equations",
    "c108_energy",
    "c108_exactlin_partial",
    "c108_exactlin_mean_partial",
    "c108_mean_refuted"
   ],
   "note": "REFUTED for exactlin.modified with f < 0 and the mean mode. Equations and conservation of the energy of sw1l.modified: proved; exactlin.modified: proved for f >= 0 or without the mean mode."
  },
  {
   "property": "C109",
   "status": "proved",
   "theorems": [
    "c109_no_div"
   ],
   "note": "modes kept without dealiasing error (good_modes); exact numbers"
  },
  {
   "property": "C110",
   "status": "partial",
   "theorems": [
    "c110_waves_partial",
    "c110_potential",
    "c110_vortices_partial",
    "c110_vortices_refuted"
   ],
   "note": "REFUTED for the vortices + waves forcing with f != 0: init_from_qafft adds uxa to uy, and a quarter of the rate is injected in the example. Proved for the two other forcings, and for f = 0."
  },
  {
   "property": "C111",
   "status": "partial",
   "theorems": [
    "c111_sum_partial",
    "c111_energy_partial",
    "c111_lin_partial",
    "c111_mean_refuted"
   ],
   "note": "REFUTED for the mean mode, which is not in the normal modes. Proved for all the other modes."
  },
  {
   "property": "C112",
   "status": "partial",
   "theorems": [
    "c112_partial",
    "c112_refuted"
   ],
   "note": "REFUTED: the energies of d and a are half those of compute_lin_energies_fft (factor 1/2 instead of sqrt(1/2)), so their sum is not the energy. The exact factor is proved."
  },
  {
   "property": "C113",
   "status": "partial",
   "theorems": [
    "c113_sum_partial",
    "c113_products_partial",
    "c113_refuted"
   ],
   "note": "REFUTED: the dyads aA and Aa are in the group AA, thus products with two waves of opposite signs are counted in GAAs or GAAd. Proved: the sum of the groups, GGG, AAA, and the sum of GAAs and GAAd."
  },
  {
   "property": "C114",
   "status": "proved",
   "theorems": [
    "c114_ns2d",
    "c114_ns2d_sums",
    "c114_strat_kinetic",
    "c114_strat_potential",
    "c114_strat_enstrophy",
    "c114_strat_components",
    "c114_strat_sums",
    "c114_strat_epsilon"
   ],
   "note": ""
  },
  {
   "property": "C115",
   "status": "partial",
   "theorems": [
    "c115_ns3d_partial",
    "c115_ns3d_no_hypo_partial",
    "c115_rotational",
    "c115_ns3d_sum",
    "c115_strat_kinetic_partial",
    "c115_strat_potential_partial",
    "c115_strat_sum",
    "c115_ns3d_refuted"
   ],
   "note": "REFUTED with a hypo-viscosity: its frequency is deleted and not in diss_Kh, diss_Kz, diss_A. Proved without hypo-viscosity, and with the missing term."
  },
  {
   "property": "C116",
   "status": "proved",
   "theorems": [
    "c116_kinetic",
    "c116_potential",
    "c116_parts",
    "c116_charney",
    "c116_sums"
   ],
   "note": ""
  },
  {
   "property": "C117",
   "status": "partial",
   "theorems": [
    "c117_shell_partial",
    "c117_sum_partial",
    "c117_groups_partial",
    "c117_shell_refuted"
   ],
   "note": "REFUTED: Tnq contains u.grad(eta u) instead of eta (u.grad u), so that the sum of the transfers is not the rate of change; the missing term is 3/2 in the example. Proved: the rate with the difference of these two terms, the sum of the five transfers over all the modes, the content of each group."
  },
  {
   "property": "C118",
   "status": "proved",
   "theorems": [
    "c118_shell",
    "c118_sum",
    "c118_exchanges",
    "c118_exchange_groups",
    "c117_groups_partial"
   ],
   "note": ""
  },
  {
   "property": "C119",
   "status": "proved",
   "theorems": [
    "c119_injection_rate",
    "c119_other_modes"
   ],
   "note": ""
  },
  {
   "property": "C120",
   "status": "partial",
   "theorems": [
    "c120_accepted_partial",
    "c120_one_mode_refuted",
    "c120_rest_refuted"
   ],
   "note": "REFUTED: np.random.randint(0, nb_wn_f - 1) raises a ValueError with one forced mode (and never chooses the last mode), and a flow at rest gives a division by zero. Proved: the forcing is computed when there are at least two forced modes, no forced mode of the variable has a zero real part and the raw forcing is not zero away from the chosen mode."
  },
  {
   "property": "C121",
   "status": "partial",
   "theorems": [
    "c121_wavenumber_partial",
    "c121_axis",
    "c121_nothing_forced_refuted",
    "c121_other_wavenumber_refuted"
   ],
   "note": "REFUTED for ik not below half the number of points of the grid of the forcing (which for kolmogorov_flow_normalized is set by nkmax_forcing, not by ik): nothing or another wavenumber is forced, without any error. Proved below."
  },
  {
   "property": "C122",
   "status": "proved",
   "theorems": [
    "c122_positive",
    "c122_minabs",
    "c122_rate"
   ],
   "note": "for which_root = minabs when the first-order injection of the last call is not zero (both roots have otherwise the same absolute value)"
  },
  {
   "property": "C123",
   "status": "partial",
   "theorems": [
    "c123_2d",
    "c123_3d_partial",
    "c123_3d_asymmetry",
    "c123_3d_refuted",
    "c123_wide_refuted"
   ],
   "note": "REFUTED in 3D: the line meant for the last column of kx excludes the row of ky = - deltaky (its mirror image with ky = + deltaky is forced). REFUTED for a sector which goes beyond the horizontal: sin(angle + delta_angle/2) is not the maximum and the grid of the forcing is too small. Proved in 2D, and in 3D for the other modes."
  },
  {
   "property": "C124",
   "status": "partial",
   "theorems": [
    "c124_complementary_partial",
    "c124_never",
    "c124_refuted"
   ],
   "note": "REFUTED: the angle is measured from the vertical, contrary to the documentation; no forced mode is in the documented sector if angle + delta_angle/2 < pi/4. Proved: the angle with the horizontal is the complementary one."
  },
  {
   "property": "C125",
   "status": "proved",
   "theorems": [
    "c125_density",
    "c125_processes",
    "c125_range"
   ],
   "note": ""
  },
  {
   "property": "C126",
   "status": "proved",
   "theorems": [
    "c126_separations",
    "c126_increments"
   ],
   "note": ""
  },
  {
   "property": "C127",
   "status": "partial",
   "theorems": [
    "c127_moments_partial",
    "c127_absolute_partial",
    "c127_absolute_refuted"
   ],
   "note": "REFUTED with absolute=True when the centres of the two first bins have opposite signs: the width is computed after taking the absolute values. Proved otherwise."
  },
  {
   "property": "C128",
   "status": "partial",
   "theorems": [
    "c128_same_range_partial",
    "c128_integral_refuted"
   ],
   "note": "REFUTED: np.interp extends the pdf of each time by a constant outside of its range; the integral is 4/3 for two times with ranges [0, 1] and [0, 3]. Proved: when all the times have the same range the result is the mean of the pdf."
  },
  {
   "property": "C129",
   "status": "partial",
   "theorems": [
    "c129_increments_partial",
    "c129_limits",
    "c129_pdf_u_refuted",
    "c129_struc_func_refuted"
   ],
   "note": "REFUTED for pdf_u (each process subtracts its own mean velocity) and for the structure functions of sw1l (np.mean over the rows of the process 0). Proved for the pdf of the increments."
  },
  {
   "property": "C130",
   "status": "partial",
   "theorems": [
    "c130_load_partial",
    "c130_load_refuted"
   ],
   "note": "REFUTED for files which do not start regularly (restart, change of max_size_file): filter_tmins_paths drops the first files with the minimum of the differences, and the beginning of the range is silently lost. Proved for regular files."
  },
  {
   "property": "C131",
   "status": "partial",
   "theorems": [
    "c131_load_partial",
    "c131_tmax_never",
    "c131_load_refuted"
   ],
   "note": "REFUTED: the loop on the files of a rank tests tmins_files[ip] with the ip left by another loop; with any file starting after tmax the loading always fails, or gives nothing (c131_tmax_never), and it raises an IndexError for tmin between two files. Proved when all the files start before tmax."
  },
  {
   "property": "C132",
   "status": "partial",
   "theorems": [
    "c132_odd_partial",
    "c132_even",
    "c132_even_refuted"
   ],
   "note": "REFUTED for an even number of instants: the power of the largest frequency is counted twice, and its omega is negative; the exact sum is proved. Proved for an odd number."
  },
  {
   "property": "C133",
   "status": "partial",
   "theorems": [
    "c133_kzkh",
    "c133_cells",
    "c133_first_moment",
    "c133_energy_partial",
    "c133_even",
    "c133_energy_refuted"
   ],
   "note": "REFUTED for an even number of instants: the power of the largest frequency is lost; the exact sum is proved. Proved for an odd number, and the distribution over (kz, kh) for any number."
  },
  {
   "property": "C134",
   "status": "partial",
   "theorems": [
    "c134_second_call",
    "c134_same_number_partial",
    "c134_second_call_refuted"
   ],
   "note": "REFUTED: domega is computed once by object; a second call with another number of instants gives spectra multiplied by n1/n2. Proved for the same number."
  },
  {
   "property": "C135",
   "status": "partial",
   "theorems": [
    "c135_saved",
    "c135_computed_partial",
    "c135_computed_refuted",
    "c135_totals_partial",
    "c135_totals_refuted"
   ],
   "note": "REFUTED: compute_temporal_spectra compares the nondimensional kx with kx_max with its dimension (wrong if Lx != 2 pi), and the (kz, kh, omega) spectra count twice the modes of the largest kx. Proved: the saved temporal spectra, compute_temporal_spectra for Lx = 2 pi, and the equality of the sums when the largest kx is not recorded."
  },
  {
   "property": "C136",
   "status": "partial",
   "theorems": [
    "c136_order_partial",
    "c136_only",
    "c136_order_refuted"
   ],
   "note": "REFUTED for the order (1, 2, 0): the wavenumbers are exchanged. Proved: they are right exactly when the order is its own inverse."
  },
  {
   "property": "C137",
   "status": "proved",
   "theorems": [
    "c137_spectra",
    "c137_decomposition"
   ],
   "note": ""
  },
  {
   "property": "C138",
   "status": "partial",
   "theorems": [
    "c138_energy_partial",
    "c138_energy_strat",
    "c138_enstrophy",
    "c138_others",
    "c138_energy_refuted"
   ],
   "note": "REFUTED for ns2d.strat with init_field_scale = energy: the total energy is used to scale the velocity and the buoyancy is set to zero, the energy is 1/2 instead of 1 in the example. Proved for ns2d, and the exact energy for ns2d.strat; the scales enstrophy and enstrophy_forcing are proved for both."
  },
  {
   "property": "C139",
   "status": "proved",
   "theorems": [
    "c139_frequencies"
   ],
   "note": "exact numbers; positive constants"
  },
  {
   "property": "C140",
   "status": "partial",
   "theorems": [
    "c140_units_partial",
    "c140_energy",
    "c140_energy_refuted"
   ],
   "note": "REFUTED for viscosity_scale = energy: the code computes energy_0 * (1.5) / large_scale instead of energy_0 ** 1.5 / large_scale; the exact factor is proved. Proved for the three other scales."
  },
  {
   "property": "C141",
   "status": "partial",
   "theorems": [
    "c141_rate_partial",
    "c141_viscosity",
    "c141_rate_refuted"
   ],
   "note": "REFUTED for init_field_scale = enstrophy_forcing: the rate is computed before the fields are normalised; rate 1 instead of 8 in the example. Proved for the other scales; the viscosities always come from the final state and rate."
  },
  {
   "property": "C142",
   "status": "partial",
   "theorems": [
    "c142_dtype_partial",
    "c142_times",
    "c142_overwritten_refuted",
    "c142_precision_refuted"
   ],
   "note": "REFUTED with dtype=None: the pattern periodogram_*_*.h5 also matches the files *_urud.h5 and *_complex64.h5, so that saving without urud overwrites the file with urud and the single precision file is loaded for the other one. Proved when dtype is always given; the times of the chosen file are always right."
  },
  {
   "property": "C143",
   "status": "partial",
   "theorems": [
    "c143_recorded_partial",
    "c143_boundary_refuted",
    "c143_empty_refuted"
   ],
   "note": "REFUTED: a probe at x = Lx (in the default region, because of the 1e-15 added to the end) is recorded by no process; a region of one point not on the grid can be empty after rounding. Proved for the probes at 0 <= x < Lx in each direction, in exact numbers."
  },
  {
   "property": "C144",
   "status": "partial",
   "theorems": [
    "c144_files_partial",
    "c144_one_probe",
    "c144_times_refuted",
    "c144_boundary_refuted"
   ],
   "note": "REFUTED: files of times closer than 1 ms have the same name and are overwritten; the elements at x = Lx are not set (np.empty); one probe in a direction is an IndexError. Proved for times more than 1 ms apart and at least two probes in each direction."
  },
  {
   "property": "C145",
   "status": "proved",
   "theorems": [
    "c145_profiles",
    "c145_variance"
   ],
   "note": "exact numbers; messages are delivered"
  },
  {
   "property": "C146",
   "status": "proved",
   "theorems": [
    "c146_load",
    "c146_all"
   ],
   "note": ""
  },
  {
   "property": "C147",
   "status": "partial",
   "theorems": [
    "c147_mpi",
    "c147_seq_partial",
    "c147_seq_exact",
    "c147_seq_refuted"
   ],
   "note": "REFUTED for one process and nx != ny: the arrays of the indices have the exchanged shape, nothing is initialised for nx = 32, ny = 8 and the mode (10, 2). Proved for several processes, and for one process when all the modes are lower than both sizes of the spectral array; the exact result (also IndexError) in all the cases."
  },
  {
   "property": "C148",
   "status": "proved",
   "theorems": [
    "c148_frequencies"
   ],
   "note": "spectrum not zero (nan otherwise)"
  },
  {
   "property": "C149",
   "status": "partial",
   "theorems": [
    "c149_lengths_partial",
    "c149_domain_refuted"
   ],
   "note": "REFUTED: the modes which are uniform in the direction (wavenumber zero) are counted in the energy, the lengths can be larger than the domain (4 and 2 times in the example). Proved: the formulas, 2 pi / kmax <= l2 <= l1, and l1 <= domain when the spectrum is zero at the wavenumber zero."
  },
  {
   "property": "C150",
   "status": "partial",
   "theorems": [
    "c150_coefficient_partial",
    "c150_isotropic_refuted"
   ],
   "note": "REFUTED: only the kz = 0 terms of vx and vy are removed, not those of vz: equal spectra give 3/2. Proved: the exact value, between 0 and 3, and when it is one."
  },
  {
   "property": "C151",
   "status": "partial",
   "theorems": [
    "c151_coefficient_partial",
    "c151_hyper_refuted"
   ],
   "note": "REFUTED for the hyperviscosity nu_4: kz^4 is compared to k^4 as kz^2 to k^2; 6/5 for isotropic gradients in the example. Proved for nu_4 = 0; the range and the exact value are proved for all the viscosities."
  },
  {
   "property": "C152",
   "status": "proved",
   "theorems": [
    "c152_fluxes",
    "c152_signs"
   ],
   "note": "exact numbers"
  },
  {
   "property": "C153",
   "status": "partial",
   "theorems": [
    "c153_averages_partial",
    "c153_window_partial",
    "c153_dissipation_refuted"
   ],
   "note": "REFUTED for I_dissipation: tmax is not given to compute_isotropy_dissipation, which averages up to the end of the simulation. Proved for all the other values."
  },
  {
   "property": "C154",
   "status": "partial",
   "theorems": [
    "c154_cache_partial",
    "c154_again",
    "c154_limits",
    "c154_stale_refuted",
    "c154_closure_refuted"
   ],
   "note": "REFUTED: the cache file is not recomputed when the simulation is continued and tmax was after the last saved time; two functions with the same source (closures) share the cached values. Proved, but for I_dissipation (C153), for every history in which tmax is before the last saved times and the functions are determined by their source."
  },
  {
   "property": "C155",
   "status": "partial",
   "theorems": [
    "c155_own_period_partial",
    "c155_spectra_period",
    "c155_zero_division_refuted",
    "c155_not_asked_refuted",
    "c155_other_period_refuted"
   ],
   "note": "REFUTED: the parameters of the spectra are used instead of those of the cross correlations (ZeroDivisionError at the first step when the spectra are not saved; one record although the period is zero; the period of the spectra otherwise). Proved when the parameters are the same; the exact records in terms of the parameters of the spectra. New run, exact numbers."
  },
  {
   "property": "C156",
   "status": "proved",
   "theorems": [
    "c156_names",
    "c156_values",
    "c156_values_1d"
   ],
   "note": ""
  },
  {
   "property": "C157",
   "status": "partial",
   "theorems": [
    "c157_loaded_partial",
    "c157_keys",
    "c157_given",
    "c157_prefix",
    "c157_ns3d_refuted",
    "c157_kzkh_refuted"
   ],
   "note": "REFUTED: only the keys starting with spectr are loaded; ns3d saves Khr and Khd without prefix (neither loaded nor found by plot1d_times), and load_kzkh_mean without key loads no spectrum. Proved for the files 1d and 3d of ns3d.strat and when the keys are given."
  },
  {
   "property": "C158",
   "status": "partial",
   "theorems": [
    "c158_means_partial",
    "c158_slabs",
    "c158_linear",
    "c158_distributed_refuted"
   ],
   "note": "REFUTED when x is distributed: the mask of a process without point of the region is not empty (slice without start, or with a negative end). Proved when each process has a plane of the region, in particular when x is not distributed."
  },
  {
   "property": "C159",
   "status": "proved",
   "theorems": [
    "c159_fluxes",
    "c159_adjacent"
   ],
   "note": "exact numbers, for every distribution"
  },
  {
   "property": "C160",
   "status": "partial",
   "theorems": [
    "c160_values_partial",
    "c160_columns",
    "c160_restart",
    "c160_limits",
    "c160_budget",
    "c160_whole_domain",
    "c160_no_forcing_refuted"
   ],
   "note": "REFUTED without forcing: the pressure due to the forcing is used but not defined, the output fails. Proved with a forcing."
  },
  {
   "property": "C161",
   "status": "proved",
   "theorems": [
    "c161_pressure"
   ],
   "note": ""
  },
  {
   "property": "C162",
   "status": "partial",
   "theorems": [
    "c162_times_partial",
    "c162_errors",
    "c162_phys_fields",
    "c162_default_partial",
    "c162_default_refuted",
    "c162_last_refuted",
    "c162_one_frame_refuted",
    "c162_no_frame_refuted",
    "c162_before_refuted"
   ],
   "note": "REFUTED: tmax is never shown; a step longer than the duration gives one frame (dt_equations is compared to tmax); tmin = tmax gives no frame and a division by zero; a tmin before the first file is accepted; the default step may be refused when the intervals between the files are not constant. Proved: regular times from tmin to tmax excluded; default movie accepted for regular files."
  },
  {
   "property": "C163",
   "status": "partial",
   "theorems": [
    "c163_frames",
    "c163_buttons_partial",
    "c163_single_refuted"
   ],
   "note": "REFUTED with one frame: the button goes to a frame which does not exist and stays there. Proved with two frames or more."
  },
  {
   "property": "C164",
   "status": "partial",
   "theorems": [
    "c164_count_partial",
    "c164_loop_refuted"
   ],
   "note": "REFUTED: repeat=True, the default, does not loop (True is taken as the integer 1). Proved for an integer."
  },
  {
   "property": "C165",
   "status": "partial",
   "theorems": [
    "c165_vectors_partial",
    "c165_default_refuted",
    "c165_false_refuted",
    "c165_step_refuted"
   ],
   "note": "REFUTED: the documented default True is not the default; False is ignored after the first frame; a step other than 1 fails with vectors. Proved for normalize_vectors=True and step=1."
  },
  {
   "property": "C166",
   "status": "proved",
   "theorems": [
    "c166_mean",
    "c166_default"
   ],
   "note": ""
  },
  {
   "property": "C167",
   "status": "proved",
   "theorems": [
    "c167_corners",
    "c167_bounds",
    "c167_cells"
   ],
   "note": ""
  },
  {
   "property": "C168",
   "status": "partial",
   "theorems": [
    "c168_z_partial",
    "c168_first_index",
    "c168_labels",
    "c168_removed",
    "c168_y_refuted",
    "c168_x_refuted",
    "c168_spaces_refuted"
   ],
   "note": "REFUTED: for y=... and x=... the index is looked for along the z axis: for rectangular elements always the first one; an equation with spaces is refused. Proved for z=... without space."
  },
  {
   "property": "C169",
   "status": "partial",
   "theorems": [
    "c169_indices",
    "c169_targets_partial",
    "c169_ordinates_refuted"
   ],
   "note": "REFUTED: the ordinates begin at xmin + dx, there may be no vector at all. Proved for the abscissas, for the indices in the elements, and for the ordinates if xmin = ymin."
  },
  {
   "property": "C170",
   "status": "partial",
   "theorems": [
    "c170_domain",
    "c170_viscosity",
    "c170_accepted_partial",
    "c170_coef_refuted"
   ],
   "note": "REFUTED: --coef-nu4 0 (no hyper viscosity) divides by zero when the simulation is not well resolved. Proved otherwise."
  },
  {
   "property": "C171",
   "status": "partial",
   "theorems": [
    "c171_region",
    "c171_order_partial",
    "c171_order_refuted"
   ],
   "note": "REFUTED for small F (F = 0.01, defaults): nkmax_forcing, limited by the resolution, is smaller than nkmin_forcing, which is not; the forcing refuses. Proved if the smallest forced wavenumber is resolved."
  },
  {
   "property": "C172",
   "status": "proved",
   "theorems": [
    "c172_times"
   ],
   "note": "exact numbers"
  },
  {
   "property": "C173",
   "status": "partial",
   "theorems": [
    "c173_inverse",
    "c173_equations_partial",
    "c173_dispersion_partial",
    "c173_damping",
    "c173_dispersion_refuted",
    "c173_poisson_refuted"
   ],
   "note": "REFUTED with a Poisson modulus (1 - sigma instead of 1 - sigma^2 in the scale of z), and for the documented dispersion relation omega = C k^2 (it is sqrt(C) k^2). Proved without Poisson modulus."
  },
  {
   "property": "C174",
   "status": "partial",
   "theorems": [
    "c174_frequency_partial",
    "c174_periodic",
    "c174_empty",
    "c174_short_refuted",
    "c174_mean_refuted",
    "c174_default_refuted"
   ],
   "note": "REFUTED: the default approximate_dt (None) raises TypeError; if no frequency of the signal is in the band (period shorter than that of the waves) the signal is nan; if the band contains 0 the phase does not follow the frequency. Proved for a band without 0 and below the largest frequency."
  },
  {
   "property": "C175",
   "status": "proved",
   "theorems": [
    "c175_interpolation",
    "c175_periodic"
   ],
   "note": "exact numbers; signals as computed (not reloaded with another period)"
  },
  {
   "property": "C176",
   "status": "partial",
   "theorems": [
    "c176_masks",
    "c176_boards",
    "c176_elsewhere",
    "c176_relaxation",
    "c176_rate_refuted"
   ],
   "note": "REFUTED for the rate: exp(-gamma), not 10^(-gamma) as the comment says. The rest is proved."
  },
  {
   "property": "C177",
   "status": "partial",
   "theorems": [
    "c177_limits_partial",
    "c177_defined_partial",
    "c177_rk4",
    "c177_waves_refuted",
    "c177_max_refuted",
    "c177_forcing_refuted"
   ],
   "note": "REFUTED: for a fluid at rest the limit of the waves is omega dt = 2 pi while RK4 needs omega dt <= 2 sqrt 2 (amplification by more than 30 per step); a time step 2 % above deltat_max is kept; forcing_rate = 0 divides by zero. The limits up to 2 % are proved."
  },
  {
   "property": "C178",
   "status": "partial",
   "theorems": [
    "c178_velocity_partial",
    "c178_cutoff",
    "c178_scalar",
    "c178_length_partial",
    "c178_scalar_refuted",
    "c178_length_refuted"
   ],
   "note": "REFUTED: the buoyancy is not dealiased; in ns3d the documented default length 0 divides by zero and, without length, the cutoffs of the velocity (Lx/4) and of the buoyancy (the smallest length / 4) differ. Proved for the velocity, without projection parameter; the transforms are given."
  },
  {
   "property": "C179",
   "status": "proved",
   "theorems": [
    "c179_jet",
    "c179_dipole",
    "c179_vortices"
   ],
   "note": "exact numbers"
  },
  {
   "property": "C180",
   "status": "partial",
   "theorems": [
    "c180_shells_partial",
    "c180_close",
    "c180_refuted"
   ],
   "note": "REFUTED: only neighbours are separated, so with 12 points and the default 4 shells the shells are 2, 3, 4 and 3. Proved if at most one shell is equal to the previous one; each shell is at most one step from its target."
  },
  {
   "property": "C181",
   "status": "partial",
   "theorems": [
    "c181_partial",
    "c181_error",
    "c181_unset",
    "c181_iff_partial",
    "c181_one",
    "c181_shell",
    "c181_refuted"
   ],
   "note": "REFUTED: the index is s nb_shells + i. Proved to be right exactly when nb_shells = nb_k_per_shell or nb_shells = 1; with more shells an IndexError, with less the last entries are not initialised; nb_k_per_shell = 1 divides by zero. Indices before the choice of the modes; nb_k_per_shell >= 2 for the equivalence."
  },
  {
   "property": "C182",
   "status": "partial",
   "theorems": [
    "c182_partial",
    "c182_refuted"
   ],
   "note": "REFUTED: the largest shell is computed with nx only; with 256 x 64 points in a square domain the mode saved for (0, 45) is (0, -19). Proved inside of the grid. One process, first direction not negative."
  },
  {
   "property": "C183",
   "status": "partial",
   "theorems": [
    "c183_value",
    "c183_partial",
    "c183_refuted"
   ],
   "note": "REFUTED: the period computed by _init_save is overwritten by the one of the parameters (True, that is 1, by default in sw1l). Proved if the period of the parameters is small enough."
  },
  {
   "property": "C184",
   "status": "partial",
   "theorems": [
    "c184_new_partial",
    "c184_restart_partial",
    "c184_refuted"
   ],
   "note": "REFUTED: when the file exists nb_saved_times is 1, and the first record of the second run erases all the records but the first. Proved for one run."
  },
  {
   "property": "C185",
   "status": "partial",
   "theorems": [
    "c185_windows",
    "c185_energy_partial",
    "c185_defined_partial",
    "c185_short",
    "c185_refuted"
   ],
   "note": "REFUTED: with less than 40 records the Hann window has two points, both zero, and all the spectra vanish. The energy is proved for every window length; the spectra are defined exactly from 3 records on. Exact numbers."
  },
  {
   "property": "C186",
   "status": "partial",
   "theorems": [
    "c186_axis_partial",
    "c186_refuted",
    "c186_again_partial",
    "c186_again_refuted"
   ],
   "note": "REFUTED: the frequencies are too large by nt/(nt-1) (4/3 for 40 records); a second call with another number of samples fails, because the transform of the first call is kept. Proved up to this factor; constant time step."
  },
  {
   "property": "C187",
   "status": "proved",
   "theorems": [
    "c187_modes"
   ],
   "note": "the time derivative is that of the linear equations; exact numbers"
  },
  {
   "property": "C188",
   "status": "proved",
   "theorems": [
    "c188_closest",
    "c188_between",
    "c188_all"
   ],
   "note": "exact numbers; one component of the spectra; strictly increasing times (no restart)"
  },
  {
   "property": "C189",
   "status": "partial",
   "theorems": [
    "c189_partial",
    "c189_refuted"
   ],
   "note": "REFUTED: only kxE is returned; the spectra versus ky have another grid (and length) if nx and ny differ. Proved for the spectra versus kx."
  },
  {
   "property": "C190",
   "status": "partial",
   "theorems": [
    "c190_lines_partial",
    "c190_step_partial",
    "c190_interval",
    "c190_refuted"
   ],
   "note": "REFUTED: with one record between tmin and tmax and a delta_t the opacity is not a number; load1d_means of ns2d.strat fails for a file with one record. Proved with at least two records and a positive delta_t."
  },
  {
   "property": "C191",
   "status": "partial",
   "theorems": [
    "c191_partial",
    "c191_refuted"
   ],
   "note": "REFUTED: the largest wave number which is not truncated is not plotted. Proved: no truncated wave number is plotted."
  },
  {
   "property": "C192",
   "status": "partial",
   "theorems": [
    "c192_wave_partial",
    "c192_degenerate",
    "c192_kept",
    "c192_refuted"
   ],
   "note": "REFUTED: the coefficient eta_max is given to one mode of the half spectrum, so that the surface is 2 eta_max cos(kx x); with the default parameters the maximum is 2 and the depth is negative in the troughs. A wave number which is not on the grid or is truncated silently gives eta = 0. Proved: the exact field in every case."
  },
  {
   "property": "C193",
   "status": "proved",
   "theorems": [
    "c193_signs",
    "c193_centre",
    "c193_errors"
   ],
   "note": "exact numbers, one process; the shuffling is any permutation"
  },
  {
   "property": "C194",
   "status": "proved",
   "theorems": [
    "c194_noise",
    "c194_cutoff"
   ],
   "note": "exact numbers, one process; the transforms are linear and inverse of each other on the spectra of real fields"
  },
  {
   "property": "C195",
   "status": "partial",
   "theorems": [
    "c195_wave_partial",
    "c195_mode_partial",
    "c195_lost",
    "c195_errors",
    "c195_refuted"
   ],
   "note": "REFUTED: a truncated mode silently gives a plate at rest, for example the default mode (20, 25) on the grid 64 x 64; the default mode is an IndexError on the grid 32 x 32. Proved: otherwise (0 < i1 < nx/2) a plane wave of amplitude 2."
  },
  {
   "property": "C196",
   "status": "partial",
   "theorems": [
    "c196_accepted",
    "c196_fields_partial",
    "c196_missing_refuted"
   ],
   "note": "REFUTED: a needed variable which is not in the file is silently zero. Proved: the condition of acceptance, the fields found in the file, the time and the iteration."
  },
  {
   "property": "C197",
   "status": "partial",
   "theorems": [
    "c197_records_partial",
    "c197_only_mean",
    "c197_plate1d_partial",
    "c197_refuted"
   ],
   "note": "REFUTED: with only one record plot2d of plate2d is an UnboundLocalError and the plots of sw1l are a ValueError (int of nan); plot1d of plate2d draws no spectrum at all if delta_t is less than half of the period of saving. Proved with at least two records (delta_t at least the mean period for plot1d of plate2d)."
  },
  {
   "property": "C198",
   "status": "partial",
   "theorems": [
    "c198_record",
    "c198_means_partial",
    "c198_refuted"
   ],
   "note": "REFUTED: the means of EL and EE are replaced by zero where EK (instead of EL or EE) is small, for example for a bent plate at rest. Proved: the records, and the means where EK >= 1e-15."
  },
  {
   "property": "C199",
   "status": "partial",
   "theorems": [
    "c199_means",
    "c199_records",
    "c199_fields",
    "c199_colors_partial",
    "c199_colors_refuted"
   ],
   "note": "REFUTED for the colours only: the mean total energy has the first colour whatever the position of its key. Proved: the values, and the colours by default."
  },
  {
   "property": "C200",
   "status": "partial",
   "theorems": [
    "c200_one_viscosity_partial",
    "c200_below",
    "c200_refuted"
   ],
   "note": "REFUTED: with several viscosities only the one of lowest order is used. Proved with one viscosity, and that the line is never above the dissipation (the hypo-viscosity nu_m4 is not considered)."
  },
  {
   "property": "C201",
   "status": "partial",
   "theorems": [
    "c201_mean_partial",
    "c201_one_time",
    "c201_refuted"
   ],
   "note": "REFUTED: the last record is left out (not a number if tmin and tmax are closest to the same record); EK and EA are an UnboundLocalError and E a ValueError. Proved: the mean of the records from tmin to the one before tmax, for ap_fft and am_fft."
  },
  {
   "property": "C202",
   "status": "partial",
   "theorems": [
    "c202_axis",
    "c202_data",
    "c202_rectangle_partial",
    "c202_delta_angle_refuted"
   ],
   "note": "REFUTED with the parameter delta_angle, whose forced region is not the rectangle. Proved: the axes (even ny), and the rectangles without delta_angle."
  },
  {
   "property": "C203",
   "status": "partial",
   "theorems": [
    "c203_parsed",
    "c203_guess",
    "c203_solver",
    "c203_dim",
    "c203_fft_partial",
    "c203_refuted"
   ],
   "note": "REFUTED: a third size given for a 2D solver is kept, and the commands which call get_opfft without the dimension (-p, -e) take the 3D classes. Proved: the deduced dimension, the completed sizes, the precedence of the solver over -d, and the dimension of the FFT classes otherwise."
  },
  {
   "property": "C204",
   "status": "partial",
   "theorems": [
    "c204_2d",
    "c204_3d_partial",
    "c204_3d_refuted"
   ],
   "note": "REFUTED in 3D when n0 = n2 > n1: Lx is enlarged but Lz is not. Proved in 2D and for all the other 3D shapes."
  },
  {
   "property": "C205",
   "status": "partial",
   "theorems": [
    "c205_nproc",
    "c205_2d",
    "c205_2d_max",
    "c205_3d_same",
    "c205_3d_refuted"
   ],
   "note": "REFUTED in 3D: the format string has two places for three sizes, so the shape misses the third size and is the same for all numbers of processes. Proved in 2D (exact logarithms)."
  },
  {
   "property": "C206",
   "status": "partial",
   "theorems": [
    "c206_all",
    "c206_names",
    "c206_start_partial",
    "c206_short",
    "c206_refuted",
    "c206_key_refuted"
   ],
   "note": "REFUTED: the pattern also takes the solvers whose name starts with the key (ns2d.strat for ns2d), and the solvers whose short name differs from their key (sw1l.exactlin) are not found. Proved: all the results of the solver and host are loaded, and only results whose name starts with the key."
  },
  {
   "property": "C207",
   "status": "partial",
   "theorems": [
    "c207_per_iter",
    "c207_quantile",
    "c207_rank",
    "c207_group",
    "c207_single",
    "c207_nb_min",
    "c207_best",
    "c207_strong",
    "c207_weak_partial",
    "c207_dirs_partial",
    "c207_median_refuted",
    "c207_weak_refuted",
    "c207_dirs_refuted"
   ],
   "note": "REFUTED: the weak efficiency is divided by 2 whatever the smallest number of processes; with several directories, the reference time of one directory is used with the number of processes of another; the quantile is not the median of the docstring. Proved: the grouped times, the best time, the strong scaling, the weak scaling from 2 processes."
  },
  {
   "property": "C208",
   "status": "partial",
   "theorems": [
    "c208_kinds",
    "c208_kind",
    "c208_py",
    "c208_pie",
    "c208_long_partial",
    "c208_refuted",
    "c208_long_refuted",
    "c208_nokind_refuted"
   ],
   "note": "REFUTED: the functions of .pyx files are counted twice (.pyx and .py), so that the sum can be 200 %; functions with the same name in several files overwrite each other; functions of no kind are not listed. Proved: no kind exceeds the total, the listed functions are above the threshold, the pie sums to 100 without negative slice."
  },
  {
   "property": "C209",
   "status": "partial",
   "theorems": [
    "c209_complete_partial",
    "c209_cut",
    "c209_line",
    "c209_duration",
    "c209_last_refuted",
    "c209_cut_refuted",
    "c209_restart_refuted"
   ],
   "note": "REFUTED: the last record of a complete file is not loaded; a file with a single cut record is an error; when a record has been cut and the run is continued in the same file, the energies are shifted with respect to the times. Proved: the other records are loaded with their printed values for the five formats of the solvers, and all the complete records when the last one is cut."
  },
  {
   "property": "C210",
   "status": "partial",
   "theorems": [
    "c210_steps",
    "c210_last_removed",
    "c210_mean",
    "c210_refuted"
   ],
   "note": "REFUTED: a single estimation which is not positive is an IndexError. Proved: the curve is the step function of the clock times per time step, the last value is left out if it is not positive, and the printed mean is the mean of the values."
  },
  {
   "property": "C211",
   "status": "proved",
   "theorems": [
    "c211_same",
    "c211_tendencies",
    "c211_energy"
   ],
   "note": "For all the schemes, time steps, forcings and operators: the transforms are parameters."
  },
  {
   "property": "C212",
   "status": "proved",
   "theorems": [
    "c212_divergence",
    "c212_projection",
    "c212_mean"
   ],
   "note": "For all the schemes; the mean flow is constant if the linear term and the forcing vanish at k = 0."
  },
  {
   "property": "C213",
   "status": "partial",
   "theorems": [
    "c213_vec",
    "c213_rot_partial",
    "c213_ux",
    "c213_uy",
    "c213_file_ns2d",
    "c213_file_refuted",
    "c213_rot_refuted"
   ],
   "note": "REFUTED: the inherited statespect_from_statephys sets rot_fft, which is not a variable of the state, so that a restart from a file fails; a vorticity which is not dealiased is not dealiased as in ns2d. Proved: the other initial states."
  },
  {
   "property": "C214",
   "status": "proved",
   "theorems": [
    "c214_momentum",
    "c214_means",
    "c214_energy",
    "c214_linear_pv",
    "c214_rest"
   ],
   "note": "The spherical harmonic operators (fluidsht) are external: the theorems are for all operators with the identities of the vector calculus (record good_surface), which are met by a ring of points."
  },
  {
   "property": "C215",
   "status": "partial",
   "theorems": [
    "c215_uxuyeta",
    "c215_rot",
    "c215_tendencies",
    "c215_steady",
    "c215_refuted"
   ],
   "note": "REFUTED: init_statespect_from with a single key other than rot_sh does nothing, without error. Proved: the other initial states are consistent, the tendencies from the spectral state are the tendencies from the physical state."
  },
  {
   "property": "C216",
   "status": "partial",
   "theorems": [
    "c216_grid",
    "c216_not_empty",
    "c216_coarser_partial",
    "c216_checks",
    "c216_empty_refuted",
    "c216_finer_refuted"
   ],
   "note": "REFUTED: the coarse grid has no point in y when nx_max ly < 2 lx, and only nx_max <= nx is checked, so that the coarse grid can have more points in y than the simulation. Proved: the number of points in y is the largest even one with cells not shorter than in x; the coarse grid is coarser if the cells of the simulation are not longer in y."
  },
  {
   "property": "C217",
   "status": "partial",
   "theorems": [
    "c217_transfer",
    "c217_history",
    "c217_invariant",
    "c217_slabs",
    "c217_work",
    "c217_arrays",
    "c217_pencil_refuted",
    "c217_ns2d_refuted",
    "c217_sign_refuted"
   ],
   "note": "REFUTED: with the state of ns2d (rot_fft) the transverse velocity is not forced; the transferred solid can be negative; a grid distributed over the second dimension is not implemented. Proved: the transfer of the solid at every time, the forcing of the other solvers."
  },
  {
   "property": "C218",
   "status": "proved",
   "theorems": [
    "c218_blocks",
    "c218_sequential",
    "c218_gather",
    "c218_parallel",
    "c218_rejected",
    "c218_dimensions"
   ],
   "note": "In the layouts of the parallel transforms only the two first dimensions are distributed (hypothesis two_first); any other layout is rejected. gather_Xspace is external."
  },
  {
   "property": "C219",
   "status": "partial",
   "theorems": [
    "c219_energy",
    "c219_rate",
    "c219_energyK_partial",
    "c219_energyK_refuted",
    "c219_errors"
   ],
   "note": "REFUTED for constant_rate_of = energyK with key_forced = ap_fft: the work is computed with the part ap of the state only, and the kinetic energy of a wave am in the state is not taken into account (for the total energy the two waves are orthogonal). Proved for energy with both keys, for energyK with rot_fft or without wave am."
  },
  {
   "property": "C220",
   "status": "partial",
   "theorems": [
    "c220_3d",
    "c220_2d_partial",
    "c220_2d_refuted",
    "c220_1d_refuted",
    "c220_keys_refuted",
    "c220_no_file"
   ],
   "note": "REFUTED: in 1D the variable ndim is overwritten and an unbound variable is used; in 2D the description of a vector has a third item which is not in the files; the keys of the first file are used for all the files. Proved: the description of 3D files with the same keys, and of 2D files without the third item."
  },
  {
   "property": "C221",
   "status": "partial",
   "theorems": [
    "c221_correl4_partial",
    "c221_symmetric",
    "c221_correl2",
    "c221_hermitian",
    "c221_diagonal",
    "c221_checked",
    "c221_omegas",
    "c221_even_number_refuted"
   ],
   "note": "REFUTED for an even number of times (the default is 100): a frequency omega_2 above the Nyquist frequency is folded onto the next frequency. Proved for an odd number of times, and for an even number when omega_2 is one of the frequencies of the array or negative; the second order correlations and the check of omega_1 are proved for all the numbers of times."
  },
  {
   "property": "C222",
   "status": "partial",
   "theorems": [
    "c222_mean_over_windows",
    "c222_file",
    "c222_restart_partial",
    "c222_windows_lost_refuted",
    "c222_cumulant_partial",
    "c222_cumulant_refuted",
    "c222_subplots",
    "c222_subplots_partial",
    "c222_subplots_refuted"
   ],
   "note": "REFUTED: the windows after the last recorded number are lost by a restart; the cumulants of the folded frequencies miss a conjugate; the figure has 4 places for 5 frequencies. Proved: the mean over the windows, the content of the file, the restart when the last window has been recorded, the cumulants of the other frequencies, the figure up to 4 frequencies. Exact arithmetic (log2)."
  },
  {
   "property": "C223",
   "status": "partial",
   "theorems": [
    "c223_by_index",
    "c223_by_coord",
    "c223_grid",
    "c223_files",
    "c223_axes",
    "c223_other",
    "c223_vectors_partial",
    "c223_2d_partial",
    "c223_coarse_refuted",
    "c223_online_refuted",
    "c223_2d_refuted"
   ],
   "note": "REFUTED: with ONLY_COARSE_OPER the grid includes the end of the periodic domain, so that another plane can be taken; the online plot of a 3D simulation takes the whole field; in 2D an equation is ignored for the state but is applied to (or an error for) the files. Proved: the sections, the nearest plane, the axes, the labels and the vectors for all the equations."
  },
  {
   "property": "C224",
   "status": "partial",
   "theorems": [
    "c224_default_key",
    "c224_prefered",
    "c224_plot3d_default",
    "c224_plot2d_default",
    "c224_get_field",
    "c224_state",
    "c224_file",
    "c224_late",
    "c224_mean_partial",
    "c224_array_refuted",
    "c224_mean_refuted"
   ],
   "note": "REFUTED: a given array can not be plotted (ValueError for all the solvers, although it is documented); two files with the same time in their names are confused by plot_mean. Proved: the default variable can always be obtained, the state or the files are used as asked, and plot_mean is the mean of the files between tmin and tmax when their times differ."
  },
  {
   "property": "C225",
   "status": "partial",
   "theorems": [
    "c225_values",
    "c225_sum",
    "c225_conversion_partial",
    "c225_kinetic_partial",
    "c225_modified_partial",
    "c225_modified_refuted"
   ],
   "note": "REFUTED for sw1l.modified (same class): the potential energy decreases at the rate c2eta1d, not Conv. Proved for sw1l with a good truncation: the potential energy decreases at the rate Conv = c2eta1d + c2eta2d / 2; the kinetic energy increases at this rate under the conditions of the conservation of the energy (C106)."
  },
  {
   "property": "C226",
   "status": "proved",
   "theorems": [
    "c226_values",
    "c226_bounds",
    "c226_scale"
   ],
   "note": "exact numbers; good truncation (no aliasing); c2 > 0"
  },
  {
   "property": "C227",
   "status": "partial",
   "theorems": [
    "c227_partial",
    "c227_waves_partial",
    "c227_waves_refuted"
   ],
   "note": "REFUTED for sw1l.onlywaves: the divergent part of the forcing of the velocity is missing, so that PK1 and PK2 are not the injection of kinetic energy. Proved for the other solvers, and for the surface and the rotational velocity of onlywaves."
  },
  {
   "property": "C228",
   "status": "partial",
   "theorems": [
    "c228_get_spectra_partial",
    "c228_two_dim",
    "c228_recomputed_refuted"
   ],
   "note": "REFUTED for 2d solvers: get_spectra looks for the file with the suffix _urud, which is never written in 2d, so that the spectra are computed again by each call. Proved for 3d with a dtype; the ambiguous names without dtype are in C142"
  },
  {
   "property": "C229",
   "status": "partial",
   "theorems": [
    "c229_default_tmax",
    "c229_default_tmax_saved",
    "c229_default_tmin_partial",
    "c229_nothing_saved_refuted",
    "c229_last_refuted"
   ],
   "note": "REFUTED: with nothing saved, plot_temporal_spectra() is a TypeError; with several periodograms the names are compared as strings, tmin = 9.0 is preferred to 10.0. Proved: tmax is the last time of the first rank (or the greatest saved tmax, or t_end); tmin is the one of saved temporal spectra as soon as there are some"
  },
  {
   "property": "C230",
   "status": "partial",
   "theorems": [
    "c230_energy_partial",
    "c230_two_keys_partial",
    "c230_buoyancy",
    "c230_vorticity_partial",
    "c230_axis_refuted"
   ],
   "note": "REFUTED for vertical wavevectors: the forcing of vp_fft and vt_fft of the modes with kh = 0 is lost, and the injection is smaller than forcing_rate. Proved if the raw forcing is zero for these modes; with a list of two keys each one injects forcing_rate; exact for b_fft"
  },
  {
   "property": "C231",
   "status": "partial",
   "theorems": [
    "c231_injection",
    "c231_bound_partial",
    "c231_cartesian_refuted",
    "c231_divergence_refuted"
   ],
   "note": "REFUTED for vx_fft, vy_fft, vz_fft and divh_fft: the forcing is normalized before the projection on divergence-free fields, so that less than forcing_rate is injected. Proved: the exact injection, which is at most forcing_rate and equal to it for wavevectors perpendicular to the component"
  },
  {
   "property": "C232",
   "status": "proved",
   "theorems": [
    "c232_units",
    "c232_units_ns3d",
    "c232_numbers",
    "c232_share",
    "c232_eta",
    "c232_energies"
   ],
   "note": "quotients by zero (a flow at rest) are not modelled; Uh2 is the horizontal kinetic energy"
  },
  {
   "property": "C233",
   "status": "partial",
   "theorems": [
    "c233_average_partial",
    "c233_nearest",
    "c233_mean",
    "c233_linear",
    "c233_k_max",
    "c233_interval_refuted"
   ],
   "note": "REFUTED for bounds which are not saved times: the nearest saved times are used, also when they are out of [tmin, tmax]. Proved when tmin and tmax are saved times (or tmax is None)"
  },
  {
   "property": "C234",
   "status": "partial",
   "theorems": [
    "c234_units",
    "c234_value",
    "c234_angle",
    "c234_keys",
    "c234_deltat_f_partial",
    "c234_deltat_f_refuted"
   ],
   "note": "REFUTED for the limit of the time step due to the forcing, 1 / forcing_rate^(1/3): it is a time only for a rate of enstrophy, and it depends on the units when the rate is a rate of energy (constant_rate_of = energy). Proved for the ratio gamma for all the keys"
  },
  {
   "property": "C235",
   "status": "partial",
   "theorems": [
    "c235_energy",
    "c235_energy_ns3d",
    "c235_enstrophy_partial",
    "c235_edges",
    "c235_no_forcing",
    "c235_no_forcing_refuted"
   ],
   "note": "REFUTED for plot_dt_enstrophy without forcing: always an error (PZ_tot is not defined). Proved for the energy of ns2d, ns3d, ns3d.strat and for the enstrophy with a forcing; np.gradient is only first order at the first and last times (c235_edges)"
  },
  {
   "property": "C236",
   "status": "partial",
   "theorems": [
    "c236_derivative",
    "c236_middles",
    "c236_model_partial",
    "c236_shift",
    "c236_model_refuted"
   ],
   "note": "REFUTED: plot_dt_energy of ns2d.strat shifts the times in place, so that the values of P - eps are plotted half an interval too late: the curves differ even if the budget is closed. Proved for a steady budget, and for the curve of dE/dt"
  },
  {
   "property": "C237",
   "status": "partial",
   "theorems": [
    "c237_share_partial",
    "c237_curves_partial",
    "c237_kzkh_partial",
    "c237_kzkh_share_partial",
    "c237_nu8_refuted"
   ],
   "note": "REFUTED with nu_8: the dissipation by nu_8 is not in the total dissipation. Proved for nu_2 and nu_4"
  },
  {
   "property": "C238",
   "status": "partial",
   "theorems": [
    "c238_number_kept_partial",
    "c238_upper_case_refuted"
   ],
   "note": "REFUTED for the formats E and G: the final zeros of the exponent are removed (1.50E+10 becomes 1.50E+1). Proved for all the texts with a lower-case exponent or without exponent; the rounding by the format itself is not modelled"
  },
  {
   "property": "C239",
   "status": "partial",
   "theorems": [
    "c239_name_of_a_loaded_simulation_partial",
    "c239_renamed_directory_refuted"
   ],
   "note": "REFUTED when the directory was renamed with a suffix _1 at the end of the simulation: the date is lost and the name is not the name of the directory. Proved if the directory has the name of the run and the name has at least one word"
  },
  {
   "property": "C240",
   "status": "proved",
   "theorems": [
    "c240_keys",
    "c240_index",
    "c240_list"
   ],
   "note": ""
  },
  {
   "property": "C241",
   "status": "proved",
   "theorems": [
    "c241_init",
    "c241_decomposition",
    "c241_waves",
    "c241_pure",
    "c241_energy"
   ],
   "note": "the modes kx = 0 are not waves: ap_fft and am_fft vanish (c241_decomposition)"
  },
  {
   "property": "C242",
   "status": "partial",
   "theorems": [
    "c242_signs",
    "c242_vorticity",
    "c242_even",
    "c242_circulation_partial",
    "c242_circulation_refuted"
   ],
   "note": "REFUTED for the net circulation: the vortices are not repeated with the periods of the domain, so that the vortices near the boundaries are truncated and the circulation on the grid is not zero. Proved: as many vortices of each sign, the vorticity is the announced sum, and no net circulation if the vortices have the same circulation on the grid"
  },
  {
   "property": "C243",
   "status": "partial",
   "theorems": [
    "c243_no_forcing",
    "c243_same_partial",
    "c243_preprocess_refuted",
    "c243_user_refuted"
   ],
   "note": "REFUTED with a forcing and params.preprocess.enable: the outputs are initialised (and the forcing computed, if HAS_TO_SAVE) before the preprocessing, and the forcing is not computed again at the same time, so that the first time step uses the forcing of the fields before the preprocessing. Same thing when the user modifies the state without params.init_fields.modif_after_init. Proved without forcing and when nothing changes the state after the initialisation of the outputs"
  },
  {
   "property": "C244",
   "status": "partial",
   "theorems": [
    "c244_first_record_partial",
    "c244_once",
    "c244_preprocess_refuted"
   ],
   "note": "REFUTED with params.preprocess.enable: the records at the initial time are those of the fields before the preprocessing. Proved when nothing changes the state after the initialisation of the outputs; the outputs are initialised exactly once"
  },
  {
   "property": "C245",
   "status": "partial",
   "theorems": [
    "c245_total",
    "c245_curves",
    "c245_zero",
    "c245_range_partial",
    "c245_range_refuted"
   ],
   "note": "REFUTED for the range: the largest wavenumber kept by the dealiasing is not plotted. Proved: the values are the frequencies of compute_freq_diss and all the smaller wavenumbers are plotted"
  },
  {
   "property": "C246",
   "status": "proved",
   "theorems": [
    "c246_ns3d",
    "c246_strat",
    "c246_axis"
   ],
   "note": ""
  },
  {
   "property": "C247",
   "status": "partial",
   "theorems": [
    "c247_efficient",
    "c247_efficient_operators",
    "c247_sizes",
    "c247_from_dir_partial",
    "c247_never_replaced",
    "c247_iteration_refuted",
    "c247_saved_refuted"
   ],
   "note": "REFUTED for modif_resolution_from_dir: the iteration is not kept (it is 0), so that a second state with the same time in thousandths is silently not saved although 'The new file is saved.' is printed. Proved for the memory efficient function, and for the time and the variables"
  },
  {
   "property": "C248",
   "status": "partial",
   "theorems": [
    "c248_last_partial",
    "c248_characters",
    "c248_errors",
    "c248_refuted"
   ],
   "note": "REFUTED when more than 3000 characters were printed after the last estimation (RuntimeError). Proved if the line is in the 3000 last characters"
  },
  {
   "property": "C249",
   "status": "partial",
   "theorems": [
    "c249_new_class",
    "c249_others_partial",
    "c249_aliased",
    "c249_loaded",
    "c249_refuted"
   ],
   "note": "REFUTED: the lists _modificators and _extenders are shared by a class and the classes which extend it, so that extending an extended class modifies it. Proved for a class without extender; the loaded class has the saved extenders"
  },
  {
   "property": "C250",
   "status": "partial",
   "theorems": [
    "c250_first_call_partial",
    "c250_extender_partial",
    "c250_turb_model",
    "c250_ignored",
    "c250_refuted"
   ],
   "note": "REFUTED for a first-level class replaced by an extender (or later): the classes were already imported and cached. Proved for the first call, for the classes of forcing, of outputs... and for the models of turbulence"
  },
  {
   "property": "C251",
   "status": "partial",
   "theorems": [
    "c251_once",
    "c251_sorted",
    "c251_create_partial",
    "c251_error",
    "c251_module_refuted"
   ],
   "note": "REFUTED: a module of solver is accepted but always gives an AttributeError (the default parameters are taken for the object InfoSolver). Proved for an object InfoSolver"
  },
  {
   "property": "C252",
   "status": "proved",
   "theorems": [
    "c252_directory",
    "c252_file",
    "c252_mpi",
    "c252_info",
    "c252_names"
   ],
   "note": ""
  },
  {
   "property": "C253",
   "status": "proved",
   "theorems": [
    "c253_found",
    "c253_precedence",
    "c253_absolute"
   ],
   "note": ""
  },
  {
   "property": "C254",
   "status": "partial",
   "theorems": [
    "c254_params",
    "c254_physics",
    "c254_axes_refuted"
   ],
   "note": "REFUTED: the documentation says that n0 is along x, the code uses the order of the axes of the arrays (n0 along y in 2D, along z in 3D). Proved with this order"
  },
  {
   "property": "C255",
   "status": "partial",
   "theorems": [
    "c255_has_vars",
    "c255_choice",
    "c255_velocity_partial",
    "c255_no_velocity",
    "c255_CFL",
    "c255_refuted"
   ],
   "note": "REFUTED: a state with ux, uy, uz (or with vx, vy, or with vx) is accepted and the first computation of the time step fails. Proved for the names used by the solvers (vx, vy, vz in 3D, ux and uy otherwise)"
  },
  {
   "property": "C256",
   "status": "proved",
   "theorems": [
    "c256_work",
    "c256_sum"
   ],
   "note": ""
  },
  {
   "property": "C257",
   "status": "partial",
   "theorems": [
    "c257_end",
    "c257_terminates_partial",
    "c257_steps_partial",
    "c257_exact_partial",
    "c257_refuted",
    "c257_endless_refuted"
   ],
   "note": "REFUTED: with deltat0 = 0.1 and t_end = 1. a run does 11 steps and ends at 1.0999999999999999; a time step smaller than half of the distance between the floats is absorbed and the run never ends. Proved for all the floats: n or n + 1 steps, exactly n steps for time steps which are multiples of a power of two, the end of the run when the time step is not smaller than the distance between the floats"
  },
  {
   "property": "C258",
   "status": "partial",
   "theorems": [
    "c258_test",
    "c258_last_partial",
    "c258_separated_partial",
    "c258_exact_partial",
    "c258_refuted"
   ],
   "note": "REFUTED: with deltat0 = period_save = 0.1 only 7 of the first 11 times are saved. Proved for all the floats: the last save is less than one period ago, two saves are separated by one period up to the rounding; every q-th step exactly when the time step is a multiple of a power of two"
  },
  {
   "property": "C259",
   "status": "partial",
   "theorems": [
    "c259_floordiv",
    "c259_test",
    "c259_last_saved",
    "c259_absorbed",
    "c259_exact_partial",
    "c259_refuted"
   ],
   "note": "REFUTED: with deltat0 = 0.1 and a period equal to 1, the outputs are saved at the steps 10 and 11, then 20, 30, 40, 51 and 61; from t = 16 the 1e-15 has no effect. Proved for all the floats: the operator // is the integer part of the exact quotient, a save is done exactly when a multiple of the period is in the interval from the last save (excluded) to the rounded sum of the time and 1e-15; every q-th step exactly when the time step is a multiple of a power of two"
  },
  {
   "property": "C260",
   "status": "partial",
   "theorems": [
    "c260_forced2",
    "c260_forced3",
    "c260_square_partial",
    "c260_cube_partial",
    "c260_limit_partial",
    "c260_refuted"
   ],
   "note": "REFUTED: in a domain with Lx = 2 Ly and nkmax_forcing = 5 the modes of the shell with ikx = 10 are not on the coarse grid and are not forced; with equal edges the modes of the axes with |k| = kmax_forcing are not forced when half of the size of the coarse grid is nkmax_forcing. Proved: the forced modes are exactly the modes of the shell strictly inside of the coarse grid (2D and 3D), all the modes of the shell with equal edges and a larger coarse grid"
  },
  {
   "property": "C261",
   "status": "partial",
   "theorems": [
    "c261_fallback",
    "c261_size",
    "c261_accepted",
    "c261_kept_partial",
    "c261_refuted",
    "c261_dealiased_refuted"
   ],
   "note": "REFUTED: nkmin_forcing = nkmax_forcing = 4 is refused (0 modes forced) although the grid of the simulation contains modes with |k| = kmax_forcing; with 12 x 12 points and nkmax_forcing = 6 the forcing is accepted and forces modes which are removed by the truncation. Proved: the conditions under which the forcing is accepted, the size of the coarse grid, the coarse grids for which all the forced modes are kept"
  },
  {
   "property": "C262",
   "status": "partial",
   "theorems": [
    "c262_refuted",
    "c262_found",
    "c262_unknown",
    "c262_error_partial"
   ],
   "note": "REFUTED: a KeyError raised by the import of the module of a registered solver is reported as an unknown solver (ValueError). Proved: the class of the registered module for the short and the full names; ValueError for an unknown name; the other errors of the import are not changed."
  },
  {
   "property": "C263",
   "status": "partial",
   "theorems": [
    "c263_refuted",
    "c263_start",
    "c263_replace",
    "c263_missing",
    "c263_nothing",
    "c263_interrupted_partial"
   ],
   "note": "REFUTED: with the preprocessing the two files are removed before the new ones are written, an interruption between leaves neither. Proved without interruption, and after any interruption without preprocessing."
  },
  {
   "property": "C264",
   "status": "partial",
   "theorems": [
    "c264_refuted",
    "c264_x",
    "c264_arrows",
    "c264_y_partial"
   ],
   "note": "REFUTED: the number of points skipped is computed with the cells along x and used along y: 40 % of the edge instead of 4 % for cells 10 times longer along y. Proved along x, and along y for square cells."
  },
  {
   "property": "C265",
   "status": "partial",
   "theorems": [
    "c265_refuted",
    "c265_right",
    "c265_found_partial",
    "c265_json_partial",
    "c265_json_right"
   ],
   "note": "REFUTED: only the last 1000 bytes are read, nothing is found for a longer record; a last json record which is not complete is an error although complete ones precede it. Proved: a returned time is the last one saved; it is returned when what was saved at this time has at most 1000 bytes."
  },
  {
   "property": "C266",
   "status": "partial",
   "theorems": [
    "c266_refuted",
    "c266_slope",
    "c266_shifted",
    "c266_last_partial"
   ],
   "note": "REFUTED: the times are shifted in place by half an interval before the curves of P - epsilon, P and epsilon are drawn. Proved: dE/dt is drawn at the middles of the times; how much each other point is shifted; the last point is right."
  },
  {
   "property": "C267",
   "status": "proved",
   "theorems": [
    "c267_rate",
    "c267_coarse"
   ],
   "note": ""
  },
  {
   "property": "C268",
   "status": "partial",
   "theorems": [
    "c268_refuted",
    "c268_constant_partial",
    "c268_errors"
   ],
   "note": "REFUTED: the data are kept (lru_cache) by path: a file modified between two calls gives its old content. Proved for all histories of calls on files which are not modified; at most two files are kept; the errors do not depend on the history."
  },
  {
   "property": "C269",
   "status": "proved",
   "theorems": [
    "c269_vectors"
   ],
   "note": ""
  },
  {
   "property": "C270",
   "status": "partial",
   "theorems": [
    "c270_window_partial",
    "c270_nan",
    "c270_refuted",
    "c270_slope"
   ],
   "note": "REFUTED: for accepted omega_1 the window around 4 omega_1 can be outside of the array and the value is nan (100 times, index 20). Proved: the value when the window meets the array, nan otherwise, the relative slope. Exact numbers."
  },
  {
   "property": "C271",
   "status": "partial",
   "theorems": [
    "c271_window_partial",
    "c271_normalised",
    "c271_small",
    "c271_refuted"
   ],
   "note": "REFUTED: nothing is computed (0) for the indices up to 10, in particular for the default omega_1 (index 1). Proved: the window for the other indices when it is in the array, 0 otherwise, the normalisation. Exact numbers."
  },
  {
   "property": "C272",
   "status": "proved",
   "theorems": [
    "c272_coherence",
    "c272_norm4"
   ],
   "note": ""
  },
  {
   "property": "C273",
   "status": "partial",
   "theorems": [
    "c273_shape_partial",
    "c273_shapeloc_partial",
    "c273_refuted"
   ],
   "note": "REFUTED: filter_by_shapeloc keeps the results with the same number of points and another local shape (said by its docstring), filter_by_shape without n2 keeps the results in three dimensions. Proved: what is kept exactly; no result of the given shape is lost."
  },
  {
   "property": "C274",
   "status": "proved",
   "theorems": [
    "c274_value",
    "c274_dissipation",
    "c274_linear",
    "c274_sign",
    "c274_enstrophy"
   ],
   "note": ""
  },
  {
   "property": "C275",
   "status": "partial",
   "theorems": [
    "c275_curves_partial",
    "c275_affine",
    "c275_parabola",
    "c275_refuted",
    "c275_one_character",
    "c275_success"
   ],
   "note": "REFUTED: a name with more than one character given as a string (\"EK\", said to be legal) is read character by character (KeyError). Proved for lists of names and names of one character: the curves, their mean, when they are made; exact for affine means, and inside for parabolas at regular times."
  },
  {
   "property": "C276",
   "status": "partial",
   "theorems": [
    "c276_method_partial",
    "c276_builtin_partial",
    "c276_solver_partial",
    "c276_pythran_partial",
    "c276_pythran_other_partial",
    "c276_fft_partial",
    "c276_python",
    "c276_error",
    "c276_strip",
    "c276_refuted"
   ],
   "note": "REFUTED: two different functions (the methods copy of ndarray and of dict) have the same label. Proved: the label for each form of the names of cProfile; the names of the functions written in Python are unchanged; the only error."
  },
  {
   "property": "C277",
   "status": "partial",
   "theorems": [
    "c277_fluidsim",
    "c277_load_partial",
    "c277_options",
    "c277_reset",
    "c277_refuted",
    "c277_example_refuted",
    "c277_example_partial"
   ],
   "note": "REFUTED: %fluidsim_load asks only for sim and overwrites params and Simul without a question; the example of its documentation (-t without a value) is an error. Proved: %fluidsim completely; %fluidsim_load for the variable sim, its options; %fluidsim_reset."
  },
  {
   "property": "C278",
   "status": "partial",
   "theorems": [
    "c278_chdir_partial",
    "c278_code",
    "c278_refuted"
   ],
   "note": "REFUTED: a path with a simple quote gives a code which is a syntax error. Proved for the paths without quotes, backslashes and newlines."
  },
  {
   "property": "C279",
   "status": "partial",
   "theorems": [
    "c279_frame",
    "c279_regular_partial",
    "c279_irregular_refuted",
    "c279_one_refuted",
    "c279_error",
    "c279_arguments",
    "c279_save"
   ],
   "note": "REFUTED: for irregular times some frames are not reached by any position of the slider, and a simulation with one saved time gives an IndexError. Proved: the frame is the first of the closest ones; one frame per position for regular times; the file of the movie (codec, duration of a frame)."
  },
  {
   "property": "C280",
   "status": "partial",
   "theorems": [
    "c280_value",
    "c280_frequency_partial",
    "c280_units_partial",
    "c280_curves_partial",
    "c280_shear",
    "c280_refuted"
   ],
   "note": "REFUTED: the axis is labelled t/t_f but the times are not divided, so the figure depends on the unit of time; for a constant rate of energy the energies are divided by a number which is not an energy (the exponents are those of a rate of enstrophy). Proved: the value of E_f, its dimension for a rate of enstrophy and of ap_fft squared, its relation with the frequency used for gamma, the curves; the figure of the shear modes."
  },
  {
   "property": "C281",
   "status": "partial",
   "theorems": [
    "c281_records_partial",
    "c281_number",
    "c281_colors_partial",
    "c281_value",
    "c281_refuted"
   ],
   "note": "REFUTED: a file with one record gives an error even for the average only; with a step of more than one record the colour of the last drawn record is not the end of the colour map; tmin after tmax gives an error of np.linspace. Proved for two records or more, increasing times and tmin <= tmax: the drawn records, the colours, the average, from 16 to 31 curves by default for regular times (all the records up to 20). Exact numbers; the compensated values for integer powers."
  },
  {
   "property": "C282",
   "status": "partial",
   "theorems": [
    "c282_clean",
    "c282_bench_all_partial",
    "c282_profile_all_partial",
    "c282_one",
    "c282_refuted"
   ],
   "note": "REFUTED: a simulation which cannot be created (outside the try) stops the classes which follow, and profile stops at the first run with an error although it prints a warning. Proved: the directories are always removed; bench runs all the available classes before the first one which cannot be created, a failing run is a warning; profile runs the classes before the first error; one class."
  },
  {
   "property": "C283",
   "status": "partial",
   "theorems": [
    "c283_iterations",
    "c283_solver_partial",
    "c283_short_name",
    "c283_ranks",
    "c283_rank0",
    "c283_plot_partial",
    "c283_refuted"
   ],
   "note": "REFUTED: the option -p without a file is ignored (run_profile is called without plot); profile(...) called without it_end sets it_end to None; the name of the file contains the lower case short name, which is not the key of the solvers sw1l.exactlin, sw1l.modified, sw1l.onlywaves...; a name given by the user is not the one of a solver. Proved: the numbers of iterations of the commands, the solver found again for a key without underscore, the table of the solvers whose short name is the key, the files of the processes."
  },
  {
   "property": "C284",
   "status": "partial",
   "theorems": [
    "c284_keys",
    "c284_kinds_partial",
    "c284_average",
    "c284_one_curve",
    "c284_strat_partial",
    "c284_styles",
    "c284_default",
    "c284_refuted"
   ],
   "note": "REFUTED: the rotational part Khr is saved but gives a ValueError; in ns3d.strat the curves of x and y (both drawn by default) have the same style; the labels of plot3d contain k_None; the poloidal curve is not drawn where only one of its two parts is smaller than 1e-15; it is drawn for the projection vortical, which is the toroidal one. Proved: the data sets are in the files, the mean, the curves, labels and styles otherwise."
  },
  {
   "property": "C285",
   "status": "partial",
   "theorems": [
    "c285_value",
    "c285_none",
    "c285_closest_partial",
    "c285_refuted"
   ],
   "note": "REFUTED: a closer point of an element whose rectangle does not contain the cursor is not seen, and there is no message just outside of the extreme points of the mesh. Proved: the value is the one of the first of the closest points of the elements whose rectangle contains the cursor (for all elements with points), when there is no message, and the value of a closest point of the mesh if it is in one of these elements."
  },
  {
   "property": "C286",
   "status": "partial",
   "theorems": [
    "c286_curves",
    "c286_law_partial",
    "c286_ratio",
    "c286_ratio_units",
    "c286_cubic",
    "c286_refuted"
   ],
   "note": "REFUTED: the functions are divided by -4 r and not by -4 eps r, so the black curve is the rate where the law holds and the figure depends on the units; the curve of the cube of r is negative and always out of the limits of the axis; the label of the lower axis names other structure functions. Proved: the values of the curves for all records, the sum of the parts, the lower ratio and its independence of the units. Exact numbers, at one separation."
  },
  {
   "property": "C287",
   "status": "partial",
   "theorems": [
    "c287_file",
    "c287_cache_partial",
    "c287_second",
    "c287_modes",
    "c287_value_at_N",
    "c287_scaling",
    "c287_key_partial",
    "c287_refuted"
   ],
   "note": "REFUTED: for the stratified solvers the given key is ignored (the kinetic and potential energies are drawn); the spectra saved by a first call are drawn again after the run was continued, when the signals contain new records before tmax. Proved: the name of the file determines the arguments (numbers without underscore), the spectra for fixed signals after any sequence of calls, the frequencies of the modes in 2d and 3d, the value at N and the guide."
  },
  {
   "property": "C288",
   "status": "partial",
   "theorems": [
    "c288_spectra_partial",
    "c288_spectra_order_partial",
    "c288_spectra_zero_partial",
    "c288_sign_partial",
    "c288_opposite_partial",
    "c288_ambiguous_partial",
    "c288_keys_partial",
    "c288_default_partial",
    "c288_limits_partial",
    "c288_sign_refuted",
    "c288_order_refuted",
    "c288_default_refuted",
    "c288_limits_refuted"
   ],
   "note": "REFUTED: the map of a correlation has the opposite sign where the correlation is smaller than one in absolute value, x and -1/x have the same color; plot_kzkh() of the spectra of ns3d is a ValueError (its default key is a key of the correlations); the spectra of ns3d.strat refuse vmin and vmax. Proved: the map of the spectra (logarithm, increasing), the sign and the value for correlations larger than one, the keys with a map, the default keys of the other outputs, the limits. Exact numbers, at one cell."
  },
  {
   "property": "C289",
   "status": "proved",
   "theorems": [
    "c289_budget",
    "c289_default",
    "c289_axes"
   ],
   "note": "The names of the data sets are those of ns3d and ns3d.strat, in any order; exact numbers, at one cell, for the records between tmin and tmax. The axes and the labels are not modelled."
  },
  {
   "property": "C290",
   "status": "partial",
   "theorems": [
    "c290_same_time",
    "c290_no_prefix",
    "c290_last",
    "c290_prefix_partial",
    "c290_prefix_error_partial",
    "c290_key",
    "c290_refuted",
    "c290_second_file_refuted"
   ],
   "note": "REFUTED: with a prefix, the time is the nearest one (or the last one) of the files of the prefix only, and plot_hexa is a ValueError without message if there is no velocity at this time, even if the two sets have other times in common; of two files with the same time only the first one can be drawn. Proved: a figure shows the arrows and the colors of its time, nearest to the given one in the colored set; always without prefix; with a prefix if each of its times has a velocity file; the last file by default; the default key."
  },
  {
   "property": "C291",
   "status": "partial",
   "theorems": [
    "c291_curves_partial",
    "c291_sizes_partial",
    "c291_twice_partial",
    "c291_energy_refuted",
    "c291_rectangular_refuted"
   ],
   "note": "REFUTED: the curves are the sums of the spectra along kx and along ky, so their sum is twice the energy, and plot1d is an error if the numbers of wave numbers along x and y differ (a grid with nx <> ny); the abscissa is kx for both. Proved: the points of the three curves for all records of equal sizes, the factor 2, the error. Exact numbers, natural coef_compensate, one record."
  },
  {
   "property": "C292",
   "status": "partial",
   "theorems": [
    "c292_lin",
    "c292_text_partial",
    "c292_old_file_refuted",
    "c292_text_refuted"
   ],
   "note": "REFUTED: if the file contains also spectrum2D_Edlin the curve of Ealin is drawn from it, and with a given coef_norm the texts of the guides are not on their lines. Proved: for the file of a run, the curves of the asked linear modes and no other, with the saved energies up to 1e-15 (the two waves added); the texts for the default coefficient."
  },
  {
   "property": "C293",
   "status": "partial",
   "theorems": [
    "c293_means_partial",
    "c293_total",
    "c293_delta_t",
    "c293_compensated_refuted",
    "c293_one_record_refuted"
   ],
   "note": "REFUTED: the argument coef_compensate is only printed, the curves are never compensated; a file with one record is a ValueError (int of nan). Proved: with at least two records at different times, the curves are the averages from the first record nearest to tmin to the first one nearest to tmax, the black one is the sum of the two others if the saved energies are, and delta_t does not change them. Exact numbers, at one wave number."
  },
  {
   "property": "C294",
   "status": "partial",
   "theorems": [
    "c294_name",
    "c294_run",
    "c294_unknown",
    "c294_version",
    "c294_prog_partial",
    "c294_broken_refuted",
    "c294_prog_refuted"
   ],
   "note": "REFUTED: the messages of fluidsim-bench, fluidsim-bench-analysis and fluidsim-profile name programs fluidsimbench, ... which do not exist; a subcommand whose init_parser raises ConsoleError prints the general help (no init_parser of the code raises it). Proved: the names of the subcommands, what each first argument runs, the error for the others, the printed versions. The arguments after the subcommand are not modelled."
  },
  {
   "property": "C295",
   "status": "partial",
   "theorems": [
    "c295_markers_2d",
    "c295_markers_3d",
    "c295_rectangle",
    "c295_sector",
    "c295_visible_partial",
    "c295_title_ticks_partial",
    "c295_fails_iff",
    "c295_default_3d_refuted",
    "c295_negative_refuted",
    "c295_ticks_refuted",
    "c295_title_refuted"
   ],
   "note": "REFUTED: with delta_angle given as a string, which is the default of the 3D solvers (\"10\u00b0\"), it is a TypeError; with kz_negative_enable the forced modes with negative kz are outside of the axes; the ticks of the horizontal axis have the vertical step; the title gives nkmin and nkmax in units of the vertical step although the unit is the largest step. Proved: when it fails; the points are those of the forced modes; the drawn rectangle and the closed edge of the sector; without negative kz all the points are in the region and visible; the title if the vertical step is the largest."
  },
  {
   "property": "C296",
   "status": "partial",
   "theorems": [
    "c296_nearest_kh",
    "c296_nearest_kz",
    "c296_values_kh",
    "c296_values_kz",
    "c296_values_omega",
    "c296_drawn",
    "c296_dispersion_kh",
    "c296_dispersion_kz",
    "c296_dispersion_omega",
    "c296_limits_partial",
    "c296_empirical_partial",
    "c296_works_partial",
    "c296_emp_omega",
    "c296_no_N",
    "c296_emp_refuted",
    "c296_no_N_refuted"
   ],
   "note": "REFUTED: plot_omega_emp=True with a slice at a given omega (the default equation) is always an error if there is an N; without N (ns3d) the arguments xmax, ymax and plot_omega_emp have no effect. Proved: the index of the slice is the first nearest one, the drawn values and axes, the line is the dispersion relation for regular axes (none for omega = 0 or omega > N), the limits and the empirical frequencies with N, and no error for slices of a file with two wave numbers in each direction. Exact numbers; the evaluation of the equation and the loading are not modelled."
  },
  {
   "property": "C297",
   "status": "partial",
   "theorems": [
    "c297_kz",
    "c297_kx_ky_partial",
    "c297_directions",
    "c297_scales",
    "c297_kx_refuted"
   ],
   "note": "REFUTED: on the axes of kx and ky the interval of the horizontal wave numbers kh is shaded, so the kx of a forced mode (for example kx = 0) can be outside. Proved for all regions between the vertical and the horizontal: the shaded intervals are the interiors of the smallest intervals containing the |kz|, resp. the kh, of the forced region, the texts are in their middle, nothing is shaded for other directions; the scales of the viscosities of order 2, 4 and 8. Exact numbers, positive viscosities and forcing rate."
  },
  {
   "property": "C298",
   "status": "partial",
   "theorems": [
    "c298_without_N_partial",
    "c298_default_key",
    "c298_unknown",
    "c298_curves",
    "c298_slope",
    "c298_modes",
    "c298_band",
    "c298_periodic_partial",
    "c298_key_ignored",
    "c298_Kp_refuted",
    "c298_milestone_refuted",
    "c298_key_refuted",
    "c298_box_refuted"
   ],
   "note": "REFUTED: with N the argument key_field has no effect; without N the accepted key Kp is a KeyError (its spectrum is not saved); with N and the milestone forcing whose movement is uniform or sinusoidal it is a KeyError (no period); without delta_angle the line of the anisotropic forcing is only one of the frequencies of the forced waves. Proved: the curves, the compensation, the parts drawn for each projection, the slope, the frequencies of the modes, the band of the anisotropic forcing as the smallest interval of the frequencies of its waves, the lines of the periodic forcings. Exact numbers, natural coef_compensate; the loading is not modelled."
  },
  {
   "property": "C299",
   "status": "partial",
   "theorems": [
    "c299_curves_partial",
    "c299_many",
    "c299_last",
    "c299_many_refuted",
    "c299_repeated_refuted",
    "c299_float_refuted",
    "c299_float_default"
   ],
   "note": "REFUTED: there are only 7 colors, so nb_rx_to_plot > 7 is an IndexError; with fewer separations than nb_rx_to_plot (nx < 10 for the default 5) some separations are drawn several times; the largest separation is not drawn if nb_rx_to_plot is less than the number of separations. Proved: up to 7 curves and for at least as many separations, the number of the curves, their points, different colors and different, evenly distributed separations. In double precision np.arange can give one more value: with 7 curves and 17 separations the index 17 is asked, an IndexError (c299_float_refuted, binary64 of Flocq). The positive theorems are for exact numbers, so for 7 curves they do not hold of the floats for all numbers of separations (for the default 5 curves the indices of the floats are proved to be the exact ones for less than 2^31 separations, c299_float_default; nothing is proved of the floats for the other numbers of curves); the pdf are those of load_pdf_from_file (C128)."
  }
 ]
}