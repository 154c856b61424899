# Design of the verification of fluidsim

The source under study is `/repo` (read as text, never run). The model is a
set of shallow embeddings in Coq 8.16.1: each Python function of interest is a
total Gallina function written branch by branch, exceptions are values of a
result type, loops are structural recursions or folds (or take explicit fuel and
report running out), and everything that is external to the code (clock,
signals, random generator, FFT library, nonlinear term, file system contents,
MPI) is an arbitrary argument of the function, so that the theorems hold for
all its behaviours.

## Layout

For each area `X` under `rocq/theories/`:

* `X_Model.v`  - definitions only; each one cites the file and lines of `/repo` it
  models and says where it simplifies;
* `X_Spec.v` (or the head of `X_Proofs.v`) - the vocabulary in which properties are stated, written
  independently of the model;
* `X_Proofs.v` - lemmas;
* `X_Props.v`  - the theorems listed in `MANIFEST.json`, each with an `Example`
  showing a concrete case that meets its hypotheses, and `Print Assumptions`.

Naming: `..._partial` marks a theorem that settles only a part of the property
(the missing part is described next to it), `..._refuted` marks a proof that the
property is false of the faithful model, with a concrete witness (a finding).

## Trusted base

* Coq's kernel (checked by `make`, and by `coqchk`).
* Axioms: none of our own. Theorems over the real numbers use the axioms of the
  standard library of reals (`ClassicalDedekindReals.sig_forall_dec`,
  `ClassicalDedekindReals.sig_not_dec`,
  `FunctionalExtensionality.functional_extensionality_dep`, and, where the
  standard trigonometry/exponential/limits library needs it, `Classical_Prop.classic`).
  `Print Assumptions` for each theorem is recorded in its `_Props.v` file
  and printed by the build. Theorems on histories, indices, files, caches, names
  are over `nat`, `Z`, `Q` or lists and are closed under the global context.
* The correspondence between the Python text and the Gallina text, which is
  checked by reading only. The main idealisations are:
  - floating point numbers are modelled by exact rationals (`Q`) or reals (`R`):
    rounding, overflow, NaN are not modelled (unless the property says so: the
    times and the periodic saves use the binary64 numbers of Flocq);
  - arrays are functions on indices or lists, numpy elementwise arithmetic is
    pointwise arithmetic;
  - HDF5/netCDF/text files are abstract contents, the file system is a finite map
    from names to contents, each elementary write is atomic (crash points are
    between elementary writes);
  - the FFT library (fluidfft) is not modelled: fields live in spectral space,
    products are discrete (cyclic) convolutions;
  - MPI collectives are functions of the vector of local values.

## What is modelled and not modelled

Modelled: time loop, CFL, time schemes, phase shifting, truncation, state
variables and cache, periodic outputs, print_stdout and the text and JSON files
of spatial means, state files, result directories, restart, forcing
(normalised, also with particular_k, proportional, time correlated, anisotropic
region, Kolmogorov flows, milestone movement and force), mode index maps, coarse/fine grids, resolution change, projections, parameter
merging, class extension, locks, finite differences, 0D models, subgrid model,
tendencies of ns2d (rot, ux/uy, strat, bouss), ns3d (strat, bouss), burgers1d,
nl1d, waves2d, ad1d, plate2d, dissipation frequencies, spatial means of ns2d,
ns2d.strat, ns3d, ns3d.strat, sw1l, sw1l.modified, plate2d; tendencies,
linear terms, operators, forcing and normal modes of sw1l, sw1l.modified,
sw1l.exactlin (modified), sw1l.onlywaves; spectral energy budgets of ns2d,
ns2d.strat, ns3d, ns3d.strat and of the sw1l solvers; probability density
functions and increments; loading of the time series, periodograms and sums over
the modes of the temporal and spatiotemporal spectra; names of the saved
periodograms, probes and their conversion into files of fields, empirical
frequencies; horizontal means; initial linear mode of ns2d.strat; preprocessing; mean values characterising a simulation and their cache;
cross correlations and loading of the 3D spectra; means and fluxes over regions (milestone); movies and cross sections of hexahedral elements (fluidsim-core); the script turb_trandom_anisotropic; the dimensional plates; the frequency modulated signals and the Watu wave makers; the time step of ns2d.strat; the initial noise, jet and dipole; the time signals of Fourier modes (time_signals_fft); loading and plotting of the 2D spectra; the initial fields of sw1l and plate2d and the type from_file; the plots of the spectra of plate2d, sw1l and of the spectra (kx, kz) of ns2d.strat; the console commands (shapes, boxes, loading and plots of the benchmarks, analysis of the profiles); the loading of stdout.txt and the figure of the clock times; the solver ns2d.with_uxuy; the solvers on the sphere; the coarse grid and the arrays of the milestone forcing; the writing of the files of the state; the normalisation of the forcing of ns2d.strat; the description of the files for Paraview; the correlations of frequencies of plate2d; the cross sections and the choice of the plotted fields; the conversion, the moments and the forcing of the velocity of sw1l; get_spectra and the default times of the temporal spectra; the normalized forcing of ns3d for each key; the dimensionless numbers of ns3d(.strat) and the ratio of frequencies of ns2d.strat; the plots of the budgets and of the cumulative dissipation; the name of the run; the linear modes of ns2d.strat; the grid of vortices of sw1l; the start of a simulation (outputs, preprocessing, first steps); the figures of the fluxes of ns3d and of the dissipation frequencies; the change of the resolution of saved states; the last estimated remaining duration; the information on the solvers, the extended classes and the default parameters; the loading of the parameters; the parameters of the benchmarks; the choice of the computation of the time step; the transfers by the rotational and divergent velocities; the times and the periodic saves in double precision; the modes of the isotropic forcings; the loading of the solvers; the files of the parameters; the arrows of the figures; the last time of the spatial means; the figure of the budget of ns2d.strat; the check of the injection rate; the reading of the hexadata and their arrows; the figures of the correlations of frequencies and the filters of the benchmarks; the potential enstrophy of sw1l; the rates of change of the means of sw1l; the labels of the pie chart of a profile; the commands of IPython; the slider of the interactive movie; the normalised energies of ns2d.strat; the spectra of ns3d at several times; the runs of fluidsim bench and profile; the averaged curves of the spectra; the value under the cursor of the figures of hexahedral files; the figure of the Kolmogorov law of sw1l; the figure of the temporal spectra; the maps in the plane (kh, kz); the time of the figures of hexahedral files; plot1d and the linear modes of plot2d for sw1l; plot2d of ns2d.strat; the subcommands of fluidsim; plot_forcing_region; plot_kzkhomega; the forcing region and dissipative scales of plot1d (ns3d); plot_temporal_spectra; plot_pdf.

Not modelled: plotting, movies, console commands, XML/HDF5 encodings,
the compiled kernels of transonic/pythran (their Python text is modelled),
fluiddyn and fluidfft, solvers other than those named, spherical harmonics.

## Properties

| id | what is modelled | how it is proved |
|----|------------------|------------------|
| C01 | `TimeLoop`: `main_loop`, `one_time_step` with arbitrary step function, dt, clock, signal oracles | induction on the number of remaining iterations; independent spec = list of steps |
| C02 | same, `USE_T_END` branch, with fuel | induction; step count bound from dt >= d (Archimedean) |
| C03 | same, events (signal arrival times, clock) as oracles | invariant of the loop over all event sequences |
| C04 | handlers and `signal.Signals(value).name` | case analysis; refutation for SIGUSR2 |
| C05 | trace emitted by `one_time_step` | trace invariant by induction |
| C06 | `Cfl`: `_compute_time_increment_CLF_*` | real/rational arithmetic, invariant over histories |
| C07 | same | refutation + 1.02 bound |
| C08 | `init_from_params`, `_init_freq_lin`, `_init_compute_time_step` as state transformers | refutation: the limit is overwritten |
| C09 | one dt per rank, allreduce = max | invariant over histories |
| C10 | `Schemes`: `ExactLinearCoefs` cache | invariant over dt histories |
| C11 | schemes as imperative programs over named buffers | refinement: program = formula, for any nonlinear term |
| C12 | same with zero nonlinear term | exp identities, induction over steps |
| C13 | same with N(y) = lambda*y | ring identities, Taylor remainder |
| C14 | `FD`: the implicit step with an external linear solver, sparse matrices as entry lists | quadratic form argument for any size and operator; instance for ad1d |
| C15 | `DFT`: 1-3D transforms as finite sums over modes (integers); `Alias_Model`: `get_phases_random` (1D/2D/3D), `_get_phaseshift`, any sum of products computed on the grid | orthogonality and `dft_product` (cyclic convolution) from geometric sums; weights of the pairs are 1, 0 (odd fold) or a phase; exact when no double fold; steps by unfolding the scheme |
| C16 | `get_phases_random` per direction | case analysis on the draw |
| C17 | masks of the 1D operator and of the spherical truncation | integer/real inequalities; in 1D refuted exactly when nx is divisible by 6 (coef 2/3), spherical refuted for unequal spacing |
| C18 | `get_region_multiple_aliases` and the mask | refutation with a witness; positive theorem for coef <= sqrt(8)/3 (Cauchy-Schwarz) and description of the removed region |
| C19 | `PhasePairs`: array pairs, in-place renewal | invariant; refutation of the alternation |
| C20 | `StateVars`: get_var cache with it stamps | invariant over operation histories; refutation for same-iteration assignments |
| C21 | `StateVars`: `init_*_from` of the base class and of each solver | loop over keys; refutations for ns2d, ns2d.strat, ns2d.bouss, plate2d, sw1l |
| C22 | `OutSched`: `_online_save`, `_has_to_online_save`, `one_time_step`, times in Q, `tsim + 1e-15` as a parameter | invariant over call histories, floor arithmetic; refutation with the doubles obtained from steps of 0.1 |
| C23 | `OutFiles`: HDF5 file = named datasets with a time axis, `_init_files`, `_online_save`, `_add_dict_arrays_to_file` as lists of elementary writes | invariant over histories with restarts; refutations |
| C24 | the same writes, stopped after any of them | prefix induction, invariant on the completed rows; refutations |
| C25 | `PhysFiles`: names as lists of characters, directory as a map, `save` with any width | invariant (a name with an iteration tells the iteration), decoding of the names |
| C26 | `PhysFiles`: `online_save`, `end_of_simul` folded over the calls | invariant on `t_last_save`; two refutations |
| C27 | `PhysFiles`: `name_file_from_time_approx`, `time_from_path` | names decoded exactly, argmin; refutation for states with the same printed time |
| C28 | `PhysFiles`: order of the names, width read from any file | lexicographic order of digits of the same length; three refutations |
| C29 | `PhysFiles`: `get_field` (interpolation between files) | closest index in an increasing list, rational arithmetic; two refutations |
| C30 | `RunDir`: loops of `_init_path_run` and of the move in `end_of_simul`, existence of paths as oracles (tested, then again at the mkdir) | freshness by induction on the fuel, termination by pigeonhole for distinct names |
| C31 | `Forcing`: compute guard | invariant over interleavings |
| C32 | second degree equation, root selection | real algebra |
| C33 | proportional coefficient | real algebra over lists of modes |
| C34 | tcrandom state file and seeds, generator abstract | simulation relation between both runs |
| C35 | cosine blend | real analysis (convexity of weight) |
| C36 | Arrays are functions of indices; the compiled loops (2D, 3D, set of variables and variable) and the Numpy versions (np.nonzero) | every loop observed at one index: the value is the zero iff the index is in the shape and masked; idempotence and equality of the versions follow |
| C37 | project_fft_on_realX_seq statement by statement (four real corners, loop over the pairs) | closed form for every ny by induction on the loop; Hermitian columns, fixed points and idempotence from it; counter-examples for odd ny and odd nx |
| C38 | put_coarse_array_in_array_fft and coarse_seq_from_fft_loc (sequential branches, 2D and 3D), the Nyquist test as a predicate on values | injectivity of the index map and its agreement with the wavenumbers held by the indices; read back; counter-examples for odd sizes and in 3D |
| C39 | `Resol_Model.v`: fill_field_fft_2d, fill_field_fft_3d (sequential layout, through the index functions of `Oper_Model`), the fill function of MiniOperModifResol, `_make_state_spect_2d/3d`; arrays are functions of indices, `[-i]` is `n - i` | loops which write a constant value observed at one index (`fold_const`), giving a closed form for all sizes; towards finer grids the 3D function is equal to the placement of a coarse array (C38); refutations by computation. The copy of the files, MPI and the `StatePhysLike` buffers are not modelled |
| C40 | _kadim_from_ik, _ik_from_kadim, kadim_from_ik012rank, i012_from_ixyz, ixyz_from_i012 | linear arithmetic against the definition of the wavenumber held by an index; the four layouts by cases |
| C41 | where_is_wavenumber in 2D (rounded indices) and 3D (slabs of equal or different heights, pencils) | induction on the list of the numbers of rows; counter-examples for wavenumbers outside of the 2D grid |
| C42 | One mode: poloidal, toroidal, radial projections, vp/vt, rotz/divh, gradient, with the 1e-14 replacement of zeros | unit vectors written with the angles, polynomial identities modulo cos^2 + sin^2 = 1; counter-example for a vertical wavevector |
| C43 | laplacian_fft and invlaplacian_fft of the 2D operators for order 2n | powers of -K2; field arithmetic |
| C44 | `Params`: containers as trees, `__ior__`, `merge_params` | nested induction on the trees |
| C45 | `Params`: classes with parents and lists shared through references, `extend_simul_class` | lookup lemmas; counterexample with three classes |
| C46 | `RunDir`: owner of the lock file of one directory under starts, SIGTERM and ends of processes; set of directories holding a lock when a directory is moved | induction on the history; counterexamples |
| C47 | `RunDir`: `open_patient` with any sequence of outcomes and durations (integers) | induction on the attempts |
| C48 | `Params`: options of `fluidsim-restart`, flow of `restart`, check | case analysis; counterexamples |
| C49 | `FD`: the sparse matrices of the 1D and 2D operators | sums over cyclic indices; refutations for the 2D class |
| C50 | `Models0D_Model.v`: tendencies, potential and steady states over the reals, `math.sqrt` of a negative number is None; without forcing | derivative along a trajectory and mean value theorem (Coquelicot); algebra; the zeros of the tendencies are exactly the origin and the announced states |
| C51 | `Milestone_Model.v`: PeriodicUniform (attributes, get_speed, get_locations, None when no branch is taken), the sinusoidal and uniform movements, the y coordinates; exact reals, Python's % | piecewise derivatives glued (Coquelicot), also at the multiples of the period; bounds on each branch; explicit jump for the default parameters | |
| C52 | `Budget_Model.v`: tendencies_nonlin of ns2d and ns2d.with_uxuy over all the modes of a truncation, transforms as finite sums | sums over triads, antisymmetry; derivative along a trajectory (Coquelicot) | |
| C53 | `SpatialMeans`: bytes of the text and JSON files, line templates of 5 solvers, `time_last_saved` | lemmas on lines, words and suffixes; sizes of the templates computed; refutation |
| C54 | `Means_Model.compute_freq_diss` for 1, 2, 3 dimensions; a missing attribute is `None` | sum of the terms for each mode (`c54_sum_partial`), sign (`c54_nonnegative`), counterexample in one dimension | |
| C55 | `Params`: `load_for_restart` as assignments in a tree, with `fix_old_params` | lemma get/assign |
| C56 | `Cfl`: `_compute_time_increment_CLF_U` | refutation for U < 0, positive theorem for U >= 0 |
| C57 | `Cfl`: one field on one or two processes | refutation with two components, positive theorem with one |
| C58 | `InPlace`: tendencies_nonlin of 16 solvers as programs over shared arrays, operators arbitrary | symbolic evaluation for each aliasing; refutation for ns3d.strat, plate2d, ns3d + subgrid model |
| C59 | same | same theorems (nothing is supposed on the rest of the memory); refutation for sw1l.exactlin.modified and sw1l.onlywaves with f > 0 (stand-in operators: only the dependence on the wrong array matters) |
| C60 | `PhaseForcing`: the schemes of area `Schemes` with a constant forcing | field identities; refutation at phase pi |
| C61 | `TurbModel`: Smagorinsky force over arbitrary transforms | ring identities per mode, integration by parts; refutation on a 4-point grid |
| C62 | `FD`: `_time_step_RK2` | refutation on N(S) = S; equality for state-independent tendencies |
| C63 | `StateVars`: one rule per branch of each method `compute`, operators uninterpreted | evaluation of the rules without cache; refutations for sw1l.modified and sw1l.onlywaves |
| C64 | `OutSched`: counter of `Spectra` (3D) over runs and restarts | induction on the saves; refutation |
| C65 | `OutSched`: `CorrelationsFreq._online_save` | invariant on the samples; refutation |
| C66 | `OutFiles`: probes files, decimals of the names and rounding of the times as parameters | invariant files ~ log of the saves; refutations |
| C67 | `SpatialMeans`: the templates written and the columns read by `load` | reflection on the templates: words of a rendered line = its tokens; refutations |
| C68 | `SpatialMeans`: `time_first_saved` with a number of iterations | computation on the first lines; refutation |
| C69 | `PhysFiles`: `update_times` | computation; refutation when the number of files is unchanged |
| C70 | `Forcing`: `normalize_forcingc` | case analysis; refutation |
| C71 | `RunDir`: two processes at the end of a simulation, the second one looks for a free name before or after the move | case analysis; counterexample |
| C72 | `RunDir`: test of the beginning of the path, strings | lemma on prefixes; counterexample |
| C73 | `RunDir`: `mkdir` failing for any reason | counterexample for any fuel |
| C74 | `Params`: names of the extenders in the files, `rsplit` | induction on the strings |
| C75 | `Params`: choice of the directory in `OutputCore.__init__` | case analysis |
| C76 | get_grid1d_seq | arithmetic of reals; counter-example for every n >= 2 |
| C77 | `PrintOut_Model.v`: the attributes which keep the last value, over the lists of values printed | induction |
| C78 | `PrintOut_Model.v`: `str(timedelta)`, the line, `split`, `in`, `int` on strings; decimal numbers of the standard library | no character of a number is a space, a colon or a `d`; round trip of the decimal representation |
| C79 | `PrintOut_Model.v`: `_evaluate_duration_left`, `_online_print` (given the instants of the prints), `_load_times` over lines; the rounding is any function within 1/2; numbers are exact | induction over the runs and prints; error of the rounding; refutation for it_end |
| C80 | `PrintOut_Model.v`: `times_start_last_from_path` over lines with lengths; a loop which does not end is None for every fuel | seek keeps what follows; refutations |
| C81 | `Milestone_Model.v`: `step`, `get_solid_field` seen from a point, sigma and the force | monotony of tanh; induction on the objects; derivative of the exponential; exp 1 <= 3 for the refutation | |
| C82 | `Budget_Model.v`: tendencies_nonlin of ns2d.strat | triads, Parseval | |
| C83 | `Budget_Model.v`: tendencies_nonlin of ns2d.bouss | triads, Parseval | |
| C84 | same as C82 | evaluation on one mode | |
| C85 | `check_energy_conservation`, the sums over all the modes | refutation with a decaying mode | |
| C86 | `Budget_Model.v`: tendencies_nonlin of ns3d, the three projections, no_vz_kz0, f | Parseval on the grid (aliasing included), the projections are self adjoint | |
| C87 | same | v x omega is orthogonal to omega on the grid; mean of the Lamb vector | |
| C88 | same | mean of the Lamb vector by products without aliasing | |
| C89 | `Budget_Model.v`: ns3d.strat | as C86, divergence form of the advection of b by triads | |
| C90 | `Budget_Model.v`: ns3d.bouss | same | |
| C91 | `Budget_Model.v`: burgers1d with the mode nx/2 set to zero | Parseval, triads; explicit state on 6 points for the refutation | |
| C92 | `Budget_Model.v`: burgers1d.skew_sym | same | |
| C93 | `Budget_Model.v`: nl1d | Parseval | |
| C94 | `Budget_Model.v`: freq_complex of waves2d, exact linear step | explicit solution | |
| C95 | `Budget_Model.v`: freq_complex of ad1d.pseudo_spect | trigonometry | |
| C96 | the same tendencies; the specification is written with convolutions | products on the grid = convolutions without aliasing; Leibniz rule; Lamb vector = advection + gradient | |
| C97 | `Means_Model`: the lists (name, value) written by `_save_one_time` of ns2d, ns2d.strat, ns3d, ns3d.strat, sw1l, sw1l.modified | the nonlinear part conserves (C52, C82, C86, C89) along a straight path, uniqueness of the derivative, linearity of the rate; sw1l: Parseval turns the sums over the modes into means over the grid | |
| C98 | same | expansion of the square after a step; sw1l: explicit means over the grid, counterexample with one mode | |
| C99 | same | lookup of the names in the lists written; counterexample for ns2d.strat | |
| C100 | same, `Oper_Model.ur/ud` for the horizontal decomposition | sums over the modes compared term by term with the specification | |
| C101 | `Plate_Model`: monge_ampere_from_fft, chi (solver and state), tendencies; all the modes of the grid, without the modes n/2 of the even sizes | discrete convolution (DFT.v) with weight (p x q)^2; uniqueness of the stress function; counterexample on 11 x 5 points computed with integers (reflection `zmonge`) | | |
| C102 | same, `plate2d_means` | derivative of the quartic energy by the product rule on finite sums; <w {z, chi}> = <chi {w, z}> by permutation of the exact triads; exact rate with aliasing (`energy_rate`) evaluated for the counterexample | | |
| C103 | same, compute_energies_conversion_fft, compute_energy | no condition on aliasing is needed for E_l and E_e (bilinearity on the grid) | | |
| C104 | same, test_tendencies_nonlin | the sum of the array is the rate (C103); homogeneity of degree 4 for the refutation | | |
| C105 | `SW_Model`: conversions between the variables, `computed_uxuy`; spectral fields are functions of the mode, first = the mean mode on rank 0 | algebra in C mode by mode; counterexamples for the mean mode | | |
| C106 | same, `sw1l` (tendencies_nonlin on the grid) | discrete convolutions (DFT.v), product rule; the rate of the energy is the work of the Coriolis force (absolute vorticity) on the kept part of the flux; counterexample with three waves computed exactly | | |
| C107 | same, `exactlin`, `onlywaves`, frequencies | C106 written in the modes; linear operator of the modes | | |
| C108 | same, `sw1l_modified`, `exactlin_modified` | antisymmetry of the advection by a velocity without divergence (Budget) | | |
| C109 | same, `init_from_uxuyfft` | the divergence of the tendency is the laplacian of the Bernoulli function minus the computed height | | |
| C110 | same, `waves_abc`, `vortices_abc`, `potential_abc`, init of the state of the forcing | energy after a step is a quadratic polynomial of alpha; a root is a hypothesis | | |
| C111 | `SWNormal_Model`: bvec, qmat, normalmode | algebra with sqrt; unitarity of qmat | | |
| C112 | same, `compute_qda_energies_fft` | same | | |
| C113 | same, `dyad_group`, `triad_group`, `group_matrix` (strings as keys, KeyError as None) | evaluation with symbolic values | | |
| C114 | `Seb_Model`: `ns2d_budget`, `ns2d_strat_budget`: the density of each saved spectrum, mode by mode; a shell is any set of modes | the transfers are the work of the advection (Budget); the curl of the advection of the velocity is the advection of the vorticity; is_derive of the energy of the shell | |
| C115 | same, `ns3d_budget`, `ns3d_strat_budget` (AssertionError as None) | work of the projected Lamb vector (Budget3D); counterexample with a wave damped by the hypo-viscosity | |
| C116 | same, `sw1l_modified_budget` | equations of C108; Helmholtz decomposition mode by mode; the advection by a rotational velocity has no mean | |
| C117 | `SebNormal_Model`: `transfer_keys`, `Tq_fft`, `Tnq_fft`, `sw1l_budget` | the sums of the normal modes are the fields (C111), equations of C106 in convolution form, product rule for the convolution; Leibniz rule and symmetry of the triple products for the sum over all the modes | the state is given by its fields; states without mean for the rate | |
| C118 | same, `transfer_keys_modified`, `Cq_fft` | equations of C108; the advection by a rotational velocity has no mean | | |
| C119 | `PartK_Model`: `normalize_forcingc_part_k`, `cond_no_forcing` (2D), `argmin`, with `project_fft_on_realX_seq` of `Oper_Model`; the random index is a function with values in its range; divisions by zero give None | the index of the chosen wavenumber is found again by argmin; sums changed at one point or at the two opposite points; closed form of the projection (C37); the column kx = 0 uses that the variable is the spectrum of a real field |
| C120 | same model | the three tests which give None; concrete region with one mode; the zero field |
| C121 | `PartK_Model`: `get_axis`, `coordinate`, `kolmogorov_field`, transform of `DFT` | sine as two exponentials, orthogonality on the grid; the congruences modulo the number of points |
| C122 | `PartK_Model`: `kolmogorov_normalized_run` (the array is replaced by the normalized one at each call), normalisation of `Forcing_Model` | the array is always a nonzero multiple of the sine; scaling of the second degree equation and unicity of the selected root |
| C123 | `Aniso_Model`: sizes of the grid of the forcing, masks `cond_box`, `cond_sector`, `cond_no_forcing_2d/3d` over the reals; `grid_size` any function with n <= g n | polar coordinates with acos, bounds of the region below the Nyquist wavenumbers; region `in_box`, `in_sector` stated without arccos; concrete regions for the refutations | |
| C124 | same model | sin and cos of the complementary angle; monotony of sin and cos on [0, pi/4] | |
| C125 | `Incr_Model`: `reduce`, `histogram`, `pdf_normalized` (both branches), np.histogram from its numpy text | the index of a value is the number of its bin (integer part), sums over the bins exchanged with sums over the values | |
| C126 | `Incr_Model`: `np_round`, `rxs` (in place loop), `compute_increments_dim1` | the exponential is below its chord, which bounds the correction of the loop by the last separation | |
| C127 | `Incr_Model`: `strfunc_from_pdf`, `compute_values_inc`; integer orders | sum over the values of the power of the centre of their bin; Lipschitz bound of the power | |
| C128 | `Incr_Model`: `interp`, `load_pdf` | interpolation at the nodes; concrete records | |
| C129 | `Incr_Model`: `compute_increment_pdf`, `compute_pdf_u`, `saved_struc_func_Kolmo` (dictionary of the process 0) | C125; concrete fields for the refutations | |
| C130 | `TSLoad_Model`: `filter_tmins_paths`, `get_arange_minmax`, `load_spatiotemporal` (times as integers, uninitialised elements as None) | the archive is cut in three parts (before, in, after the range); each file writes its part; invariant of the loop on the files |
| C131 | `TSLoad_Model`: `load_temporal` with the stale index `ip` | same decomposition; concrete files for the refutations |
| C132 | `TSpec_Model`: `periodogram`, `compute_spectrum`, `onesided`, `temporal_compute_spectra` | Parseval from the orthogonality of `DFT`; folding of the sum over the frequencies |
| C133 | `TSpec_Model`: `contribution`, `compute_spectrum_kzkhomega` (loops on the modes as a list) | sums exchanged, shares add up to one, integer part; then as C132 |
| C134 | `TSpec_Model`: attributes f_sample and domega as a state | C132 with the domega of the first call |
| C135 | `TSpec_Model`: `sum_wavenumber`, `tspectrum_saved`, `tspectrum_computed` | kx as a multiple of 2 pi / Lx; concrete modes for the refutations |
| C136 | `TSpec_Model`: `dims_used` | case analysis on the axes |
| C137 | `TSpec_Model`: `ud_fft`, `ur_fft`, `spectrum_Khd`, `spectrum_Khr` | linearity of the transform, orthogonal projection |
| C138 | `Prep_Model`: `normalize_init_fields` over arbitrary lists of modes with weights | the energy is quadratic; curl of the velocity of a vorticity |
| C139 | `Prep_Model`: `calcul_viscosity`, `contains` (substring), powers as Rpower and powerRZ | algebra of integer powers, case analysis on the four names |
| C140 | same model | logarithms of the scaled quantities |
| C141 | `Prep_Model`: `preprocess` (order of the calls) | unfolding; concrete state for the refutation |
| C142 | `TCache_Model`: `glob`, `complete_name`, `search`, `get_path`, `save_spectra`, `load_spectra` (directory = names in the order of glob) | matching and splitting lemmas over strings, invariant of the names of the directory; concrete directories for the refutations; formatting of floats is a parameter |
| C143 | `Probes_Model`: `arange`, `probes_seq`, `probes_loc`, `records` | positions are multiples of the mesh; a position in [0, L) is in exactly one block; concrete grids for the refutations |
| C144 | `Probes_Model`: `fields_at`, `save_times`, `save_data_as_phys_fields` | rounding to the number of the probe; injectivity of the names for times 1 ms apart; concrete runs for the refutations |
| C145 | `HMeans_Model`: `compute_hmean`, `hmean_to_3d_local`, `compute` | sums of slices over a distribution of the planes; algebra of covariances |
| C146 | `HMeans_Model`: `index_time`, `load_mean` | argmin gives the first nearest record |
| C147 | `LinMode_Model`: `put_ones_seq`, `put_ones_mpi`, `linear_mode` | membership in the list of the indices; concrete grid for the refutation |
| C148 | `LinMode_Model`: `omega_emp`, `delta_omega_emp` | weighted sums; variance formula |
| C149 | `MeanVals_Model`: `length_scales` | sums over the spectrum; Cauchy-Schwarz for l2 <= l1; counterexample with energy at wavenumber zero | |
| C150 | `MeanVals_Model`: `isotropy_velocities` | exact ratio; counterexample with equal spectra | |
| C151 | `MeanVals_Model`: `isotropy_dissipation` | the division by the frequency gives the energy back for each mode; counterexample for nu_4 | |
| C152 | `MeanVals_Model`: `fluxes` | partial sums of a double sum | |
| C153 | `MeanVals_Model`: `select`, `compute_mean_values` | the nearest index is not changed by later records; the values not listed in the record (ratios of the averages) are functions of the averages | |
| C154 | `MeanVals_Model`: `get_mean_values`, `cached`, `store` | invariant of the cache over the inductive histories of calls and continuations; the file name is the pair of times and the source (the truncated hash is taken as injective) | |
| C155 | `XCorr_Model`: `init`, `online_save`, `one_time_step`, `run` | invariant over the steps; a multiple of the period between two times from the floors | |
| C156 | `XCorr_Model`: `make_small_key`, `combinations`, `compute` | injectivity of the names, combinations of a list without repetition | |
| C157 | `XCorr_Model`: `saved_ns3d`, `saved_strat`, `load_mean`, `key_plot` | filter of the keys; the keys of the files are listed from the code | |
| C158 | `Regions_Model`: `make_info`, `in_slice`, `mask`, `compute_mean_region` | sum over the processes of a shared grid; Python slices with their negative ends | |
| C159 | `Regions_Model`: `compute_flux`, `compute_fluxes_region` | sum over the processes which have the plane | |
| C160 | `Regions_Model`: `compute_values`, `columns`, `row`, `init_file`, `load_key`, `all_terms` | linearity of the mean; position of each name | |
| C161 | `Regions_Model`: `P_nl_fft`, `P_forcing_fft`, `P_dz_b_fft` | algebra in C, mode zero apart | |
| C162 | Movies_Model: arange, init_ani_times, phys_ani_times, default_dt, time_of_frame | arange_spec from Qceiling; counterexamples by computation | |
| C163 | Movies_Model: next_frame, onestep | case analysis; cyclic successor as specification | |
| C164 | Movies_Model: animate, time_of_frame | modulo | |
| C165 | Movies_Model: init_vectors, update_vectors, strided | unfolding; counterexamples | |
| C166 | Movies_Model: plot_mean | filter, minimum and maximum of a list | |
| C167 | Hexa_Model: get_edges_2d | case analysis on the borders | |
| C168 | Hexa_Model: cross_section, letters_axes | argmin lemmas; argmin of a constant list | |
| C169 | Hexa_Model: approx_quiver, indices_in_elem, positions | the loops are filters on sorted lists; sorted set | |
| C170 | Script_Model: viscosity, hyper_viscosity, create_params | characterisation of the accepted arguments (create_inl), then algebra | |
| C171 | Script_Model: create_params, round3, forcing_accepts | rounding monotone and within half a unit | |
| C172 | Script_Model: create_params | sin is 1-Lipschitz (mean value theorem) | |
| C173 | Script_Model: make_converter, compute_* | the equations of the plate at a point (jets) as specification; algebra | |
| C174 | `Watu_Model`: the filtered noise, its standard deviation, the phase integrated in Fourier space, the signal | the inverse transform as a trigonometric polynomial; derivatives | |
| C175 | `Watu_Model`: the closed signal, the linear interpolation, t % period | interval of a time, explicit values | |
| C176 | `Watu_Model`: the masks (tanh) and the relaxation | tanh as a logistic function | |
| C177 | `StratDt_Model`: the limits and the 2 % rule of ns2d.strat, with several processes | maximum of lists; the RK4 gain on i omega | |
| C178 | `Noise_Model`: the filters, the projection, the normalisation of the noise, the cutoffs | transforms given (linear, inverse of each other on the independent coefficients); maxima | |
| C179 | `Noise_Model`: the vorticities of the jet and of the dipole | parity of the Gaussian functions | |
| C180 | TSigK_Model.v: moduli of the shells (reals, nearest integer), separation loop | Sorted-list induction; the counterexample is computed from powers of rationals | |
| C181 | TSigK_Model.v: the two loops as a list of assignments to an array of unset entries | Equivalence: index arithmetic, assignments to distinct indices | |
| C182 | TSigK_Model.v: where_is_wavenumber (one process) and the wave number of the index | Rounding bounds and case analysis of the indices | |
| C183 | TSigK_Model.v: the successive assignments of period_save | Direct | |
| C184 | TSigK_Model.v: _init_files and _online_save on the list of records | Induction on the records | |
| C185 | TSigK_Model.v: windows, folding, spectrum (TSpec_Model periodogram) | Parseval (TSpec_Props), sum of the folded spectrum for both parities, windows by induction on the fuel | |
| C186 | TSigK_Model.v: omega axis, size of the kept transform | Field arithmetic | |
| C187 | TSigK_Model.v: eigenmodes, dispersion relation | Complex field arithmetic | |
| C188 | Spec2D_Model.v: argmin of the distances, slices, means | The closest index is monotone; slices as index lists | |
| C189 | Spec2D_Model.v: load1d_mean | Direct, counterexample | |
| C190 | Spec2D_Model.v: step, range, opacity, plotted records | Range by induction on the fuel, linear arithmetic | |
| C191 | Spec2D_Model.v: plotted wave numbers of ns2d.strat | Minimality of the closest index | |
| C192 | InitSW_Model.v: arrays KX, KY, mask and inverse transform of a half spectrum of operators2d, InitFieldsWave, init_from_etafft | Sums with one nonzero term | |
| C193 | InitSW_Model.v: vortex_grid_shape, _random_plus_minus_list with any shuffling | Counting by induction; bound on all but one term of a double sum | |
| C194 | InitSW_Model.v: compute_wz_fft of the noise of plate2d with the filters of Noise_Model.v | Linearity of the transforms, maximum of scaled values | |
| C195 | InitSW_Model.v: compute_wz_fft of the harmonic (numpy indices, projection on the transforms of real fields), dealiasing of the state | Sums with one nonzero term | |
| C196 | InitSW_Model.v: from_file for files with axes | Equivalences on lists | |
| C197 | SpecPlot_Model.v: the steps and records of plot1d and plot2d of plate2d and sw1l (errors as values) | Rounding to the nearest integer; elements of a range with a step | |
| C198 | SpecPlot_Model.v: the values drawn by plot2d of plate2d at one wave number | Case analysis | |
| C199 | SpecPlot_Model.v: the values and colours drawn by plot2d of sw1l at one wave number | Linear arithmetic on the clipped values | |
| C200 | SpecPlot_Model.v: coefficient of plot_diss | Case analysis on the viscosities | |
| C201 | SpecPlot_Model.v: keys, limits and mean of spectra_multidim.plot | Slices as images of intervals of indices | |
| C202 | SpecPlot_Model.v: the reordered axis and data, the rectangles | Lists of integers, permutation; signs of sine and cosine | |
| C203 | Bench_Model.v: parse_args_dim, get_dim_from_class_name, get_opfft_dim | Case analysis; the import of the solver is a parameter (the name of the class of its operators) | |
| C204 | Bench_Model.v: modif_box_size | Rationals, case analysis on the sizes | |
| C205 | Bench_Model.v: int_log, nproc_gp, estimate_shapes | Integers; the logarithm is exact (its rounding is not modelled), the printed strings are lists of numbers | |
| C206 | Bench_Model.v: file_name, glob_match, load_bench | Strings; the glob is a prefix and a suffix | |
| C207 | Bench_Model.v: quantile, group_time, best_time, speedup, efficiency, reference_times | Rationals; sorted permutation of the runs, minimum of the groups, induction over the directories | |
| C208 | Bench_Model.v: counted, time_of_kind, long_functions, pie | Rationals; invariant of the dictionary over the functions and kinds, sum over distinct names | |
| C209 | `LogLoad_Model.v`: the lines written by the solvers, the patterns and positions of the words read by load; the formats of the numbers are parameters | `LogLoad_Props.v`: filtering of the lines of a pattern over the records; words of a line from the words of its parts | |
| C210 | `LogLoad_Model.v`: the doubled times and values of plot_clock_times | `LogLoad_Props.v`: parity of the indices; sum over pairs | |
| C211 | `WithUxuy_Model.v`: the two solvers with the schemes of `Schemes_Model.v`; the transforms are parameters; the operators of fluidfft with their documented formulas | `WithUxuy_Props.v`: a local linear map which commutes with the tendencies commutes with all the kernels of the schemes | |
| C212 | the same | zero mode of the tendencies; algebra of the projection | |
| C213 | `WithUxuy_Model.v`: keys of the state, init_statespect_from | computation and the characterisation of the velocity of a vorticity | |
| C214 | `Sphere_Model.v`: tendencies_nonlin of sphere.sw1l; the operators of fluidsht are parameters | `Sphere_Props.v`: linearity, div grad, rot grad, integration by parts (record good_surface, with an instance) | |
| C215 | `Sphere_Model.v`: the initial states of sphere.sw1l, the tendencies of sphere.ns2d | `Sphere_Props.v`: computation from the exactness of the transforms on the fields | |
| C216 | Mile3D_Model.v: the checks of nx_max and the number of points in y of the coarse grid, exact numbers | bounds of the floor; two counterexamples | |
| C217 | Mile3D_Model.v: zeroing, transfer (put_coarse_2d of Oper_Model.v), invariance in z, arrays of the forcing | from C38, by induction over the times; counterexamples for the sign of the solid and the state of ns2d | |
| C218 | SaveFile_Model.v: save_file on one process, with gather and with parallel HDF5; a file is a list of named arrays and attributes | induction over the blocks written by the processes, in any order | |
| C219 | StratForce_Model.v: compute_coef_ab_normalize of ns2d.strat, the linear mode ap and the arrays of the forcing | identities mode by mode: the waves ap and am are orthogonal for the total energy; counterexample for the kinetic energy | |
| C220 | Xmf_Model.v: create_description_xmf_file as a list of grids | induction over the files; three counterexamples | |
| C221 | Correl_Model.v: the sequential kernels with the choice of omega_2 and of the conjugate, the triangle and its copy, the sum over the processes, the check of omega_1 | the values are related to the discrete Fourier transform of real signals (periodicity and Hermitian symmetry of chi); counterexample with 4 times for the even numbers | |
| C222 | Correl_Model.v: the running mean, the condition of saving, the restart, the subtracted products, the numbers of subplots | induction on the windows (invariant: corr * k = sum); the cumulant from the Hermitian symmetry of C2; counterexamples computed with 4 times | |
| C223 | CrossSec_Model.v: the equations as strings (eval of the value is a parameter), Python indices, the grids, the cuts for the state and for the files, the axes, labels and vectors | case analysis on the prefixes; argmin_min of PhysFiles_Proofs for the nearest plane; counterexamples computed | |
| C224 | CrossSec_Model.v: the choice of the key, of the state or of the files in the three functions plot, plot_mean with the closest file | induction on the lists of keys and of times; exactness of the closest file for distinct times; counterexamples computed | |
| C225 | treat_conversion: means over the grid of powers of eta times the divergence | the cubic mean is a sum over the triads without aliasing, integrated by parts by exchanging two modes; with the tendencies of sw1l (SW_Model) this is the rate of the potential energy; with sw1l.modified the advection by the rotational flow conserves it | |
| C226 | skewness and kurtosis computed with the second moment in spectral space | Parseval; the bounds from the mean of the squares (t a + a^2 - c)^2 for all t and c | |
| C227 | get_FxFyFetafft and the maps from the state to (ux, uy, eta) for each set of keys | the maps are linear, the change during a step is dt times the image of the forcing, except for (ap, am) where the part of the divergence is missing | |
| C228 | get_spectra, load_temporal_spectra, save_spectra_kzkhomega on a directory of named files (names, glob and split as in C142) | invariant of the directories left by saves: the two files of a call are written together | |
| C229 | _get_default_tmax (files with rank, tmin and times), _get_default_tmin_periodogram, plot_temporal_spectra up to the choice of the file | the order of the names: temporal files are last; the greatest tmin of the first rank | |
| C230 | NormalizedForcing.compute with a list of keys, init_statespect_from and compute of the state of ns3d, projection of the tendencies, one step with the forcing alone; modes with weights | the maps from and to vp, vt, rotz are adjoint and isometric for kh not 0; the projection is symmetric | |
| C231 | the same for vx, vy, vz and divh | norm of the projection of a component; explicit wavevectors for the refutations | |
| C232 | get_dimless_numbers_versus_time of ns3d and ns3d.strat (lists of values, dictionaries) | scaling of elementwise operations, Rpower for eta, field identities for R_n | |
| C233 | get_dimless_numbers_averaged, nearest indices | the nearest of a saved time is itself; slice = filter; counterexample with three times | |
| C234 | _init_froude_number, _compute_ratio_omegas, deltat_f | Rpower of the units; explicit units for the refutation | |
| C235 | np.gradient, plot_dt_energy, plot_dt_enstrophy, plot_dt_E (lists of points) | gradient of a polynomial of degree 2; computed counterexample | |
| C236 | plot_dt_energy of ns2d.strat, shift of the times | slopes of a polynomial of degree 2 at the middles; three times for the refutation | |
| C237 | plot3d_cumul_diss, plot_kzkh_cumul_diss | partial sums, exchange of sums; two modes for the refutation | |
| C238 | SimReprMakerCore._make_list_repr (text of a parameter) on lists of characters; the format is external | grammar and value of decimal texts as the specification, case analysis on the exponent and the final zeros | |
| C239 | make_representations, time_from_path_run, get_time_as_str | split / join lemmas; a directory with the suffix _1 for the refutation | |
| C240 | add_word, add_parameters (dict.update, list.insert), list of the items | inductions, Permutation | |
| C241 | amfft, rotbfft_from_amfft, linear part of the tendencies (with apfft of StratForce_Model) | componentwise algebra (field) | |
| C242 | vortex_grid_shape, _random_plus_minus_list (shuffle: any permutation) | sums, Permutation, exchange of sums; 2 x 2 vortices on 2 x 2 points for the refutation | |
| C243 | constructor, post_init, preprocessing, prepare_main_loop, one_time_step; abstract state, forcing maker with memory, one output | relation between the two runs, induction on the steps, idempotence of the CFL; one mode with a proportional forcing for the refutations | |
| C244 | the same model with the records of one output | case analysis of the initialisation | |
| C245 | plot_freq_diss (curves as functions of the index, nan as None), mask of the dealiasing on an axis | real arithmetic, Int_part | |
| C246 | plot_fluxes of ns3d and ns3d.strat on the model of compute_fluxes_mean | sums over the cells | |
| C247 | `ModifResol_Model.v`: `StatePhysLike.get_var` with its shared buffer, `save_file`, both functions, `save` with the existing files. | The fill functions overwrite the same positions (`overwrites`), so that the variables are independent; then the list of the files. | |
| C248 | `LastDuration_Model.v`: `strip`, `startswith`, `split` on texts, the last 3000 characters. | Splitting of texts made of lines. | |
| C249 | `Info_Model.v`: classes with the address of their lists of extenders. | Lists in memory. | |
| C250 | `Info_Model.v`: two levels of classes with their caches. | Dictionaries. | |
| C251 | `Info_Model.v`: methods with one or two arguments, `TypeError` as a value. | Induction; uniqueness of the sorted list. | |
| C252 | `LoadParams_Model.v`: files and directories with their contents. | The least name is the head of the sorted list. | |
| C253 | `LoadParams_Model.v`: paths as lists of parts, a predicate for the directories. | Cases. | |
| C254 | `LoadParams_Model.v`: the record of the parameters, optional attributes. | Cases. | |
| C255 | CflChoice_Model: the keys of a state, has_vars, get_var (error or not), the choice of the function and the CFL number; first_call gives the variables read by the chosen function or the error | c255_has_vars, c255_velocity_partial (coherent names), c255_no_velocity, c255_CFL; c255_refuted: ux, uy, uz accepted then error | |
| C256 | FnlUrUd_Model: fnonlinfft_from_uruddivfunc with the transforms of DFT.v | c256_work: triads, antisymmetric; c256_sum: Leibniz rule on the convolutions; for modes without aliasing (good_modes) which are not dealiased | |
| C257 | Float64_Model: the times and the loop with the binary64 numbers of Flocq (rounding to the nearest, ties to even), main_loop with fuel | c257_end for all the floats (also nan), c257_terminates_partial, c257_steps_partial (rounding errors summed over the steps), c257_exact_partial (dyadic steps); c257_refuted and c257_endless_refuted by computation | |
| C258 | Float64_Model: online_saves, the test tsim - t_last_save >= period_save of _online_save | c258_test (the rounding is monotone, half an ulp), c258_last_partial, c258_separated_partial, c258_exact_partial; c258_refuted by computation | |
| C259 | Float64_Model: fmod (exact remainder), floordiv (the algorithm of CPython and numpy for positive numbers), has_to_online_save, slot_saves | c259_floordiv (relative errors of the subtraction and of the division, then the correction of the floor), c259_test, c259_absorbed, c259_exact_partial; c259_refuted by computation | |
| C260 | ForcedModes_Model: the size of the coarse grid, the array COND_NO_F in 2D and 3D by its indices | Wave numbers of the indices, then the shell; counter-example with Lx = 2 Ly | |
| C261 | ForcedModes_Model: init2, the errors of __init__ in 2D; fftw_grid_size is a function variable, not smaller than its argument | c261_accepted by cases; counter-examples with fftw_grid_size(4) = 4 and fftw_grid_size(6) = 6 | |
| C262 | find_entry, import_module_solver, strip, import_cls_simul (an entry point is a name and the result of load(): a module or an exception) | induction on the entries and on the prefix; refuted by computation | |
| C263 | save_ops, start_ops, exec (atomic operations on two files; an interruption is a prefix of the operations; whether a save refuses an existing file is a parameter) | by computation for all contents | |
| C264 | skip_quiver (np.round: Flocq's ZnearestE), arrows (slices ::skip) over the reals | error of the rounding (Znearest_half), Euclidean division; refuted for a grid of 1000 x 100 points on a square | |
| C265 | seek_from, tail_file, last_time_txt, last_time_json, get_last_time (a line is its kind and its size; a cut or incomplete line is not recognised) | what is read is a suffix of the lines, and perhaps the end of one line; induction | |
| C266 | curve_dtE, shift_times, curve_model, curve_second over Q | induction on the times; refuted by computation | |
| C267 | P_1, P_2, P_f (weights of sum_wavenumbers arbitrary; reals, no rounding) | induction on the modes, algebra | |
| C268 | lookup, read_from_path (lru_cache of size 2), get_path, read_hexadata, calls (a path with skip_vars is a number; the files at each call are a function) | invariant: the cache agrees with the files and has at most two entries; induction on the calls | |
| C269 | np_max, update_vmax, compute_vectors_quiver over the reals (arrays flattened) | invariant of the fold: largest norm of the points seen | |
| C270 | `CorrelPlots_Model.slice`, `abs_mean`, `norm_pick`, `diff`, `dnormpick` (Python slices are clamped, an empty mean is None) | the slice is the set of indices around 4 omega_1; the double sum is the sum over the pairs; counter-example with an accepted omega_1 | |
| C271 | `CorrelPlots_Model.f_conv`, `normalised` | the condition on the indices makes the window full; the last value divided by itself | |
| C272 | `CorrelPlots_Model.corr2_norm`, `norm4`, for correlations which are means over samples (C221, C222) | Cauchy-Schwarz inequality by induction on the samples; hermitian symmetry | |
| C273 | `CorrelPlots_Model.filter_by_shape`, `filter_by_shapeloc` | membership in the filtered lists; counter-examples | |
| C274 | `MeansPV_Model.charney_pv_fft`, `charney_pe_fft`, `charney_means`, `compute_enstrophy` | the potential vorticity is linear and damped like the fields; Parseval over the grid (Budget2D_Proofs.fft_ifft); the linear tendency has no potential vorticity | |
| C275 | Rates: np.gradient with unit step, the iteration of the argument keys, the curves and their means | the value at each index is the difference quotient between the neighbours (the half cancels); affine and quadratic means; REFUTED for strings of several characters | |
| C276 | ShortName: str.split, strip, in, startswith on lists of characters; _compute_shorter_name | the first occurrence of a separator characterises the parts (an occurrence cannot start earlier); one theorem for each form of the names; REFUTED: two methods with the same name | |
| C277 | Magic: the namespace as a function, the parser of the options of %fluidsim_load, the commands; loaders, float and the answer are variables | case analysis of the commands; induction on the number of words for the options; REFUTED: params and Simul overwritten without a question | |
| C278 | Magic: the lines of the code, joined | a small reader of the code (prefix, string literal between simple quotes) gives back the directory and the code without argument; REFUTED for a path with a quote | |
| C279 | Slider: np.argmin, the slider of ipywidgets as its positions, the codec and the rate of the frames | argmin is the first minimum (induction); for regular times the distance to another frame is at least one step; REFUTED for irregular times and for one time | |
| C280 | StratEnergy: k_f, E_f with Rpower, the curves as lists of points, the labels of the axes | E_f to the power 7 (3) is a monomial in the rate and the forced length, so the dimension and the relation with the frequency follow; REFUTED: the times are not divided, and a rate of energy | |
| C281 | SpecTimes: the step, the range of the records, np.linspace for the colours, the records of the average, the clipped and compensated value (integer powers) | the range is the image of an interval of integers (induction on the fuel); the step from the rounding to the nearest integer; the number of curves by division with remainder; REFUTED for one record and for the last colour | |
| C282 | bench and profile as the lists of what they do for each class (create, run, warn, clean), which simulations and runs fail being parameters | induction on the list of the classes | |
| C283 | the numbers of iterations, the options and the names of the files as lists of characters | properties of str.split (ShortName), computation on the table of the short names | |
| C284 | SpecCurves: the names of the data sets, the styles, the mean without the small values, the curves of ns2d, ns3d and ns3d.strat (at one wave number) | cases on the finite list of solvers, dimensions and directions; the mean for any list of records | |
| C285 | HexaMove: the limits of the elements, argmin, the stable sort of the elements by distance, the value of the first one | induction on the points and on the elements; the head of a stable sort is the first of the smallest | |
| C286 | KolmoPlot: the saved sums, the means over the records and the curves at one separation | linearity of the mean, field on Q | |
| C287 | TSpecPlot: the name of the file, the directory, the calls, the modes, the value at N and the guide | the parts of the name are separated by underscores; invariant of the directory; field and sqrt | |
| C288 | KzkhMap: the keys of the files, the average, log10 and sign as pixels (value, -inf, NaN), the default key and the limits | ln of the stdlib; sign cases; ln of the inverse | |
| C289 | KzkhMap: the names of the data sets, endswith, the filter of the keys, the average | computation of the filter; membership only, so any order of the file | |
| C290 | HexaTime: the sets of files as lists of (time, content), argmin, list.index, the checks of plot_hexa, the default key | induction on the files; specification of the first file at a time as an inductive relation | |
| C291 | SwSpec: the broadcasting sum of two arrays, the compensated curves of one record, ax.plot with its check of the lengths | induction on the lists; linearity of the sum | |
| C292 | SwSpec: the saved linear modes, the choice of the data sets, the curves with their labels, the guides and their texts | case analysis on the keys; Rpower_plus | |
| C293 | StratPlot: the mean period, argmin, the slices and the means of load2d_means, at one wave number | telescoping sum of the periods; first minimum by induction; sums over slices | |
| C294 | ConsoleMain: the names of the modules, the subparsers, the choice of the function, the printed versions, the name of the program | induction on the characters; case analysis on the first argument | |
| C295 | ForcRegion_Model: plot_forcing_region as a list of drawings, axes, ticks, bounds of the title and points, on top of the forced modes of Aniso_Model; the parameter delta_angle is None, a number or a string in degrees | the points are the forced modes (2D and 3D), the rectangle and the closed edge of the sector for all parameters, visibility from c123_2d and c123_3d_partial; four refutations (string delta_angle, negative kz, ticks, title) | |
| C296 | KzkhOmega_Model: plot_kzkhomega after the loading, the equation as an inductive type, the figure as axes, values, limits, dispersion line and empirical lines | the slices and axes for all spectra; the nearest index by induction; the line equals N kh / k on regular axes (three slices); two refutations (plot_omega_emp with omega, arguments without N) with the general theorems c296_emp_omega and c296_no_N | |
| C297 | SpecBands_Model: the bands and the lines added by plot1d of ns3d | the bands are compared with the forced region (wanted) of Aniso_Props, as smallest intervals, for rectangles and sectors; the scales by logarithms of Rpower; the refutation uses c123_3d_partial | |
| C298 | TempPlot_Model: plot_temporal_spectra after the loading, the figure as curves, dots, line of slope -2, marks of the forcing and limits | the curves and guides for all inputs; the band of the forcing against the forced region (wanted) of Aniso_Props; the dots against the dispersion relation; four refutations | |
| C299 | PlotPdf_Model: plot_pdf as a list of colored curves, the pdf of load_pdf_from_file as a parameter | the indices as integer parts of k n / nb, distinct colors by NoDup; three negative results (more than 7 curves, fewer separations, largest separation); PlotPdfFloat: np.arange in binary64 (Flocq), by computation for 17 separations and 7 curves, by the error of the rounded quotient (at most 2/5 ulp for a fifth) for 5 curves | |

## Mutation attempts

`seeded/LOG.jsonl` has one line per attempt, with the survivors. The attempts were queued and the queue was not finished:
no attempt is logged for C60, C232, C233, C234, C238, C239, C240, C243, C244, C247, C249, C250, C251, C260, C261, C265, C266, C267, C268, C269, C270, C271, C272, C273, C274, C276, C277, C278, C279, C286, C296, C297, C298, C299.
