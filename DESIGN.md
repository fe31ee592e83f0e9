# Formal model of landreman/qsc in Rocq (Coq 8.16.1)

Generated by `tools/design.py` from `tools/design_head.md` (this text), `tools/plan.txt`
(one line per property), MANIFEST.json and the output of `Print Assumptions`.

## What is modelled and how

The code in /repo/src is modelled function by function as total Gallina functions
(directory `rocq/theories`); every definition of the model cites the file and lines it models.
For each part `X` of the code there is a model `X.v`, where useful a separate specification
`XSpec.v` that does not mention the model's helpers, lemmas `XFacts.v`, and the theorems of the
properties with concrete examples in `Properties_*.v`.

* **Failures are outcomes.** A function that can fail returns `Ok v`, `Throw msg` (a C++
  exception) or `UB why` (undefined behaviour: access outside an array, use of an uninitialised
  variable, overflow of an `int`).  An access outside an array is `UB`, never a default value.
* **Arithmetic is a parameter.** `FloatOps.fops F` and `MathOps.mops F` are records of
  operations (addition, comparison, square root, sine, ...).  Control flow, counters and array
  bounds are proved for *every* such record, hence also for IEEE arithmetic with NaN; statements
  about NaN use the instance `D_ops` (binary64 of `Coq.Floats.SpecFloat`); numerical identities use
  the instance `R_ops`, the real numbers.  Rounding error is not modelled where `R_ops` is used.
* **External code is a universally quantified argument**, never an axiom: LAPACK `gesv` and
  `geev`, the GSL minimizer (any sequence of calls of the two callbacks that its documentation
  allows), MPI (a transition system with a FIFO channel per ordered pair of processes and any
  scheduling; synchronous and buffered sends), the clock (any sequence of readings),
  `std::mt19937` (any outputs), toml11 (a list of keys with typed values), the NetCDF library (a map
  from names to dimensions and typed arrays, with its checks).
* **A property that is false of the code is a finding.** The theorem that shows it is named
  `..._refuted` and exhibits a witness; the strongest true variant is proved beside it.  All findings
  are listed below.

## Which code is modelled

| code in /repo/src | model | what is left out |
|---|---|---|
| xqsc.cpp, driver.cpp | Options.v, MScan.v, Scan.v | printing, MPI_Init/Finalize |
| outfile.cpp | Outfile.v | |
| validate.cpp, `Qsc::validate` | Options.v | |
| toml_util.cpp, qsc_input.cpp, opt_input.cpp, multiopt.cpp (input), multiopt_scan_input.cpp, scan_input.cpp | Toml.v, ScanInput.v, OptInput.v, MultiInput.v | the text parser of toml11, printing |
| vector_matrix.hpp/.cpp | Tensor.v, FloatOps.v, MathOps.v | stream output, BLAS calls themselves |
| allocate.cpp | Alloc.v, Axis.v | |
| qsc.cpp, configurations.cpp | Run.v (from the input file to the output file) | printing, timing |
| differentiation_matrix.cpp | Diff.v | |
| newton.cpp | Newton.v | printing |
| random.hpp/.cpp | RandomGen.v | the bits of `std::mt19937` |
| helicity.cpp | Helicity.v | |
| init_axis.cpp | Axis.v | timing |
| calculate_r1.cpp | R1.v, R1Stale.v | |
| grad_B_tensor.cpp | R1.v (first order), GradGradB.v (second order) | |
| calculate_r2.cpp, mercier.cpp | R2.v | |
| r_singularity.cpp, quartic_roots.cpp | RSing.v | the `if (false)` block, the unused `quartic_roots` variants |
| scan.cpp, scan_random.cpp | Scan.v, ScanDet.v, ScanQsc.v (with the calculation of Run.v), ScanDraw.v, ScanInput.v, ScanFile.v | progress messages |
| scan_collect_results.cpp | Collect.v, Star.v | |
| multiopt_scan.cpp | Grid.v, Farm.v, MScan.v, MScanRun.v, MScanFile.v | progress messages, wall-clock statistics |
| opt.cpp, opt_allocate.cpp, optimize.cpp | Opt.v, OptQsc.v (with the calculation of Run.v), OptInput.v | GSL's algorithm, diagnostic printing |
| multiopt.cpp | Opt.v, Outfile.v | |
| netcdf_writer.cpp, *_write_netcdf.cpp, read_netcdf.cpp | NetCDF.v, NetCDFOut.v | attributes (text descriptions), the byte format of the file |

Not modelled: rounding error in the theorems over the reals; compilers, OpenMP, the internals of
BLAS/LAPACK, GSL, MPI, NetCDF; standard output; the values of timers; the tests in /repo/src/tests.

## Trusted base

* The kernel of Coq 8.16.1 and its standard library; Coquelicot is used for derivatives and adds
  no axioms beyond those listed here.
* That the Gallina model says what the C++ says.  Each definition cites file and lines.
* What `Print Assumptions` lists for each theorem.  Only four sets of axioms occur, all of them
  axioms of Coq's standard library; the entries below give the set for each theorem.

* **[0]** (165 theorems) closed under the global context: no axioms at all
* **[R0]** (6 theorems) `ClassicalDedekindReals.sig_forall_dec`, `FunctionalExtensionality.functional_extensionality_dep`
* **[R]** (36 theorems) `ClassicalDedekindReals.sig_forall_dec`, `ClassicalDedekindReals.sig_not_dec`, `FunctionalExtensionality.functional_extensionality_dep`
* **[RC]** (32 theorems) `ClassicalDedekindReals.sig_forall_dec`, `ClassicalDedekindReals.sig_not_dec`, `FunctionalExtensionality.functional_extensionality_dep`, `Classical_Prop.classic`

## Findings

Statements a user would expect that are false of the code, each with a machine-checked witness
unless marked (text).

* C02 Stage files of a multi-stage job can overwrite the file of another input (`C02_across_jobs_refuted`).
* C04 The option the README gives for random scans is not accepted (`C04_readme_refuted`).
* C05 Unknown top-level tables and keys are ignored (`C05_top_level_refuted`).
* C09 `Matrix::operator=` copies the data but not the shape (`C09_assign_refuted`).
* C13 A NaN residual passes Newton's line search (`C13_newton_nan_refuted`).
* C14, C17 After a failed line search the residual array, iota and sigma are those of the rejected
  trial step (`C14_linesearch_failure_refuted`, `sigma_object_matches_state_refuted`).
* C21 `set_to_nth` does have an effect on generators that are not deterministic (`C21_not_deterministic_refuted`).
* C22 Swapping the limits of a random generator changes the samples; the check of the sign of the limits
  can be passed by underflow (`C22_swap_refuted`, `C22_underflow_refuted`).
* C24 Configurations whose diagnostics are NaN pass every filter of the random scan (`scan_keeps_nan_refuted`).
* C25 With `max_keep_per_proc = 0` the first kept configuration is written out of bounds (`scan_storage_zero_refuted`).
* C27 The position of deterministic generators overflows an `int`; without a limit of attempts all processes
  examine the same configurations (`generator_position_overflow_refuted`, `deterministic_scan_duplicates`).
* C29 Random scans hang when processes take different numbers of checkpoints (`checkpoint_hang_refuted`).
* C32 The number of grid points is computed in an `int` and can overflow (`scan_size_overflow_refuted`).
* C33 In double precision the last grid value can exceed the maximum (`linear_grid_last_double_refuted`).
* C35 The parameter scan can deadlock if MPI does not buffer the final orders to stop
  (`scan_terminates_unbuffered_refuted`).
* C40 Axis modes and stages that do not exist are written out of bounds; a weight scanned in an earlier
  stage is not recorded (`scan_axis_mode_checked_refuted`, `scan_stage_checked_refuted`, `scan_weight_recorded_refuted`).
* C46 Wrong `vary` flags of later stages are rejected only when the stage is reached
  (`later_stage_flags_rejected_early_refuted`).
* C48 If `nopts` is absent an uninitialised number is used (`C48_nopts_missing_refuted`).
* C56 Singularities are missed where the quartic degenerates: e.g. with `K4s = K4c = 0` the radius
  1e30 is reported although the surfaces are singular below r = 1 (`no_singularity_missed_refuted`).
* C61 `iter_curvature_term` is written from the history of the elongation term (`curvature_label_refuted`).
* C64 The final configuration is not that of the last iteration if the first iteration of the minimizer fails
  (`final_configuration_refuted`).
* C107 If the four axis arrays of the input file are empty, reading the input of an optimization writes
  `vary_R0c[0]` and `vary_Z0s[0]` of empty arrays (`opt_without_modes_refuted`).
* C108 In an optimization in several stages, the default lists of varied modes have the size of the axis arrays of the
  input file, so after a stage with `fourier_refine` > 0 they make the program stop (`multi_flags_required`).
* C69 Large axis mode numbers overflow an `int` (`init_axis_overflow`).
* C74 (text) `fX0` and `fXc` of calculate_r2.cpp contain `sG spsi kappa / 2` where the equation has
  `kappa X1c Y1c / 2` in the terms with I2; the two are equal for the first-order solution, so the result is right.
* C76 A scan that keeps 2^31 or more configurations cannot be written (`large_scan_not_written`);
  the fractions rejected due to helicity and beta are not written (text).
* C77 Reading a string that contains no NUL character is undefined behaviour (`string_read_undefined`).

## Plan and result per property

* **C01 Output file name** — `Outfile.v`: strings as `string`, rfind/substr modelled; theorem by induction on the path.
  *Proved*: Properties_Files.v: `C01_output_name` [0], `C01_total` [0], `C01_injective` [0], `C01_not_input` [0].
* **C02 Per-stage file names of a multi-stage optimisation** — `Outfile.v`/`Opt.v`: decimal printing of the stage index is injective, hence names differ.
  *Proved*: Properties_Files.v: `C02_stage_names_distinct` [0], `C02_stage_name_form` [0], `C02_across_jobs_refuted` [0].
  Within one job as stated. Finding: stage names of one job can equal the single-job name of another input (C02_across_jobs_refuted).
* **C03 order_r_option validation** — `Options.v`: case analysis over an arbitrary string.
  *Proved*: Properties_Input.v: `C03_order_r_option` [0].
* **C04 Command dispatch** — `Options.v`: dispatch function over argc and an optional option string; README option `scan` is a refutation.
  *Partial*: Properties_Input.v: `C04_usage` [0], `C04_dispatch` [0], `C04_not_a_string` [0], `C04_readme_refuted` [0].
  Dispatch proved against the code's option table; the README's option name for random scans is refuted.
* **C05 Unknown input keys are rejected** — `Toml.v`: table = association list; the reader is a fold over the program's key list; induction over keys.
  *Proved*: Properties_Input.v: `C05_scan_section` [0], `C05_multiopt_scan_section` [0], `C05_multiopt_section` [0], `C05_qsc_section` [0], `C05_opt_section` [0], `C05_top_level_refuted` [0].
  Within each section as stated. Finding: unknown top-level tables and keys are not rejected (C05_top_level_refuted).
* **C06 Axis coefficient arrays are padded harmlessly** — `Toml.v` (lists, padding) and `Axis.v` (reals, Fourier sums unchanged by zero padding).
  *Proved*: Properties_Axis.v: `padding_harmless` [R].
* **C07 Grid size is odd and arrays fit** — `Alloc.v`: parity lemma and array-size record.
  *Proved*: Properties_Alloc.v: `C07_grid_and_arrays` [0], `C07_idempotent` [0].
* **C08 Matrix and tensor storage** — `Tensor.v`: flat index arithmetic on nat, read/write lemmas on lists with explicit bounds checking.
  *Proved*: Properties_Storage.v: `C08_matrix_history` [0], `C08_tensor3_history` [0], `C08_tensor4_history` [0], `C08_matrix_cells` [0], `C08_tensor3_cells` [0], `C08_tensor4_cells` [0].
* **C09 Matrix assignment keeps a matrix usable** — `Tensor.v`: the true operator= ; refutation with shapes 1x1 <- 2x3; true variant when shapes agree.
  *Partial*: Properties_Storage.v: `C09_assign_same_shape` [0], `C09_assign_refuted` [0].
  The general statement is false of the code: Matrix::operator= copies the data but not the shape (C09_assign_refuted). Proved for equal shapes, the only way /repo uses it.
* **C10 Spectral differentiation is exact** — `Diff.v`: construction loop by loop over R; exactness via finite trigonometric sums, induction on the degree.
  *Proved*: Properties_Diff.v: `differentiation_exact` [R], `differentiation_exact_at_half_refuted` [R].
  In exact arithmetic. The bound on the degree is sharp: differentiation_exact_at_half_refuted.
* **C11 Differentiation matrix structure** — `Diff.v`: entrywise closed form, antisymmetry, circulance, bounds.
  *Proved*: Properties_Diff.v: `differentiation_structure` [0], `differentiation_circulant` [R], `differentiation_empty` [0].
  Bounds, shift and mirror structure for any arithmetic; circulant and antisymmetric with zero row sums in exact arithmetic; N = 0 is undefined behaviour.
* **C12 Newton convergence report is truthful** — `Newton.v`: generic number type with boolean comparison, residual function as a parameter; loop invariant.
  *Proved*: Properties_Newton.v: `C12_newton_status_truthful` [0], `C12_newton_total` [0].
* **C13 Newton never makes things worse** — `Newton.v`: invariant under a total order; with NaN the statement is refuted.
  *Proved*: Properties_Newton.v: `C13_newton_never_worse` [R0], `C13_newton_never_worse_binary64` [0], `C13_newton_nan_refuted` [0].
  Exact arithmetic, and binary64 when no residual norm is NaN. Finding: NaN residuals pass the line search (C13_newton_nan_refuted).
* **C14 Newton output is consistent on line search failure** — `Newton.v`: true on CONVERGED/MAX_ITERATIONS, refuted on LINESEARCH_FAILED.
  *Partial*: Properties_Newton.v: `C14_residual_belongs_to_state_partial` [0], `C14_linesearch_failure_refuted` [0].
  False on NEWTON_LINESEARCH_FAILED: the residual array is that of the rejected state.
* **C15 Newton cost and call discipline** — `Newton.v`: instrumented trace of calls; counting by induction.
  *Proved*: Properties_Newton.v: `C15_newton_calls` [0].
* **C16 Sigma Jacobian is the derivative of the sigma residual** — `R1.v`: residual and Jacobian over R; exact second-order Taylor identity, and `is_derive`.
  *Proved*: Properties_R1.v: `sigma_jacobian_is_derivative` [R], `sigma_jacobian_fresh` [0].
  Exact arithmetic; that the matrix is always evaluated at the current state holds in any arithmetic.
* **C17 Reported iota and sigma solve the sigma equation** — `R1.v`+`Newton.v`: object state updated by the residual callback; refuted on line-search failure.
  *Partial*: Properties_R1.v: `sigma_solution` [R], `sigma_object_matches_state_refuted` [R].
  Proved for every exit but the failure of the line search. Finding: after a failed line search the object's iota and sigma are those of the last rejected trial step, not of the state Newton returned.
* **C18 Helicity is well defined** — `Helicity.v`: telescoping of quadrant differences; winding number defined independently via unwrapped quadrant lift.
  *Proved*: Properties_Helicity.v: `C18_helicity_winding` [0], `C18_helicity_turns` [R].
* **C19 Helicity symmetries** — `Helicity.v`: list reversal, rotation, stuttering.
  *Proved*: Properties_Helicity.v: `C19_helicity_symmetries` [0].
* **C20 Random samples stay in range** — `RandomGen.v`: reals, exp/ln monotonicity.
  *Proved*: Properties_Random.v: `C20_random_range` [RC], `C20_equal_limits` [RC].
  In exact arithmetic.
* **C21 Deterministic sequence positions** — `RandomGen.v`: state machine with abstract step.
  *Proved*: Properties_Random.v: `C21_set_to_nth` [0], `C21_position` [RC], `C21_not_deterministic_refuted` [RC].
  Finding: set_to_nth does have an effect on generators that are not deterministic, contrary to its comment.
* **C22 Sign/limit policy of Random** — `RandomGen.v`: constructor decision table; swap refuted, range symmetric proved.
  *Partial*: Properties_Random.v: `C22_constructor` [RC], `C22_underflow_refuted` [0], `C22_swap_refuted` [RC], `C22_swap_partial` [RC].
  Constructor policy proved in exact arithmetic, refuted in binary64 (underflow). Swapping the limits changes the samples (refuted); what is preserved is proved.
* **C23 Scan counters balance** — `Scan.v`: one-process loop as a function of a list of attempts and clock readings; invariant; merged by sum.
  *Proved*: Properties_Scan.v: `scan_reports_are_true` [0], `scan_counters_balance` [0]; Properties_Collect.v: `parallel_scan_complete` [0].
  Per process for every report, and for the merged counters on process 0.
* **C24 Kept configurations pass every filter** — `Scan.v`: spec_float comparisons; true for non-NaN diagnostics, refuted with NaN.
  *Proved*: Properties_Scan.v: `scan_column` [0], `scan_kept_meets_limits` [0], `scan_kept_meets_limits_real` [R0], `scan_keeps_nan_refuted` [0].
  In the form: no comparison of a kept configuration with a limit came out as a violation; in exact arithmetic this means the limits hold. Finding: NaN values pass all filters (scan_keeps_nan_refuted).
* **C25 Scan storage bounds** — `Scan.v`: bounded writes; refuted for max_keep_per_proc = 0.
  *Proved*: Properties_Scan.v: `scan_storage_safe` [0], `scan_storage_zero_refuted` [0].
  For max_keep_per_proc >= 1. Finding: with max_keep_per_proc = 0 the first keeper is written out of bounds.
* **C26 Scan solve counters** — `Scan.v`: invariant.
  *Proved*: Properties_Scan.v: `scan_solve_counters` [0].
* **C27 Deterministic scans do not depend on the number of processes** — `ScanDet.v`: generator streams composed with the scan loop.
  *Proved*: Properties_ScanDet.v: `deterministic_samples` [0], `deterministic_scan_any_processes` [0], `generator_position_overflow_refuted` [0], `deterministic_scan_duplicates` [0].
  For routines of Qsc that do not depend on earlier configurations (stated as hypothesis). Findings: the generator position overflows int; without an attempt limit all processes examine the same configurations.
* **C28 Gathered scan results are complete** — `Collect.v`: MPI processes as programs, FIFO channels, nondeterministic scheduler; invariant over reachable states.
  *Proved*: Properties_Collect.v: `collect_complete` [0], `parallel_scan_complete` [0].
  When all processes reach collect_results equally often (see C29).
* **C29 Scan checkpoints cannot hang the job** — `Scan.v`/`Collect.v`: collective-operation matching; refuted by a two-process clock history; proved when save_period is never exceeded.
  *Partial*: Properties_Collect.v: `parallel_scan_complete` [0], `collect_mismatch_hangs` [0], `parallel_scan_hangs` [0], `checkpoint_hang_refuted` [0].
  False of the code: processes that take a different number of checkpoints hang. True when the numbers agree (any buffering, any order).
* **C30 The curvature pre-filter is sound** — `R1.v`: real inequality L_grad_B <= 1/kappa.
  *Proved*: Properties_R1.v: `curvature_filter_sound` [R].
  Exact arithmetic.
* **C31 The crude R0 pre-filter is sound** — `Axis.v`/`Scan.v`: R0 at phi=0 and phi=pi/nfp equals the crude sums.
  *Proved*: Properties_Axis.v: `crude_filter` [R], `crude_rejected_sound` [R].
  The filter is exactly R <= 0 at the angles 0 and pi/nfp.
* **C32 Scan grid enumeration** — `Grid.v`: mixed radix decode; bijection by induction on dimensions.
  *Proved*: Properties_Grid.v: `scan_size_accepted` [0], `scan_index_bijection` [0], `scan_index_order` [0], `scan_size_overflow_refuted` [0].
  For grids the program accepts. Finding: the number of points is computed in an int and can overflow.
* **C33 Scan grid values** — `Grid.v`: reals.
  *Proved*: Properties_Grid.v: `linear_grid` [RC], `log_grid` [RC], `linear_grid_rounded` [RC], `linear_grid_last_double_refuted` [0].
  In exact arithmetic; with rounding, linear grids still start at min and never decrease. Finding: in double precision the last value can differ from max, even exceed it (0.3 to 0.9).
* **C34 Every scan point evaluated exactly once** — `Farm.v`: transition system master/workers/channels; inductive invariant.
  *Proved*: Properties_Farm.v: `scan_no_index_twice` [0], `scan_every_index_once` [0].
* **C35 Parameter scan terminates** — `Farm.v`: buffered sends: progress + decreasing measure; synchronous sends: refutation by a reachable stuck state.
  *Partial*: Properties_Farm.v: `scan_bounded` [0], `scan_never_blocks` [0], `scan_can_finish` [0], `scan_terminates_unbuffered_refuted` [0].
  Every execution is finite, and it cannot block if MPI buffers the final orders to stop (one int each). Finding: if it does not buffer them (which the MPI standard allows), the exchange can deadlock.
* **C36 Scan output independent of schedule** — `Farm.v`: final columns = map eval.
  *Proved*: Properties_MScan.v: `scan_output_schedule_independent` [0], `scan_finishes` [0].
  The optimization is a parameter of the model, assumed to leave arrays of the expected sizes (shapes). Times and per-process statistics are not compared.
* **C37 Intermediate saves are consistent** — `Farm.v`+`MScan.v`: invariant linking received set, KEPT counter and flags.
  *Proved*: Properties_MScan.v: `scan_intermediate_files` [0], `scan_fails_only_by_optimization` [0].
* **C38 No column mix-ups in a parameter scan** — `MScan.v`: pack then unpack is the identity per named quantity.
  *Proved*: Properties_MScan.v: `scan_columns_aligned` [0].
* **C39 Parameter scan counters** — `MScan.v`: non-exclusive filters; counting inequalities.
  *Proved*: Properties_MScan.v: `scan_counters_consistent` [0].
* **C40 Scanned parameters are applied to the right stage** — `MScan.v`: record update per parameter name, frame conditions; findings for short arrays.
  *Proved*: Properties_MScan.v: `scan_sets_parameters` [0], `scan_wanted_unique` [0], `scan_accepts_parameters` [0], `scan_unknown_parameter` [0], `scan_axis_mode_checked_refuted` [0], `scan_stage_checked_refuted` [0], `scan_weight_recorded_refuted` [0].
  Findings: an axis mode beyond the initial axis and a stage that does not exist are written out of bounds instead of being refused; a weight scanned in an earlier stage is not recorded in the file.
* **C41 Optimisation state vector round trip** — `Opt.v`: lists with masks; round trip by induction.
  *Proved*: Properties_Opt.v: `state_vector_meaning` [0], `state_vector_round_trip` [0], `no_parameters_rejected` [0].
* **C42 Residual vector is filled exactly** — `Opt.v`: blocks with lengths; writes cover 0..n_terms-1 exactly.
  *Proved*: Properties_Opt.v: `residuals_filled` [0], `residual_names_meaning` [0].
  For the arrays of a configuration of order r2.1 (arrays_ok).
* **C43 Objective equals half the sum of squared residuals** — `Opt.v`: reals, sum of squares.
  *Proved*: Properties_Opt.v: `objective_is_half_norm` [R0].
  In exact arithmetic.
* **C44 Iteration history never overflows** — `Opt.v`: GSL driver as arbitrary callback count within its contract.
  *Proved*: Properties_Opt.v: `optimization_history` [0], `optimization_log` [0].
  The GSL minimizer and the routines of Qsc are parameters; what is assumed of them is called_ok.
* **C45 Fourier refinement schedule** — `Opt.v`: mask evolution by induction on the refinement step.
  *Proved*: Properties_Opt.v: `refinement_step` [0], `refinement_order` [0], `optimization_evaluates` [0], `evaluations_order` [0].
* **C46 Optimisation input validation** — `Opt.v`: checks precede evaluations.
  *Partial*: Properties_Opt.v: `wrong_flags_rejected` [0], `optimization_exceptions` [0], `wrong_flags_rejected_early` [0], `opt_input_nphi_size` [0]; Properties_Input.v: `C05_opt_section` [0]; Properties_MultiOpt.v: `multistage_stops` [0], `multistage_exceptions` [0], `later_stage_flags_rejected_early_refuted` [0].
  Proved for a single stage (and the first stage of several). Finding: in later stages wrong flags are rejected only when the stage is reached; the default flags are wrong after a refinement.
* **C47 Multi-stage optimisation chaining** — `Opt.v`: fold over stages with arbitrary optimiser.
  *Proved*: Properties_MultiOpt.v: `multiopt_chain` [0], `multiopt_continues` [0], `multiopt_sizes` [0].
* **C48 Missing nopts is an error** — `Toml.v`: uninitialised variable is UB; refuted.
  *Partial*: Properties_Input.v: `C48_nopts_given` [0], `C48_nopts_missing_refuted` [0].
  False of the code when nopts is absent: the uninitialised member is used.
* **C49 First order shape** — `R1.v`: reals.
  *Proved*: Properties_R1.v: `first_order_shape` [RC].
  Exact arithmetic.
* **C50 Frenet frame** — `Axis.v`: reals; algebraic identities with derivatives via Coquelicot.
  *Proved*: Properties_Axis.v: `frenet_frame` [R].
  Exact arithmetic; includes the equations of Frenet and Serret, with torsion.
* **C51 Arclength and Boozer angle** — `Axis.v`: sums over the grid.
  *Proved*: Properties_Axis.v: `arclength` [R].
  Exact arithmetic.
* **C52 Field-strength statistics** — `R2.v`: weighted means.
  *Proved*: Properties_R2.v: `B20_statistics` [R].
  exact arithmetic, B0 > 0 and dl/dphi > 0 on the grid; whatever the linear solver returned; also the grid maxima of second order; also that the residual times B0 is at most the variation
* **C53 Second-order solve** — `R2.v`: row-by-row assembly versus equations.
  *Proved*: Properties_R2.v: `second_order_equations` [R], `second_order_defined` [0].
  for every linear solver that returns only solutions (LAPACK's gesv is a parameter); the equations are written out in R2Spec; second_order_defined holds in every arithmetic
* **C54 Mercier criterion** — `R2.v`: sign of squared sums.
  *Proved*: Properties_R2.v: `mercier_criterion` [R].
  exact arithmetic; the axis has dl/dphi > 0 and no point of zero curvature on the grid; also the formulas in terms of the physical quantities and the bounds of the integral
* **C55 Singularity radius is a singularity** — `RSing.v`: arbitrary roots as input, exact arithmetic with explicit NaN branches.
  *Proved*: Properties_RSing.v: `singularity_sound` [RC], `singularity_defined` [RC].
  exact arithmetic; for every result of the eigenvalue routine
* **C56 No singularity is missed** — `RSing.v`: elimination identity; refuted in degenerate cases; proved under non-degeneracy.
  *Partial*: Properties_RSing.v: `no_singularity_missed` [RC], `no_singularity_missed_refuted` [R].
  proved for grid points that are not degenerate and an eigenvalue routine that misses no real eigenvalue; the statement without the nondegeneracy hypotheses is refuted
* **C57 Quartic roots** — `RSing.v`: companion matrix eigen-equation over C.
  *Proved*: Properties_RSing.v: `quartic_roots_exact` [R0], `quartic_roots_returns` [R0].
  LAPACK's geev is a parameter: the theorem says that the matrix it is given has the roots as eigenvalues
* **C58 Gradient tensor of B** — `R1.v`: algebra.
  *Proved*: Properties_R1.v: `grad_B_structure` [RC], `grad_B_symmetric_traceless` [RC], `L_grad_B_le_radius_of_curvature` [R].
  Exact arithmetic. On the grid the trace is the defect of the product rule for the differentiation matrix; it vanishes when that defect does.
* **C59 NetCDF array layout** — `NetCDF.v`: row-major with reversed dimensions = column-major.
  *Proved*: Properties_NetCDF.v: `put_array_layout` [0], `matrix_layout` [0], `qsc_layout` [0].
  arrays of any rank; the four arrays of rank 2 to 4 of a configuration by the index functions of the program
* **C60 NetCDF round trip** — `NetCDF.v`: writer and reader as lists of (name, field); lookup theorem.
  *Proved*: Properties_NetCDF.v: `qsc_round_trip` [0].
  every scalar and vector in the list of read_netcdf, with the C branch; the axis shape, order_r_option, matrices and tensors are not read by the code
* **C61 Optimisation history columns are labelled correctly** — `NetCDF.v`: table of labels; `iter_curvature_term` refuted.
  *Partial*: Properties_NetCDF.v: `optimization_file_partial` [0], `curvature_label_refuted` [0], `opt_labels_partial` [0].
  iter_curvature_term is written from the history of the elongation term (finding); all other variables are proved, for every run of the optimizer
* **C62 A random scan ends when, and only when, a limit is reached** — `Scan.v`: the loop as a function of clock readings; it ends as soon as a limit is reached.
  *Proved*: Properties_Scan.v: `scan_stops` [0].
* **C63 Newton steps with halving** — `Newton.v`: log of the calls of the residual; the k-th trial point is state - step/2^k.
  *Proved*: Properties_NewtonTrace.v: `newton_evaluates_newton_points` [0], `trial_exact` [R0].
  Stated on the log of callback calls.
* **C64 The final configuration of an optimization is the last recorded one** — `Opt.v`: invariant over the calls of the minimizer; refuted if its first iteration fails.
  *Partial*: Properties_Opt.v: `final_configuration` [0], `final_configuration_refuted` [0].
  True if each run of the minimizer ends with a report. Finding: false if its first iteration fails.
* **C65 The first record is the starting configuration** — `Opt.v`: the first report is made from the initial state vector.
  *Proved*: Properties_Opt.v: `first_record_is_start` [0]; Properties_MultiOpt.v: `multiopt_continues` [0].
* **C66 An optimization never accesses arrays out of bounds** — `Opt.v`: every array access of the optimization is in bounds (no UB outcome), induction over stages and refinements.
  *Proved*: Properties_Opt.v: `optimization_in_bounds` [0]; Properties_MultiOpt.v: `multiopt_in_bounds` [0].
* **C67 max_iter bounds what is recorded** — `Opt.v`: loop bound of the history.
  *Proved*: Properties_Opt.v: `max_iter_one_evaluates_nothing` [0], `optimization_history` [0].
* **C68 What a parameter scan assumes of the optimization holds** — `Opt.v`: sizes of all history arrays after the run.
  *Proved*: Properties_MultiOpt.v: `optimization_shapes` [0].
* **C69 Axis frequencies and int** — `Axis.v`: mode numbers n*nfp up to the cube in an `int`; UB exactly when they overflow.
  *Proved*: Properties_Axis.v: `init_axis_defined` [0], `init_axis_overflow` [0].
  Any arithmetic.
* **C70 Axis statistics** — `Axis.v`: extrema and weighted means over the grid.
  *Proved*: Properties_Axis.v: `axis_statistics` [R].
  Exact arithmetic.
* **C71 Derivative along the Boozer angle** — `Axis.v`+`Diff.v`: the Boozer differentiation matrix is the chain rule.
  *Proved*: Properties_Axis.v: `boozer_derivative` [R].
  Exact arithmetic.
* **C72 The strength of the field at second order** — `R2.v`, `Jet.v`: the position vector as a polynomial in r and a trigonometric polynomial in theta; jets give |B|.
  *Proved*: Properties_Field.v: `field_strength_second_order` [R].
  Over the reals.  The regularity hypotheses are met by the circular axis (lemma circle).
* **C73 Flux and Jacobian at second order** — `R2.v`, `Jet.v`: the flux through the cross-section by the jet of the Jacobian.
  *Proved*: Properties_Field.v: `flux_second_order` [R].
  Over the reals.
* **C74 The second-order solution is an equilibrium** — `R2.v`, `Jet.v`: J x B = grad p order by order from the assembled rows and the linear solve.
  *Proved*: Properties_Field.v: `equilibrium_second_order` [R].
  Over the reals, at the grid points where the differentiation matrix obeys the product rule on the first-order quantities; the third-order term of Z, which the code does not compute at this order, is shown to exist.  Hypotheses met in equilibrium_example.
* **C75 The Jacobian coefficients used by the singularity search are those of the coordinates** — `RSing.v`: triple product of the derivatives of the position, coefficient by coefficient.
  *Proved*: Properties_RSing.v: `jacobian_expansion` [R].
  sqrt(g) is the triple product of the derivatives of the position vector in R2Spec.v
* **C76 Output files contain what their variables are named after** — `NetCDFOut.v`: the writer as a list of puts; independent list of variables in `NetCDFNames.v`.
  *Proved*: Properties_NetCDF.v: `qsc_file` [0], `scan_file` [0], `multiopt_scan_file` [0], `large_scan_not_written` [0].
  a scan with 2^31 or more configurations cannot be written (finding); fraction_rejected_due_to_helicity and _beta are not written
* **C77 Reading strings from an output file** — `NetCDF.v`: `get_string` passes a buffer without terminator to `std::string`; refutation.
  *Partial*: Properties_NetCDF.v: `string_read_undefined` [0].
  the property is false: reading any string without a NUL character is undefined behaviour (finding)
* **C78 The reported first and second derivatives of the field reproduce the field near the axis** — `GradGradB.v`: the field along a displaced point to second order equals B + grad B + half grad grad B.
  *Proved*: Properties_GradGradB.v: `field_is_taylor_polynomial` [R].
  Exact arithmetic; derivatives along the axis are those of the differentiation matrix, as in the code.
* **C79 The grad grad B tensor along the axis is the derivative of the grad B tensor** — `GradGradB.v`: tangential slice equals derivative of grad B with the Frenet connection.
  *Proved*: Properties_GradGradB.v: `grad_grad_B_along_axis` [RC].
  Exact arithmetic, under the product rule for the differentiation matrix (nine products), which the English property states.
* **C80 The two calculations of the grad grad B tensor agree** — `GradGradB.v`: the two sets of 27 formulas agree under the second-order equations.
  *Proved*: Properties_GradGradB.v: `two_calculations_agree` [RC].
  Exact arithmetic.
* **C81 L_grad_grad_B is a positive length bounded by the radius of curvature** — `GradGradB.v`: definition of the scale length by the norm of the tensor, minimum over the grid.
  *Proved*: Properties_GradGradB.v: `L_grad_grad_B_meaning` [R].
  Exact arithmetic.
* **C82 The third-order terms make the mean flux balance at the next order** — `R2.v`, `R3Spec.v`: jets of the two forms of the field with the third-order terms; the constant part of the coefficient of r^3 is proportional to the difference from the reported multiple.
  *Proved*: Properties_Third.v: `third_order_terms` [R].
  Exact arithmetic; hypotheses met in third_order_example, with a multiple that is not zero in general.
* **C83 The Jacobian has the right mean at third order** — `R3Spec.v`, `Order.v`: from C72, C74 and C82 by G + iota I times the Jacobian = (covariant field) . (field line); the factor is cancelled.
  *Proved*: Properties_Third.v: `jacobian_third_order` [R].
  Exact arithmetic, at grid points where the product rule holds for the differentiation matrix, as in C74.
* **C84 Maxima of the third-order terms** — `R2.v`: maxima of lists of arrays.
  *Proved*: Properties_Third.v: `third_order_maxima` [R].
  Exact arithmetic.
* **C85 Results do not depend on the past of an object** — `Run.v`: the members as maps from names; a relation on pairs of objects with equal inputs that every step of calculate() preserves for the members assigned so far; the writer reads only those.
  *Proved*: Properties_Run.v: `results_forget_history` [0].
  The model has the members of the object as a map from names; LAPACK's overwriting of the work arrays is covered by the rule that members may change.
* **C86 A run depends only on the input file** — `Run.v`: as C85, from arbitrary contents of memory before the constructor.
  *Proved*: Properties_Run.v: `run_deterministic` [0].
  The members before construction are arbitrary.
* **C87 A run has defined behaviour** — `Run.v`: an outcome logic (`fine`) for every step, from the shapes that allocate() establishes.
  *Proved*: Properties_RunSafe.v: `run_safe` [0], `run_defined` [RC].
  The external solvers are parameters, assumed not to access memory out of bounds and (Newton) to return as many numbers as unknowns.
* **C88 The output file records the inputs** — `Run.v`, `NetCDFOut.v`: the contents of the file (C76) and the members that calculate() keeps.
  *Proved*: Properties_Run.v: `inputs_recorded` [0].
* **C89 Derivatives in the output file are consistent** — `Run.v`, `RunView.v`: the file as a function of the results of the stages.
  *Proved*: Properties_Run.v: `derivatives_consistent` [0].
* **C90 Configurations of the papers by name** — `Run.v`: the constructor by name and the input file lead to objects with equal inputs; then as C85.
  *Proved*: Properties_RunSafe.v: `preset_is_input_file` [0].
  Decimal literals are modelled as quotients of integers.
* **C91 The first-order solution in the output file** — `RunView.v`, `RunShown.v`: the file as a function of the results of the stages; then C16, C49 and C17 for these results.
  *Proved*: Properties_RunFile.v: `first_order_in_file` [RC].
  Real arithmetic.  Rests on the model of the run (Run.v) and of the file (NetCDFOut.v).
* **C92 The axis in the output file** — As C91, with C50, C51 and C70.
  *Proved*: Properties_RunFile.v: `axis_in_file` [R].
  Real arithmetic.
* **C93 The magnetic field in the output file** — As C91, with C72 and C73; the surfaces are rebuilt from the arrays of the file.
  *Proved*: Properties_RunField.v: `field_in_file` [R].
  Real arithmetic.  The derivatives with respect to varphi are those that the file holds (C89), not analytic ones.
* **C94 The second- and third-order results in the output file** — As C91, with C52 to C54, C81, C82 and C84.
  *Proved*: Properties_RunField.v: `second_order_in_file` [R], `third_order_in_file` [R].
  Real arithmetic.  For the two equations the linear solver is assumed to solve the systems it is given, if it returns.
* **C95 The singularity in the output file** — As C91, with C55 to C57 and C75.
  *Proved*: Properties_RunField.v: `singularity_in_file` [RC].
  Real arithmetic, in which every number is finite.
* **C96 The output file contains the gradients of the field** — The view of an output file (RunView) is extended by the tensors of rank 3 and 4 and read in RunShown (shown_grad_B, shown_grad_grad_B, shown_displacement); C58, C78, C79 and C81 are transferred to the values in the file.
  *Proved*: Properties_RunMore.v: `grad_B_in_file` [RC], `gradients_in_file` [RC].
  Exact arithmetic (R). About the file of Run.run: any solver functions; regular_file is a condition on the file itself. The tangential part assumes the product rule of the recorded matrix for nine products; gradients_case shows a run for which all hypotheses hold.
* **C97 The output file contains the derivatives of the axis and exact differentiation matrices** — The view also gives d2_l_d_phi2, d_d_phi and the arrays that are never assigned; the derivatives are those of the Fourier series of AxisFacts, the matrices those of C10 and C71.
  *Proved*: Properties_RunMore.v: `derivatives_in_file` [R], `not_calculated_in_file` [R].
  Exact arithmetic (R). The coefficients are those of the input table or the defaults (section_effect).
* **C98 Whether Newton's method converged can be told from the output file** — NewtonLast: an invariant of the two loops of newton_solve, that the residual array and the data of the callbacks come from the same evaluation, and what each status says about it; transferred to the file with RunView.
  *Proved*: Properties_RunStatus.v: `convergence_in_file` [R].
  Exact arithmetic (R).
* **C99 An optimization reports what single runs give** — OptQsc instantiates the routines of Opt.v with the calculation of Run.v and shows that they meet what C41-C47 assume of them (with the set of objects that calculate can be called for as invariant); RunFacts (results forget the history) and C85 then give the comparison with single runs, NetCDFFacts and optimization_file_partial what is in the file.
  *Proved*: Properties_OptQsc.v: `optimization_writes_runs` [0], `evaluation_is_run` [0], `fixed_inputs_kept` [0], `optimization_defined` [0], `calculation_called_ok` [0], `optimization_completes` [RC].
  The minimizer, the solvers and LAPACK are parameters; what is assumed of them is in the statements. optimization_completes is in real arithmetic.
* **C100 An optimization in several stages gives what single runs give** — multiopt_chain (C47) reduces each stage to a single optimization with the routines of OptQsc, to which C99 applies; OptMulti (stages_throw) says which stage an exception comes from.
  *Proved*: Properties_MultiQsc.v: `stages_write_runs` [0], `stages_fixed_inputs` [0], `stages_defined` [0], `stages_complete` [RC].
  The minimizer, the solvers and LAPACK are parameters; what is assumed of them is in the statements. stages_complete is in real arithmetic.
* **C101 What a random scan records about a configuration is what a run for it alone gives** — ScanQsc instantiates the physics of the scan with the phases of Run; attempt_ends shows by following the filters that an attempt is a prefix of calculate() and that a kept one is all of it; run_between (ScanFacts) carries the invariant `prepared object, fixed inputs` from attempt to attempt; RunInput turns a successful calculate() into a plain run.
  *Proved*: Properties_ScanQsc.v: `scan_defined` [0], `scan_records_runs` [0], `scan_exceptions` [0], `scan_completes` [RC].
  The model of the random scan (C23-C26) with the routines of Run.v in place of its parameters. scan_completes (reals): if the solvers and LAPACK succeed the scan does not throw. The random draws and the clock are arbitrary; the collection over several processes is that of C27 and C28.
* **C102 The output file of a parallel random scan lists runs of the code** — ScanFile says which members of the scan object hold the merged results; parallel_scan_complete (C28) gives the merged results of every collection, kept_is_run (C101) says that each kept configuration is a run, and scan_file (C59) gives the file; reading the variables back by name joins them.
  *Proved*: Properties_ScanFile.v: `scan_file_holds_runs` [0].
  ScanFile.v models which members of the scan object collect_results sets (names of the arrays, rows of the merged matrices, counters). The linear solvers and LAPACK are parameters that return or throw; fewer than 2^31 configurations. That processes may reach collect_results differently often, in which case the scan hangs, is C29.
* **C103 A parameter scan saves what runs of the single configurations give** — Instantiate the optimization in the model of the parameter scan (MScan.v) with the multi-stage optimizer and the calculation of Run.v; combine the description of the output (C36-C38) with C100 and with the file of a run.
  *Proved*: Properties_MScanQsc.v: `parameter_scan_lists_runs` [0], `point_defined` [0].
  Real optimizer (Opt.v) and calculation (Run.v) inside the message exchange of Farm.v; the solvers, LAPACK and GSL are parameters. The value of nphi of each run is that of the last stage and is not part of the output of the scan.
* **C104 The output file of a parameter scan lists what runs for the single configurations write** — MScanFile.v: the members of the object of class MultiOptScan from which write_netcdf() writes (multiopt_scan_write_netcdf.cpp), with the writer of NetCDFOut.v. Properties_MScanFile.v: the file describes the results at the points of the grid (from C36-C38 and the theorems on the NetCDF file), and, with C103, each entry is what a single run writes.
  *Proved*: Properties_MScanFile.v: `scan_file_described` [0], `parameter_scan_file_holds_runs` [0].
  The first theorem is for any optimization, the second for the optimization of Opt.v that calls the calculation of Run.v. What the file does not hold: nphi of the kept configurations and order_r_option; its variable p2 is that of the input file, not of the kept configurations (scan_p2 is).
* **C105 The configurations of a random scan lie within the limits of the input file** — ScanDraw.v: whole_scan, which constructs the generators (ScanDet.v) and runs the loop with the calculation (ScanQsc.v). Proof: an invariant on the generators (each is reachable from its constructor), C20 for each draw, and an induction over the loop for the log of attempts; then C101 for the saved configurations.
  *Proved*: Properties_ScanDraw.v: `scan_in_ranges` [RC], `whole_scan_records_runs` [RC], `whole_scan_defined` [RC].
  Over the real numbers. whole_scan is the whole of Scan::random in one process: generators of ScanDet.v, loop of Scan.v, calculation of Run.v. whole_scan_defined supposes that the positions of the generators fit in int; generator_position_overflow_refuted (C27) shows a case in which they do not.
* **C106 A random scan from the input file to the output file** — ScanInput.v: Scan::defaults, Scan::input with the padding of the limits, and Scan::run up to the communication. Proof: the reading satisfies the section specification (C05, C06); the variables keep their types, so the object meets the hypotheses of C102, C105 and C24; these are combined for each entry of the output file.
  *Proved*: Properties_ScanInput.v: `scan_table_read` [0], `scan_program_defined` [RC], `scan_stops_as_told` [RC], `scan_from_input_to_output` [RC].
  whole of Scan::run from the tables of the TOML file (the parser itself is external) to the contents of the output file; real arithmetic; needs (nmax)*nfp <= 1290, nphi < 2^30, max_keep_per_proc >= 1, rank*max_attempts_per_proc within int, fewer than 2^31 configurations in the file; example scan_input_example
* **C107 An optimization does what its input file says, and its output file lists what single runs write** — OptInput.v: Opt::defaults, Opt::input and Opt::run. Proof: the reading satisfies the section specification (C05, C06, C46), so the object meets the hypotheses of C99 and of the theorems about the history and the refinement (C41-C47); these are combined.
  *Proved*: Properties_OptInput.v: `opt_tables_read` [0], `opt_program_defined` [0], `opt_from_input_to_output` [0], `opt_without_modes_refuted` [0].
  For input whose axis has at least one mode; opt_without_modes_refuted shows that with four empty arrays the program writes out of bounds. The GSL minimizer is any that calls back as documented (gsl_ok).
* **C108 A multi-stage optimization is correct from its input file to its output files** — MultiInput.v: MultiOpt::input and MultiOpt::run up to the writing of the files. Proof: the objects read for the stages meet the hypotheses of C47 and C100; the evaluations of each stage are related to its start (C41-C46), and the start to the end of the stage before; the sizes of the lists of varied modes follow by induction on the stages.
  *Proved*: Properties_MultiInput.v: `multi_program_defined` [0], `multi_from_input_to_output` [0], `multi_flag_sizes` [0], `multi_flags_required` [0].
  From the tables to the files, for any number of stages. multi_flags_required records that the default lists of varied modes cannot be used after a stage with refinement.
* **C109 Every parameter that an input file omits has its default** — The defaults are listed by key in a specification separate from the stores of the model. Proof: a key that is absent leaves the variable as the constructor set it (C05, C46, C106), and the lists are compared with the stores key by key.
  *Proved*: Properties_Defaults.v: `qsc_omitted` [0], `opt_omitted` [0], `term_omitted` [0], `scan_omitted` [0].
  The defaults are listed in a separate specification.
