# Formal model of landreman/qsc in Rocq (Coq 8.16.1)

Generated by `tools/design.py` from `tools/design_head.md` (this text), `tools/plan.txt`
(one line per property), MANIFEST.json and the output of `Print Assumptions`.

## What is modelled and how

The code in /repo/src is modelled function by function as total Gallina functions
(directory `rocq/theories`); every definition of the model cites the file and lines it models.
For each part `X` of the code there is a model `X.v`, where useful a separate specification
`XSpec.v` that does not mention the model's helpers, lemmas `XFacts.v`, and the theorems of the
properties with concrete examples in `Properties_*.v`.

* **Failures are outcomes.** A function that can fail returns `Ok v`, `Throw msg` (a C++
  exception) or `UB why` (undefined behaviour: access outside an array, use of an uninitialised
  variable, overflow of an `int`).  An access outside an array is `UB`, never a default value.
* **Arithmetic is a parameter.** `FloatOps.fops F` and `MathOps.mops F` are records of
  operations (addition, comparison, square root, sine, ...).  Control flow, counters and array
  bounds are proved for *every* such record, hence also for IEEE arithmetic with NaN; statements
  about NaN use the instance `D_ops` (binary64 of `Coq.Floats.SpecFloat`); numerical identities use
  the instance `R_ops`, the real numbers.  Rounding error is not modelled where `R_ops` is used.
* **External code is a universally quantified argument**, never an axiom: LAPACK `gesv` and
  `geev`, the GSL minimizer (any sequence of calls of the two callbacks that its documentation
  allows), MPI (a transition system with a FIFO channel per ordered pair of processes and any
  scheduling; synchronous and buffered sends), the clock (any sequence of readings),
  `std::mt19937` (any outputs), toml11 (a list of keys with typed values), the NetCDF library (a map
  from names to dimensions and typed arrays, with its checks).
* **A property that is false of the code is a finding.** The theorem that shows it is named
  `..._refuted` and exhibits a witness; the strongest true variant is proved beside it.  All findings
  are listed below.

## Which code is modelled

| code in /repo/src | model | what is left out |
|---|---|---|
| xqsc.cpp, driver.cpp | Options.v, MScan.v, Scan.v | printing, MPI_Init/Finalize |
| outfile.cpp | Outfile.v | |
| validate.cpp, `Qsc::validate` | Options.v | |
| toml_util.cpp, qsc_input.cpp, opt_input.cpp, multiopt.cpp (input), multiopt_scan_input.cpp, scan_input.cpp | Toml.v, ScanInput.v, OptInput.v, MultiInput.v | the text parser of toml11, printing |
| vector_matrix.hpp/.cpp | Tensor.v, FloatOps.v, MathOps.v | stream output, BLAS calls themselves |
| allocate.cpp | Alloc.v, Axis.v | |
| qsc.cpp, configurations.cpp | Run.v (from the input file to the output file) | printing, timing |
| differentiation_matrix.cpp | Diff.v | |
| newton.cpp | Newton.v | printing |
| random.hpp/.cpp | RandomGen.v | the bits of `std::mt19937` |
| helicity.cpp | Helicity.v | |
| init_axis.cpp | Axis.v | timing |
| calculate_r1.cpp | R1.v, R1Stale.v | |
| grad_B_tensor.cpp | R1.v (first order), GradGradB.v (second order) | |
| calculate_r2.cpp, mercier.cpp | R2.v | |
| r_singularity.cpp, quartic_roots.cpp | RSing.v | the `if (false)` block, the unused `quartic_roots` variants |
| scan.cpp, scan_random.cpp | Scan.v, ScanDet.v, ScanQsc.v (with the calculation of Run.v), ScanDraw.v, ScanInput.v, ScanFile.v | progress messages |
| scan_collect_results.cpp | Collect.v, Star.v | |
| multiopt_scan.cpp | Grid.v, Farm.v, MScan.v, MScanRun.v, MScanFile.v | progress messages, wall-clock statistics |
| opt.cpp, opt_allocate.cpp, optimize.cpp | Opt.v, OptQsc.v (with the calculation of Run.v), OptInput.v | GSL's algorithm, diagnostic printing |
| multiopt.cpp | Opt.v, Outfile.v | |
| netcdf_writer.cpp, *_write_netcdf.cpp, read_netcdf.cpp | NetCDF.v, NetCDFOut.v | attributes (text descriptions), the byte format of the file |

Not modelled: rounding error in the theorems over the reals; compilers, OpenMP, the internals of
BLAS/LAPACK, GSL, MPI, NetCDF; standard output; the values of timers; the tests in /repo/src/tests.

## Trusted base

* The kernel of Coq 8.16.1 and its standard library; Coquelicot is used for derivatives and adds
  no axioms beyond those listed here.
* That the Gallina model says what the C++ says.  Each definition cites file and lines.
* What `Print Assumptions` lists for each theorem.  Only four sets of axioms occur, all of them
  axioms of Coq's standard library; the entries below give the set for each theorem.

@ASSUMPTIONS@

## Findings

Statements a user would expect that are false of the code, each with a machine-checked witness
unless marked (text).

* C02 Stage files of a multi-stage job can overwrite the file of another input (`C02_across_jobs_refuted`).
* C04 The option the README gives for random scans is not accepted (`C04_readme_refuted`).
* C05 Unknown top-level tables and keys are ignored (`C05_top_level_refuted`).
* C09 `Matrix::operator=` copies the data but not the shape (`C09_assign_refuted`).
* C13 A NaN residual passes Newton's line search (`C13_newton_nan_refuted`).
* C14, C17 After a failed line search the residual array, iota and sigma are those of the rejected
  trial step (`C14_linesearch_failure_refuted`, `sigma_object_matches_state_refuted`).
* C21 `set_to_nth` does have an effect on generators that are not deterministic (`C21_not_deterministic_refuted`).
* C22 Swapping the limits of a random generator changes the samples; the check of the sign of the limits
  can be passed by underflow (`C22_swap_refuted`, `C22_underflow_refuted`).
* C24 Configurations whose diagnostics are NaN pass every filter of the random scan (`scan_keeps_nan_refuted`).
* C25 With `max_keep_per_proc = 0` the first kept configuration is written out of bounds (`scan_storage_zero_refuted`).
* C27 The position of deterministic generators overflows an `int`; without a limit of attempts all processes
  examine the same configurations (`generator_position_overflow_refuted`, `deterministic_scan_duplicates`).
* C29 Random scans hang when processes take different numbers of checkpoints (`checkpoint_hang_refuted`).
* C32 The number of grid points is computed in an `int` and can overflow (`scan_size_overflow_refuted`).
* C33 In double precision the last grid value can exceed the maximum (`linear_grid_last_double_refuted`).
* C35 The parameter scan can deadlock if MPI does not buffer the final orders to stop
  (`scan_terminates_unbuffered_refuted`).
* C40 Axis modes and stages that do not exist are written out of bounds; a weight scanned in an earlier
  stage is not recorded (`scan_axis_mode_checked_refuted`, `scan_stage_checked_refuted`, `scan_weight_recorded_refuted`).
* C46 Wrong `vary` flags of later stages are rejected only when the stage is reached
  (`later_stage_flags_rejected_early_refuted`).
* C48 If `nopts` is absent an uninitialised number is used (`C48_nopts_missing_refuted`).
* C56 Singularities are missed where the quartic degenerates: e.g. with `K4s = K4c = 0` the radius
  1e30 is reported although the surfaces are singular below r = 1 (`no_singularity_missed_refuted`).
* C61 `iter_curvature_term` is written from the history of the elongation term (`curvature_label_refuted`).
* C64 The final configuration is not that of the last iteration if the first iteration of the minimizer fails
  (`final_configuration_refuted`).
* C107 If the four axis arrays of the input file are empty, reading the input of an optimization writes
  `vary_R0c[0]` and `vary_Z0s[0]` of empty arrays (`opt_without_modes_refuted`).
* C108 In an optimization in several stages, the default lists of varied modes have the size of the axis arrays of the
  input file, so after a stage with `fourier_refine` > 0 they make the program stop (`multi_flags_required`).
* C69 Large axis mode numbers overflow an `int` (`init_axis_overflow`).
* C74 (text) `fX0` and `fXc` of calculate_r2.cpp contain `sG spsi kappa / 2` where the equation has
  `kappa X1c Y1c / 2` in the terms with I2; the two are equal for the first-order solution, so the result is right.
* C76 A scan that keeps 2^31 or more configurations cannot be written (`large_scan_not_written`);
  the fractions rejected due to helicity and beta are not written (text).
* C77 Reading a string that contains no NUL character is undefined behaviour (`string_read_undefined`).

## Plan and result per property

